(** Lemmas about the Python vocabulary and the pixel loops. *)
From Verif Require Export MProcess.
Notation concat := List.concat.

(* ------------------------------------------------------------------ *)
(** * Results *)

Lemma bind_ok {A B} (m : res A) (k : A -> res B) b :
  bind m k = Ok b -> exists a, m = Ok a /\ k a = Ok b.
Proof. destruct m; simpl; [eauto | discriminate]. Qed.

Lemma Ok_inj {A} (a b : A) : Ok a = Ok b -> a = b.
Proof. congruence. Qed.

Lemma bind_assoc {A B C} (m : res A) (k : A -> res B) (k' : B -> res C) :
  bind (bind m k) k' = bind m (fun a => bind (k a) k').
Proof. destruct m; reflexivity. Qed.

Lemma bind_ret {A} (m : res A) : bind m Ok = m.
Proof. destruct m; reflexivity. Qed.

Lemma bind_ext {A B} (m : res A) (k k' : A -> res B) :
  (forall a, m = Ok a -> k a = k' a) -> bind m k = bind m k'.
Proof. destruct m; simpl; auto. Qed.

Ltac inv_ok :=
  repeat match goal with
  | H : bind _ _ = Ok _ |- _ => apply bind_ok in H; destruct H as [? [? H]]
  | H : Ok _ = Ok _ |- _ => injection H as H; try subst
  | H : Err _ = Ok _ |- _ => discriminate H
  end.

(* ------------------------------------------------------------------ *)
(** * Lists *)

Lemma getn_some {A} (l : list A) i x : getn l i = Ok x <-> nth_error l i = Some x.
Proof. unfold getn. destruct (nth_error l i); split; intro H; inversion H; auto. Qed.

Lemma getn_lt {A} (l : list A) i : i < List.length l -> exists x, getn l i = Ok x.
Proof.
  intro H. unfold getn. destruct (nth_error l i) eqn:E; eauto.
  apply nth_error_None in E. lia.
Qed.

Lemma getn_ge {A} (l : list A) i : List.length l <= i -> getn l i = Err IndexError.
Proof. intro H. unfold getn. apply nth_error_None in H. now rewrite H. Qed.

Lemma getn_ok_lt {A} (l : list A) i x : getn l i = Ok x -> i < List.length l.
Proof. rewrite getn_some. intro H. apply nth_error_Some. now rewrite H. Qed.

Lemma setn_lt {A} (l : list A) i x :
  i < List.length l -> setn l i x = Ok (firstn i l ++ x :: skipn (S i) l).
Proof.
  revert i. induction l as [|h t IH]; intros i H; [simpl in H; lia|].
  destruct i as [|i]; [reflexivity|].
  simpl. rewrite IH by (simpl in H; lia). reflexivity.
Qed.

Lemma setn_ge {A} (l : list A) i x : List.length l <= i -> setn l i x = Err IndexError.
Proof.
  revert i. induction l as [|h t IH]; intros i H; [reflexivity|].
  destruct i as [|i]; [simpl in H; lia|].
  simpl. rewrite IH by (simpl in H; lia). reflexivity.
Qed.

Lemma setn_length {A} (l : list A) i x l' : setn l i x = Ok l' -> List.length l' = List.length l.
Proof.
  revert i l'. induction l as [|h t IH]; intros i l' H; [discriminate|].
  destruct i as [|i]; simpl in H.
  - injection H as <-. reflexivity.
  - inv_ok. simpl. erewrite IH; eauto.
Qed.

Lemma setn_nth {A} (l : list A) i x l' j :
  setn l i x = Ok l' -> nth_error l' j = if Nat.eqb i j then Some x else nth_error l j.
Proof.
  revert i l' j. induction l as [|h t IH]; intros i l' j H; [discriminate|].
  destruct i as [|i]; simpl in H.
  - injection H as <-. destruct j; reflexivity.
  - inv_ok. destruct j; simpl; [reflexivity|]. eapply IH; eauto.
Qed.

Lemma setn_self {A} (l : list A) i x : nth_error l i = Some x -> setn l i x = Ok l.
Proof.
  revert i. induction l as [|h t IH]; intros [|i] H; try discriminate; simpl in *.
  - injection H as ->. reflexivity.
  - rewrite IH by assumption. reflexivity.
Qed.

Lemma setn_setn {A} (l : list A) i x y l' : setn l i x = Ok l' -> setn l' i y = setn l i y.
Proof.
  revert i l'. induction l as [|h t IH]; intros [|i] l' H; try discriminate; simpl in H.
  - injection H as <-. reflexivity.
  - inv_ok. simpl. erewrite IH; eauto.
Qed.

Lemma setn_ok_lt {A} (l : list A) i x l' : setn l i x = Ok l' -> i < List.length l.
Proof.
  intro H. destruct (Nat.lt_ge_cases i (List.length l)) as [Hl|Hl]; auto.
  rewrite (setn_ge l i x Hl) in H. discriminate.
Qed.

Lemma slice_set_length {A} (l : list A) a vs :
  a + List.length vs <= List.length l -> List.length (slice_set l a vs) = List.length l.
Proof.
  intro H. unfold slice_set. rewrite !app_length, firstn_length, skipn_length. lia.
Qed.

Lemma slice_length {A} (l : list A) a b :
  a <= b -> b <= List.length l -> List.length (slice l a b) = b - a.
Proof. intros H1 H2. unfold slice. rewrite firstn_length, skipn_length. lia. Qed.

Lemma slice_app_skip {A} (p l : list A) a b :
  List.length p <= a -> slice (p ++ l) a b = slice l (a - List.length p) (b - List.length p).
Proof.
  intro H. unfold slice. rewrite skipn_app. rewrite skipn_all2 by lia. simpl.
  f_equal. lia.
Qed.

Lemma slice_set_app {A} (p l : list A) vs :
  slice_set (p ++ l) (List.length p) vs = p ++ vs ++ skipn (List.length vs) l.
Proof.
  unfold slice_set. rewrite firstn_app, Nat.sub_diag, firstn_all. simpl. rewrite app_nil_r.
  f_equal. f_equal. rewrite skipn_app. rewrite skipn_all2 by lia. simpl. f_equal. lia.
Qed.

Lemma nth_error_ext {A} (l1 l2 : list A) :
  (forall i, nth_error l1 i = nth_error l2 i) -> l1 = l2.
Proof.
  revert l2. induction l1 as [|a t IH]; intros l2 H.
  - destruct l2 as [|b t2]; [reflexivity|]. specialize (H 0). discriminate.
  - destruct l2 as [|b t2]; [specialize (H 0); discriminate|].
    f_equal. { specialize (H 0). simpl in H. congruence. }
    apply IH. intro i. exact (H (S i)).
Qed.

(* ------------------------------------------------------------------ *)
(** * Loops *)

Lemma for_each_app {A S} (xs ys : list A) (f : A -> S -> res S) s :
  for_each (xs ++ ys) f s = let* s' := for_each xs f s in for_each ys f s'.
Proof.
  revert s. induction xs as [|x t IH]; intro s; simpl; [reflexivity|].
  rewrite bind_assoc. apply bind_ext. auto.
Qed.

Lemma for_each_ext {A S} (xs : list A) (f g : A -> S -> res S) s :
  (forall x s, In x xs -> f x s = g x s) -> for_each xs f s = for_each xs g s.
Proof.
  revert s. induction xs as [|x t IH]; intros s H; simpl; [reflexivity|].
  rewrite H by (left; reflexivity). apply bind_ext. intros; apply IH.
  intros; apply H; right; assumption.
Qed.

Lemma for_each_inv {A S} (P : S -> Prop) (xs : list A) (f : A -> S -> res S) s s' :
  (forall x s s', P s -> f x s = Ok s' -> P s') -> P s -> for_each xs f s = Ok s' -> P s'.
Proof.
  intro Hf. revert s. induction xs as [|x t IH]; intros s Hs H; simpl in H.
  - injection H as <-. assumption.
  - apply bind_ok in H. destruct H as [s1 [H1 H2]]. apply (IH s1); eauto.
Qed.

Lemma mapM_length {A B} (f : A -> res B) l l' : mapM f l = Ok l' -> List.length l' = List.length l.
Proof.
  revert l'. induction l as [|x t IH]; intros l' H; simpl in H; inv_ok; [reflexivity|].
  simpl. erewrite IH; eauto.
Qed.

Lemma mapM_app {A B} (f : A -> res B) l1 l2 :
  mapM f (l1 ++ l2) = let* a := mapM f l1 in let* b := mapM f l2 in Ok (a ++ b).
Proof.
  induction l1 as [|x t IH]; simpl.
  - rewrite bind_ret. reflexivity.
  - rewrite IH. rewrite !bind_assoc. apply bind_ext. intros y _. rewrite !bind_assoc.
    apply bind_ext. intros a _. rewrite !bind_assoc. simpl. apply bind_ext. reflexivity.
Qed.

Lemma mapM_nth {A B} (f : A -> res B) l l' i x :
  mapM f l = Ok l' -> nth_error l i = Some x -> exists y, f x = Ok y /\ nth_error l' i = Some y.
Proof.
  revert l' i. induction l as [|h t IH]; intros l' i H Hi; simpl in H.
  - destruct i; discriminate.
  - inv_ok. destruct i as [|i]; simpl in *.
    + injection Hi as <-. eauto.
    + eapply IH; eauto.
Qed.

Lemma mapM_Ok {A B} (f : A -> res B) (g : A -> B) l :
  (forall x, In x l -> f x = Ok (g x)) -> mapM f l = Ok (map g l).
Proof.
  induction l as [|x t IH]; intro H; simpl; [reflexivity|].
  rewrite H by (left; reflexivity). simpl. rewrite IH; [reflexivity|].
  intros; apply H; right; assumption.
Qed.

Lemma mapM_ext {A B} (f g : A -> res B) l :
  (forall x, In x l -> f x = g x) -> mapM f l = mapM g l.
Proof.
  induction l as [|x t IH]; intro H; simpl; [reflexivity|].
  rewrite H by (left; reflexivity). rewrite IH; [reflexivity|].
  intros; apply H; right; assumption.
Qed.

(** [mapM] with the index. *)
Fixpoint mapMi {A B} (f : nat -> A -> res B) (i : nat) (l : list A) : res (list B) :=
  match l with
  | [] => Ok []
  | x :: t => let* y := f i x in let* ys := mapMi f (S i) t in Ok (y :: ys)
  end.

Lemma mapMi_length {A B} (f : nat -> A -> res B) i l l' :
  mapMi f i l = Ok l' -> List.length l' = List.length l.
Proof.
  revert i l'. induction l as [|x t IH]; intros i l' H; simpl in H; inv_ok; [reflexivity|].
  simpl. erewrite IH; eauto.
Qed.

Lemma mapMi_nth {A B} (f : nat -> A -> res B) i l l' k x :
  mapMi f i l = Ok l' -> nth_error l k = Some x ->
  exists y, f (i + k) x = Ok y /\ nth_error l' k = Some y.
Proof.
  revert i l' k. induction l as [|h t IH]; intros i l' k H Hk; simpl in H.
  - destruct k; discriminate.
  - inv_ok. destruct k as [|k]; simpl in *.
    + injection Hk as <-. rewrite Nat.add_0_r. eauto.
    + rewrite Nat.add_succ_r. rewrite <- Nat.add_succ_l. eapply IH; eauto.
Qed.

Lemma mapMi_Ok {A B} (f : nat -> A -> res B) (g : nat -> A -> B) i l :
  (forall k x, f k x = Ok (g k x)) ->
  mapMi f i l = Ok (map (fun p => g (fst p) (snd p)) (combine (seq i (List.length l)) l)).
Proof.
  intro H. revert i. induction l as [|x t IH]; intro i; simpl; [reflexivity|].
  rewrite H. simpl. rewrite IH. reflexivity.
Qed.

Lemma mapMi_mapM {A B} (f : A -> res B) i l : mapMi (fun _ => f) i l = mapM f l.
Proof. revert i. induction l as [|x t IH]; intro i; simpl; [reflexivity|]. now rewrite IH. Qed.

Lemma mapMi_ext {A B} (f g : nat -> A -> res B) i l :
  (forall k x, i <= k < i + List.length l -> f k x = g k x) -> mapMi f i l = mapMi g i l.
Proof.
  revert i. induction l as [|x t IH]; intros i H; simpl; [reflexivity|].
  rewrite H by (simpl; lia). apply bind_ext; intros y _. rewrite IH; [reflexivity|].
  intros; apply H; simpl; lia.
Qed.

(** A loop whose i-th iteration replaces element i by a function of it. *)
Lemma for_each_elem {A} (g : nat -> A -> res A) (body : nat -> list A -> res (list A)) :
  (forall i l, body i l = let* x := getn l i in let* y := g i x in setn l i y) ->
  forall pre l k, k <= List.length l ->
  for_each (seq (List.length pre) k) body (pre ++ l) =
  let* ys := mapMi g (List.length pre) (firstn k l) in Ok (pre ++ ys ++ skipn k l).
Proof.
  intros Hb pre l k. revert pre l. induction k as [|k IH]; intros pre l Hk; simpl.
  - reflexivity.
  - destruct l as [|x t]; [simpl in Hk; lia|]. simpl in *.
    rewrite Hb.
    assert (Hg : getn (pre ++ x :: t) (List.length pre) = Ok x).
    { apply getn_some. rewrite nth_error_app2 by lia. now rewrite Nat.sub_diag. }
    rewrite Hg. simpl. rewrite !bind_assoc. apply bind_ext. intros y _.
    assert (Hs : setn (pre ++ x :: t) (List.length pre) y = Ok ((pre ++ [y]) ++ t)).
    { rewrite setn_lt by (rewrite app_length; simpl; lia).
      rewrite firstn_app, Nat.sub_diag, firstn_all, firstn_O, app_nil_r.
      rewrite skipn_app, skipn_all2 by lia.
      replace (S (List.length pre) - List.length pre) with 1 by lia. simpl.
      now rewrite <- app_assoc. }
    rewrite Hs. simpl.
    replace (S (List.length pre)) with (List.length (pre ++ [y])) by (rewrite app_length; simpl; lia).
    rewrite IH by lia. rewrite bind_assoc. apply bind_ext. intros ys _. simpl.
    now rewrite <- !app_assoc.
Qed.

(** Such a loop run past the end of the list, from its start. *)
Lemma for_each_elem0 {A} (g : nat -> A -> res A) (body : nat -> list A -> res (list A)) :
  (forall i l, body i l = let* x := getn l i in let* y := g i x in setn l i y) ->
  forall l k, k <= List.length l ->
  for_each (seq 0 k) body l = let* ys := mapMi g 0 (firstn k l) in Ok (ys ++ skipn k l).
Proof. intros Hb l k Hk. exact (for_each_elem g body Hb [] l k Hk). Qed.

(* ------------------------------------------------------------------ *)
(** * Updates and the pixel loop *)

Section Loop.
  Context {T : Type} {N : Num T}.

  (** Several assignments to one element, as one. *)
  Definition updX (px : list T) (i : nat) (g : T -> res T) : res (list T) :=
    let* x := getn px i in let* y := g x in setn px i y.

  Lemma upd_updX (px : list T) i f : upd px i f = updX px i (fun x => let* y := f x in Ok (nf32 y)).
  Proof.
    unfold upd, updX. apply bind_ext; intros x _. rewrite bind_assoc. apply bind_ext. reflexivity.
  Qed.

  Lemma updX_updX (px : list T) i f g :
    (let* px := updX px i f in updX px i g) = updX px i (fun x => let* y := f x in g y).
  Proof.
    unfold updX. rewrite bind_assoc. apply bind_ext; intros x Hx. rewrite !bind_assoc.
    apply bind_ext; intros y _.
    destruct (setn px i y) as [l'|e] eqn:E; simpl.
    - assert (Hn : getn l' i = Ok y).
      { apply getn_some. rewrite (setn_nth _ _ _ _ i E), Nat.eqb_refl. reflexivity. }
      rewrite Hn. simpl. apply bind_ext; intros z _. eapply setn_setn; eauto.
    - apply getn_ok_lt in Hx. rewrite setn_lt in E by assumption. discriminate.
  Qed.

  Lemma updX_ext (px : list T) i f g : (forall x, f x = g x) -> updX px i f = updX px i g.
  Proof. intro H. unfold updX. apply bind_ext; intros. now rewrite H. Qed.

  Lemma updX_length (px : list T) i f px' : updX px i f = Ok px' -> List.length px' = List.length px.
  Proof. unfold updX. intro H. inv_ok. eapply setn_length; eauto. Qed.

  Lemma copyExtra_id stride (px : list T) :
    List.length px = stride -> copyExtra stride px = Ok px.
  Proof.
    intro H. unfold copyExtra.
    assert (Hx : forall ks, (forall k, In k ks -> k < List.length px) ->
      for_each ks (fun i px => let* v := getn px i in setn px i v) px = Ok px).
    { induction ks as [|k t IH]; intro Hk; simpl; [reflexivity|].
      destruct (getn_lt px k) as [v Hv]; [apply Hk; left; reflexivity|].
      rewrite Hv. simpl. rewrite setn_self by (now apply getn_some). simpl.
      apply IH. intros; apply Hk; right; assumption. }
    apply Hx. intros k Hk. apply in_seq in Hk. lia.
  Qed.

  (** The whole pixels of a buffer, and what is left over. *)
  Definition pixels (st : nat) (values : list T) : list (list T) :=
    map (fun p => slice values (p * st) ((p + 1) * st)) (seq 0 (List.length values / st)).
  Definition leftover (st : nat) (values : list T) : list T :=
    skipn ((List.length values / st) * st) values.

  Lemma skipn_skipn {A} (a b : nat) (l : list A) : skipn a (skipn b l) = skipn (b + a) l.
  Proof.
    revert l. induction b as [|b IH]; intro l; simpl; [reflexivity|].
    destruct l; [now rewrite skipn_nil|]. apply IH.
  Qed.

  Lemma skipn_repeat {A} (x : A) n k : skipn k (repeat x n) = repeat x (n - k).
  Proof.
    revert n. induction k as [|k IH]; intros [|n]; simpl; auto.
  Qed.

  Lemma pixelLoop_gen (f : list T -> res (list T)) (st : nat) (values : list T) :
    st <> 0 ->
    (forall px o, List.length px = st -> f px = Ok o -> List.length o = st) ->
    pixelLoop (fun _ => f) st values =
    let* outs := mapM f (pixels st values) in
    Ok {| po_in := concat outs ++ leftover st values;
          po_out := concat outs ++ repeat n0 (List.length (leftover st values));
          po_same := false |}.
  Proof.
    intros Hst Hlen. unfold pixelLoop, pydiv, pixels, leftover.
    destruct st as [|st']; [congruence|]. set (st := S st') in *. cbn [bind].
    set (n := List.length values / st).
    assert (Hn : n * st <= List.length values).
    { unfold n. rewrite Nat.mul_comm. apply Nat.mul_div_le. exact Hst. }
    clearbody n. clearbody st.
    assert (G : forall m k done, k + m = n -> List.length (concat done) = k * st ->
      for_each (seq k m)
        (fun p '(vals, outs) =>
           let* o := f (slice vals (p * st) ((p + 1) * st)) in
           Ok (slice_set vals (p * st) o, slice_set outs (p * st) o))
        (concat done ++ skipn (k * st) values,
         concat done ++ repeat n0 (List.length values - k * st)) =
      let* outs := mapM f (map (fun p => slice values (p * st) ((p + 1) * st)) (seq k m)) in
      Ok (concat (done ++ outs) ++ skipn (n * st) values,
          concat (done ++ outs) ++ repeat n0 (List.length values - n * st))).
    { induction m as [|m IH]; intros k done Hk Hd.
      - simpl. rewrite app_nil_r. replace k with n by lia. reflexivity.
      - cbn [seq for_each map mapM].
        assert (Hs : slice (concat done ++ skipn (k * st) values) (k * st) ((k + 1) * st)
                     = slice values (k * st) ((k + 1) * st)).
        { rewrite slice_app_skip by lia. rewrite Hd, Nat.sub_diag.
          unfold slice. rewrite !Nat.sub_0_r. f_equal. }
        rewrite Hs. rewrite !bind_assoc. apply bind_ext. intros o Ho. cbn [bind].
        assert (Hlo : List.length o = st).
        { eapply Hlen; [|exact Ho]. rewrite slice_length; nia. }
        assert (E1 : slice_set (concat done ++ skipn (k * st) values) (k * st) o
                     = concat (done ++ [o]) ++ skipn (S k * st) values).
        { rewrite <- Hd. rewrite slice_set_app. rewrite concat_app. cbn [List.concat]. rewrite app_nil_r.
          rewrite <- app_assoc. f_equal. f_equal. rewrite skipn_skipn. f_equal. rewrite Hd, Hlo. cbn [Nat.mul]. lia. }
        assert (E2 : slice_set (concat done ++ repeat n0 (List.length values - k * st)) (k * st) o
                     = concat (done ++ [o]) ++ repeat n0 (List.length values - S k * st)).
        { rewrite <- Hd at 2. rewrite slice_set_app. rewrite concat_app. cbn [List.concat]. rewrite app_nil_r.
          rewrite <- app_assoc. f_equal. f_equal. rewrite skipn_repeat. f_equal. rewrite Hlo. cbn [Nat.mul]. lia. }
        rewrite E1, E2. rewrite IH.
        + rewrite !bind_assoc. apply bind_ext. intros outs _. cbn [bind].
          rewrite <- app_assoc. reflexivity.
        + lia.
        + rewrite concat_app, app_length. simpl. rewrite app_nil_r. lia. }
    specialize (G n 0 [] eq_refl eq_refl). cbn [concat app] in G.
    rewrite Nat.sub_0_r in G. simpl (skipn (0 * st) values) in G. rewrite G.
    rewrite !bind_assoc. apply bind_ext. intros outs _. cbn [bind]. simpl app.
    f_equal. f_equal. f_equal. f_equal. rewrite skipn_length. reflexivity.
  Qed.
End Loop.
