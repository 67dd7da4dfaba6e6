(** Sony .spi3d files, and .spi1d files with a blank line. *)
From Coq Require Import List Arith Lia ZArith String Ascii Bool.
From Verif Require Import PBase PFacts PRegistry PNumText PLutText PInverse2 PGrid PXmlArray PSpi SpecLut.
Import ListNotations.
Local Open Scope string_scope.
Local Open Scope list_scope.

(** ** Nested loops as one list *)
Lemma flat_two {A} m n (F : nat -> nat -> A) :
  List.concat (map (fun a => map (F a) (seq 0 n)) (seq 0 m)) = map (fun i => F (i / n) (i mod n)) (seq 0 (m * n)).
Proof.
  destruct n as [|n'].
  - rewrite Nat.mul_0_r. cbn [seq map]. induction (seq 0 m) as [|x l IH]; [reflexivity|exact IH].
  - set (n := S n'). induction m as [|m IH]; [reflexivity|].
    rewrite seq_S, map_app, concat_app, IH. cbn [map List.concat Nat.add]. rewrite app_nil_r.
    replace (S m * n) with (m * n + n) by lia. rewrite seq_app, map_app. f_equal. cbn [Nat.add].
    assert (S0 : forall q k b, seq (k + b) q = map (fun j => k + j) (seq b q)).
    { clear. induction q as [|q IH]; intros k b; [reflexivity|]. cbn [seq map]. f_equal. rewrite <- IH. f_equal. lia. }
    rewrite <- (Nat.add_0_r (m * n)), S0, map_map. apply map_ext_in. intros j Hj. apply in_seq in Hj.
    rewrite Nat.div_add_l, Nat.div_small, Nat.add_0_r by lia. f_equal.
    rewrite Nat.add_comm, Nat.mod_add by lia. symmetry. apply Nat.mod_small. lia.
Qed.

(** The cells of an a x b x d lattice, the last index varying fastest. *)
Definition cells {A} (a b d : nat) (h : nat -> nat -> nat -> A) : list A :=
  map (fun i => h (i / d / b) ((i / d) mod b) (i mod d)) (seq 0 (a * b * d)).
Lemma cells_nested {A} a b d (h : nat -> nat -> nat -> A) :
  List.concat (List.concat (map (fun r => map (fun g => map (h r g) (seq 0 d)) (seq 0 b)) (seq 0 a))) = cells a b d h.
Proof.
  rewrite (flat_two a b (fun r g => map (h r g) (seq 0 d))).
  rewrite (flat_two (a * b) d (fun i => h (i / b) (i mod b))). reflexivity.
Qed.
Lemma cells_length {A} a b d (h : nat -> nat -> nat -> A) : List.length (cells a b d h) = a * b * d.
Proof. unfold cells. now rewrite map_length, seq_length. Qed.
Lemma cells_in {A} a b d (h : nat -> nat -> nat -> A) x : In x (cells a b d h) -> exists r g k, r < a /\ g < b /\ k < d /\ x = h r g k.
Proof.
  intro H. apply in_map_iff in H as (i & <- & Hi). apply in_seq in Hi.
  assert (b <> 0 /\ d <> 0) as [Hb Hd] by (split; intros ->; nia).
  exists (i / d / b), ((i / d) mod b), (i mod d). repeat split; try (apply Nat.mod_upper_bound; assumption).
  apply Nat.div_lt_upper_bound; [exact Hb|]. apply Nat.div_lt_upper_bound; [exact Hd|]. nia.
Qed.
Lemma cells_map {A B} (f : A -> B) a b d h : map f (cells a b d h) = cells a b d (fun r g k => f (h r g k)).
Proof. unfold cells. now rewrite map_map. Qed.
Lemma cell_lt a b d r g k : r < a -> g < b -> k < d -> (r * b + g) * d + k < a * b * d.
Proof.
  intros Hr Hg Hk. assert (H : r * b + g < a * b) by nia. revert H. generalize (r * b + g) (a * b). intros x y H.
  apply Nat.lt_le_trans with (S x * d); [cbn; lia|]. apply Nat.mul_le_mono_r. lia.
Qed.
Lemma cell_index {A} a b d (h : nat -> nat -> nat -> A) r g k : r < a -> g < b -> k < d ->
  nth_error (cells a b d h) ((r * b + g) * d + k) = Some (h r g k).
Proof.
  intros Hr Hg Hk. unfold cells. assert (Hi : (r * b + g) * d + k < a * b * d) by (now apply cell_lt).
  erewrite map_nth_error; [|rewrite (nth_error_nth' _ 0) by (now rewrite seq_length); rewrite seq_nth by exact Hi; reflexivity].
  cbn [Nat.add]. f_equal.
  assert (E1 : ((r * b + g) * d + k) / d = r * b + g) by (rewrite Nat.div_add_l, Nat.div_small, Nat.add_0_r by lia; reflexivity).
  assert (E2 : ((r * b + g) * d + k) mod d = k) by (rewrite Nat.add_comm, Nat.mod_add, Nat.mod_small by lia; reflexivity).
  rewrite E1, E2. rewrite Nat.div_add_l, Nat.div_small, Nat.add_0_r by lia. f_equal.
  rewrite Nat.add_comm, Nat.mod_add, Nat.mod_small by lia. reflexivity.
Qed.
Lemma nested_mapM {A B} a b d (F : nat -> nat -> nat -> res A) (h : nat -> nat -> nat -> A) (k : list A -> res B) :
  (forall r g c, r < a -> g < b -> c < d -> F r g c = Ok (h r g c)) ->
  (let* rows := mapM (fun r => mapM (fun g => mapM (fun c => F r g c) (seq 0 d)) (seq 0 b)) (seq 0 a) in k (List.concat (List.concat rows))) =
  k (cells a b d h).
Proof.
  intro H. rewrite (mapM_Ok _ (fun r => map (fun g => map (h r g) (seq 0 d)) (seq 0 b))).
  - cbn [bind]. now rewrite cells_nested.
  - intros r Hr. apply in_seq in Hr. apply mapM_Ok. intros g Hg. apply in_seq in Hg. apply mapM_Ok. intros c Hc. apply in_seq in Hc.
    apply H; lia.
Qed.
Lemma cells_mapM {A B} (G : A -> res B) a b d h (h' : nat -> nat -> nat -> B) :
  (forall r g k, r < a -> g < b -> k < d -> G (h r g k) = Ok (h' r g k)) -> mapM G (cells a b d h) = Ok (cells a b d h').
Proof.
  intro H. unfold cells. rewrite mapM_map. apply mapM_Ok. intros i Hi. apply in_seq in Hi.
  assert (b <> 0 /\ d <> 0) as [Hb Hd] by (split; intros ->; nia).
  apply H; try (apply Nat.mod_upper_bound; assumption).
  apply Nat.div_lt_upper_bound; [exact Hb|]. apply Nat.div_lt_upper_bound; [exact Hd|]. nia.
Qed.
Lemma tableOf_cells {T} r0 r1 r2 (f : nat -> nat -> nat -> list T) : (forall r g b, r < r0 -> g < r1 -> b < r2 -> List.length (f r g b) = 3) ->
  tableOf (List.concat (cells r0 r1 r2 f)) r0 r1 r2 f.
Proof.
  intro H. assert (F : Forall (fun r => List.length r = 3) (cells r0 r1 r2 f)).
  { apply Forall_forall. intros v Hv. apply cells_in in Hv as (r & g & b & ? & ? & ? & ->). now apply H. }
  split.
  - rewrite (concat_rows_length 3), cells_length by exact F. lia.
  - intros r g b Hr Hg Hb. pose proof (concat_slice 3 (cells r0 r1 r2 f) ((r * r1 + g) * r2 + b) F) as E.
    rewrite cells_length in E. specialize (E ltac:(now apply cell_lt)). pose proof (cell_index r0 r1 r2 f r g b Hr Hg Hb) as C.
    unfold slice. replace (((r * r1 + g) * r2 + b) * 3 + 3 - ((r * r1 + g) * r2 + b) * 3) with 3 by lia.
    rewrite E. now apply nth_error_nth with (d := []) in C.
Qed.

Section Spi3.
  Context {T : Type} {NM : Num T} {X : NumText T} {OK : TextOk T}.
  Variables (str : T -> string) (kept : T -> T).

  Lemma spi_blank ls l d : In l ls -> MNumText.split l = [] ->
    (forall v w rest z, In v ls -> MNumText.split v = "Version" :: w :: rest -> parseInt w = Ok z -> z = 1%Z) ->
    exists e, spiLines (T:=T) ls d = Err e.
  Proof.
    revert d. induction ls as [|v ls IH]; intros d Hl El Hv; [destruct Hl|]. cbn [spiLines].
    destruct (MNumText.split v) as [|t0 ts] eqn:Es; [eexists; reflexivity|].
    assert (Hl' : In l ls) by (destruct Hl as [->|]; [congruence|assumption]). clear Hl.
    assert (IH' : forall d, exists e, spiLines (T:=T) ls d = Err e).
    { intro d'. apply IH; try assumption. intros v' w rest z Hin. apply Hv. now right. }
    cbn [getn nth_error bind]. destruct (String.eqb_spec t0 "Version") as [->|_].
    - destruct ts as [|w rest]; [eexists; reflexivity|]. change (getn ("Version" :: w :: rest) 1) with (Ok w). cbn [bind].
      destruct (parseInt w) as [z|e] eqn:Ez; [|eexists; reflexivity]. cbn [bind].
      rewrite (Hv v w rest z) by (assumption || now left). apply IH'.
    - repeat match goal with
             | |- exists e, (if ?b then _ else _) = Err e => destruct b
             | |- exists e, bind ?r _ = Err e => destruct r; cbn [bind]; [|eexists; reflexivity]
             end; apply IH'.
  Qed.
  Theorem spi1d_blank t l inverse interp im hd : In l (splitLines t) -> MNumText.split l = [] ->
    (forall v w rest z, In v (splitLines t) -> MNumText.split v = "Version" :: w :: rest -> parseInt w = Ok z -> z = 1%Z) ->
    exists e, readSPI1D (T:=T) t inverse interp im hd = Err e.
  Proof. intros H1 H2 H3. unfold readSPI1D. edestruct spi_blank as [e ->]; try eassumption. eexists. reflexivity. Qed.

  Definition spi3Row (r g b : nat) (v : list T) : string :=
    (join " " (map natText [r; g; b]) ++ " " ++ join " " (map str v))%string.
  Lemma spi3Row_words r g b v : List.length v = 3 -> spi3Row r g b v = join " " (map natText [r; g; b] ++ map str v).
  Proof.
    intro L. destruct v as [|x [|y [|z [|? ?]]]]; try discriminate L. unfold spi3Row. cbn [map join app].
    match goal with |- ?a = ?b => rewrite <- (text_chars a), <- (text_chars b) end.
    f_equal. rewrite !chars_app, <- !app_assoc. reflexivity.
  Qed.
  Lemma spi3Row_read r g b v : List.length v = 3 -> Forall (printsAs str kept) v ->
    (let* vs := mapM parseFloat (MNumText.split (spi3Row r g b v)) in Ok (skipn 3 vs)) = Ok (map kept v) /\ oneLine (spi3Row r g b v).
  Proof.
    intros L P. assert (W : Forall word (map natText [r; g; b] ++ map str v)) by (apply Forall_app; split; [apply nats_word|now apply (strs_words str kept)]).
    rewrite spi3Row_words by exact L. split.
    - rewrite split_join by exact W. rewrite mapM_app. destruct (parse_natText_ok (T:=T) r) as [a Ea], (parse_natText_ok (T:=T) g) as [c Ec], (parse_natText_ok (T:=T) b) as [d Ed].
      cbn [map mapM]. rewrite Ea, Ec, Ed. cbn [bind]. rewrite (strs_parse str kept) by exact P. reflexivity.
    - apply oneLine_join; [now repeat constructor|]. refine (Forall_impl _ _ W). apply oneLine_word.
  Qed.

  Theorem spi3d_round_trip lo hi data r0 r1 r2 f interp (one : T) :
    parseFloat "1.0" = Ok one -> neqb one n1 = true ->
    latticeOf data r0 r1 r2 f -> (forall r g b, r < r0 -> g < r1 -> b < r2 -> Forall (printsAs str kept) (f r g b)) ->
    exists t vals, writeSPI3D str lo hi data r0 r1 r2 = Ok t /\
      readSPI3D t interp = Ok [lut3dNode "lut3d" (if String.eqb interp "linear" then "trilinear" else interp) r0 r1 r2 vals] /\
      tableOf vals r0 r1 r2 (fun r g b => map kept (f r g b)).
  Proof.
    intros P1 E1 D P. unfold writeSPI3D.
    rewrite (nested_mapM r0 r1 r2 _ (fun r g b => spi3Row r g b (f r g b)) (fun rows => Ok (lines (_ ++ rows)))).
    2:{ intros r g b Hr Hg Hb. destruct (D r g b Hr Hg Hb) as [-> _]. reflexivity. }
    exists (lines (["SPILUT 1.0"; "3 3"; join " " (map natText [r0; r1; r2])] ++ cells r0 r1 r2 (fun r g b => spi3Row r g b (f r g b)))),
           (List.concat (cells r0 r1 r2 (fun r g b => map kept (f r g b)))).
    split; [reflexivity|]. split.
    2:{ apply tableOf_cells. intros r g b Hr Hg Hb. rewrite map_length. now apply D. }
    unfold readSPI3D. rewrite splitLines_all.
    2:{ apply Forall_app. split.
        - constructor; [now repeat constructor|]. constructor; [now repeat constructor|]. constructor; [|constructor].
          apply oneLine_join; [now repeat constructor|]. refine (Forall_impl _ _ (nats_word _)). apply oneLine_word.
        - apply Forall_forall. intros l Hl. apply cells_in in Hl as (r & g & b & Hr & Hg & Hb & ->).
          apply (spi3Row_read r g b (f r g b)); [now apply D|now apply P]. }
    change (getn (["SPILUT 1.0"; ?a; ?b] ++ ?l) 0) with (Ok (A:=string) "SPILUT 1.0").
    change (getn (["SPILUT 1.0"; ?a; ?b] ++ ?l) 1) with (Ok a).
    change (getn (["SPILUT 1.0"; ?a; ?b] ++ ?l) 2) with (Ok b).
    change (skipn 3 (["SPILUT 1.0"; ?a; ?b] ++ ?l)) with l.
    cbn [bind]. change (MNumText.split "SPILUT 1.0") with ["SPILUT"; "1.0"].
    cbn [getn nth_error bind]. change (String.eqb "SPILUT" "SPILUT") with true. cbv iota. rewrite P1. cbn [bind]. rewrite E1.
    change (mapM parseInt (MNumText.split "3 3")) with (Ok [3; 3]%Z). cbn [bind getn nth_error]. change (3 =? 3)%Z with true. cbn [bind].
    rewrite split_join by apply nats_word. rewrite parse_nats. cbn [bind].
    rewrite (cells_mapM _ r0 r1 r2 _ (fun r g b => map kept (f r g b))).
    2:{ intros r g b Hr Hg Hb. apply spi3Row_read; [now apply D|now apply P]. }
    cbn [bind]. now rewrite lut3d_node.
  Qed.
End Spi3.
