(** The cube of a .ctl file. *)
From Coq Require Import List Arith Lia ZArith String Ascii Bool.
From Verif Require Import PBase PFacts PRegistry PNumText PLutText PInverse2 PGrid PXmlArray PSpi PSpi3 PCsp PCsp2 PCsp3 PIndent SpecLut.
Import ListNotations.
Local Open Scope string_scope.
Local Open Scope list_scope.

(** [l] holds the words [ws] and ends in a blank (or is empty). *)
Definition holdsWords (l : list ascii) (ws : list string) : Prop := forall r, splitFrom [] (l ++ r) = ws ++ splitFrom [] r.
Lemma hw_nil : holdsWords [] []. Proof. intro r. reflexivity. Qed.
Lemma hw_app l m v w : holdsWords l v -> holdsWords m w -> holdsWords (l ++ m) (v ++ w).
Proof. intros H K r. now rewrite <- !app_assoc, H, K. Qed.
Lemma hw_blank l : Forall (fun a => isSpace a = true) l -> holdsWords l [].
Proof. intros H r. now apply splitFrom_spaces. Qed.
Lemma hw_word w n a : word w -> isSpace a = true -> holdsWords (chars (padLeft n w) ++ [a]) [w].
Proof.
  intros W S r. rewrite <- app_assoc. cbn [app]. rewrite splitFrom_pad by (exact W || exact S). cbn [app splitFrom]. now rewrite S.
Qed.
Lemma hw_flat {A} (g : A -> list ascii) (w : A -> list string) l : (forall x, In x l -> holdsWords (g x) (w x)) ->
  holdsWords (flat_map g l) (flat_map w l).
Proof.
  induction l as [|x l IH]; intro H; [apply hw_nil|]. cbn [flat_map]. apply hw_app; [apply H; now left|apply IH; intros; apply H; now right].
Qed.

Definition bare (a : ascii) : ascii := if Ascii.eqb a "{" || Ascii.eqb a "}" || Ascii.eqb a "," then " "%char else a.
Definition bareChars (s : string) : list ascii := map bare (chars s).
Lemma bare_app s t : bareChars (s ++ t) = bareChars s ++ bareChars t.
Proof. unfold bareChars. now rewrite chars_app, map_app. Qed.
Lemma bare_concat ss : bareChars (String.concat "" ss) = flat_map bareChars ss.
Proof. induction ss as [|s ss IH]; [reflexivity|]. rewrite PLutText.concat_cons, bare_app, IH. reflexivity. Qed.
Lemma bareWords_hw s ws : holdsWords (bareChars s) ws -> bareWords s = ws.
Proof.
  intro H. unfold bareWords, MNumText.split. rewrite chars_text. fold (bareChars s). specialize (H []). rewrite app_nil_r in H.
  fold bare in H |- *. etransitivity; [exact H|]. cbn. apply app_nil_r.
Qed.

Lemma map_flat_map {A B C} (f : B -> C) (g : A -> list B) l : map f (flat_map g l) = flat_map (fun x => map f (g x)) l.
Proof. induction l as [|x l IH]; [reflexivity|]. cbn [flat_map]. now rewrite map_app, IH. Qed.
Lemma sapp_assoc a b c : ((a ++ b) ++ c = a ++ b ++ c)%string.
Proof. induction a as [|x a IH]; [reflexivity|]. cbn [String.append]. now rewrite IH. Qed.
Lemma cube_shape a b c d e k1 k2 k3 k4 k5 k6 k7 p q cube rest :
  (lines [a; b; c; d; e; (k1 ++ k2 ++ k3 ++ k4 ++ k5 ++ k6 ++ k7); p] ++ cube ++ lines [q; ""] ++ rest =
   lines [a; b; c; d; e] ++ k1 ++ k2 ++ k3 ++ k4 ++ k5 ++ k6 ++ k7 ++ newline ++ p ++ newline ++ cube ++ q ++ newline ++ (newline ++ rest))%string.
Proof. unfold lines. cbn [map]. rewrite !PLutText.concat_cons, !sapp_assoc. reflexivity. Qed.

Section Ctl3.
  Context {T : Type} {NM : Num T} {X : NumText T} {OK : TextOk T}.

  Definition plainChar (a : ascii) : Prop := bare a = a.
  Lemma digit_plain a : isDigit a = true -> plainChar a.
  Proof. intro H. unfold plainChar, bare. destruct (Ascii.eqb_spec a "{") as [->|]; [discriminate|]. destruct (Ascii.eqb_spec a "}") as [->|]; [discriminate|].
    destruct (Ascii.eqb_spec a ",") as [->|]; [discriminate|reflexivity]. Qed.
  Lemma digits_plain l : Forall (fun a => isDigit a = true) l -> Forall plainChar l.
  Proof. apply Forall_impl. apply digit_plain. Qed.
  Lemma plain_fmt (x : T) : Forall plainChar (chars (fmtF x)).
  Proof.
    unfold fmtF, formatFixed. pose proof (to_fixed 6 x) as F. destruct (tfixed 6 x) as [neg m e|neg|].
    - unfold fixedForm in F. subst e. destruct (fixText_literal neg m 6) as (ip & fp & -> & Di & Ni & Df & _ & _). unfold literal. rewrite chars_text.
      apply Forall_app_mk; [destruct neg; now repeat constructor|]. apply Forall_app_mk; [now apply digits_plain|].
      apply Forall_app_mk; [|constructor]. constructor; [reflexivity|now apply digits_plain].
    - destruct neg; now repeat constructor.
    - now repeat constructor.
  Qed.
  Lemma map_plain l : Forall plainChar l -> map bare l = l.
  Proof. induction 1 as [|a l H _ IH]; [reflexivity|]. cbn [map]. now rewrite H, IH. Qed.
  Lemma fmt_bare (x : T) : bareChars (fmt3 6 x) = chars (fmt3 6 x).
  Proof.
    unfold bareChars, fmt3. rewrite chars_repeat_pad. fold (fmtF x). rewrite map_app, (map_plain (chars (fmtF x))) by apply plain_fmt.
    f_equal. apply map_plain. apply Forall_forall. intros a Ha. apply repeat_spec in Ha. now subst.
  Qed.
  (** Numbers separated by commas, then anything that starts with a blank. *)
  Lemma hw_row v a : isSpace a = true -> v <> [] -> holdsWords (bareChars (join ", " (map (fmt3 6) v)) ++ [a]) (map fmtF v).
  Proof.
    intros S Ne. induction v as [|x v IH]; [contradiction|]. cbn [map]. destruct v as [|y v].
    - cbn [map join]. rewrite fmt_bare. apply hw_word; [apply fmtF_word|exact S].
    - rewrite join_cons. cbn [map] in IH |- *. rewrite !bare_app, <- !app_assoc, fmt_bare.
      change (fmtF x :: fmtF y :: map fmtF v) with ([fmtF x] ++ [] ++ fmtF y :: map fmtF v).
      change (bareChars ", ") with ([" "%char] ++ [" "%char]). rewrite <- !app_assoc. rewrite app_assoc.
      apply hw_app; [apply hw_word; [apply fmtF_word|reflexivity]|].
      apply hw_app; [apply hw_blank; now repeat constructor|]. apply IH. discriminate.
  Qed.
  Definition ctlCell (r2 b : nat) (v : list T) : string :=
    ("{" ++ join ", " (map (fmt3 6) v) ++ "}" ++ if Nat.eqb (S b) r2 then newline ++ " " else "," ++ newline ++ tab ++ tab ++ "  ")%string.
  Lemma hw_cell r2 b v : v <> [] -> holdsWords (bareChars (ctlCell r2 b v)) (map fmtF v).
  Proof.
    intro Ne. unfold ctlCell. rewrite !bare_app. change (bareChars "{") with [" "%char]. change (bareChars "}") with [" "%char].
    change (map fmtF v) with ([] ++ map fmtF v). apply hw_app; [apply hw_blank; now repeat constructor|].
    rewrite app_assoc. rewrite <- (app_nil_r (map fmtF v)). apply hw_app; [now apply hw_row|].
    apply hw_blank. destruct (Nat.eqb (S b) r2); now repeat constructor.
  Qed.

  Theorem ctl3d_cube (lo hi : T) data r0 r1 r2 f : latticeOf data r0 r1 r2 f ->
    exists pre cube post, writeCTL3D lo hi data r0 r1 r2 =
      Ok (pre ++ "const float cube[" ++ natText r0 ++ "][" ++ natText r1 ++ "][" ++ natText r2 ++ "][3] = " ++ newline ++ "{" ++ newline ++
          cube ++ "};" ++ newline ++ post)%string /\
      bareWords cube = map (formatFixed 6) (colourList r0 r1 r2 f).
  Proof.
    intro D. unfold writeCTL3D, ctlCube.
    rewrite (mapM_Ok _ (fun r => (tab ++ "{" ++ newline ++ String.concat "" (map (fun g => (tab ++ tab ++ "{ " ++
        String.concat "" (map (fun b => ctlCell r2 b (f r g b)) (seq 0 r2)) ++ "}" ++ if Nat.eqb (S g) r1 then newline else "," ++ newline)%string) (seq 0 r1)) ++
        tab ++ "}" ++ if Nat.eqb (S r) r0 then newline else ", ")%string)).
    2:{ intros r Hr. apply in_seq in Hr. rewrite (mapM_Ok _ (fun g => (tab ++ tab ++ "{ " ++
          String.concat "" (map (fun b => ctlCell r2 b (f r g b)) (seq 0 r2)) ++ "}" ++ if Nat.eqb (S g) r1 then newline else "," ++ newline)%string)); [reflexivity|].
        intros g Hg. apply in_seq in Hg. rewrite (mapM_Ok _ (fun b => ctlCell r2 b (f r g b))); [reflexivity|].
        intros b Hb. apply in_seq in Hb. destruct (D r g b) as [-> _]; [lia..|]. reflexivity. }
    cbn [bind]. set (cube := String.concat "" _).
    match goal with |- context [lines (?a :: ?b :: ?c :: ?d :: ?e :: _)] => exists (lines [a; b; c; d; e]) end.
    exists cube. eexists. split; [f_equal; exact (cube_shape _ _ _ _ _ _ _ _ _ _ _ _ _ _ _ _)|].
    apply bareWords_hw. unfold cube. clear cube. rewrite bare_concat, flat_map_concat_map, map_map, <- flat_map_concat_map.
      unfold colourList. rewrite map_flat_map. apply hw_flat. intros r Hr. apply in_seq in Hr.
      rewrite !bare_app, bare_concat, flat_map_concat_map, map_map, <- flat_map_concat_map. rewrite map_flat_map.
      assert (Blank : forall s ws t, Forall (fun a => isSpace a = true) (bareChars s) -> holdsWords t ws -> holdsWords (bareChars s ++ t) ws).
      { intros s ws t Hs Ht. change ws with ([] ++ ws). apply hw_app; [now apply hw_blank|exact Ht]. }
      do 3 (apply Blank; [now repeat constructor|]). match goal with |- holdsWords _ ?w => rewrite <- (app_nil_r w) end. apply hw_app.
      2:{ do 2 (apply Blank; [now repeat constructor|]). apply hw_blank. destruct (Nat.eqb (S r) r0); now repeat constructor. }
      apply hw_flat. intros g Hg. apply in_seq in Hg. rewrite !bare_app, bare_concat, flat_map_concat_map, map_map, <- flat_map_concat_map. rewrite map_flat_map.
      do 3 (apply Blank; [now repeat constructor|]). match goal with |- holdsWords _ ?w => rewrite <- (app_nil_r w) end. apply hw_app.
      2:{ apply Blank; [now repeat constructor|]. apply hw_blank. destruct (Nat.eqb (S g) r1); now repeat constructor. }
      apply hw_flat. intros b Hb. apply in_seq in Hb. apply hw_cell. destruct (D r g b) as [_ L]; [lia..|]. intro E. rewrite E in L. discriminate L.
  Qed.
End Ctl3.

(** The program of a CTL file. *)
Section Program.
  Context {T : Type} {X : NumText T}.
  Theorem ctl_program :
    (forall str (lo hi : T) data entries channels components t, Nat.min 3 (Nat.min components channels) = 3 ->
       writeCTL1D str lo hi data entries channels components = Ok t ->
       exists title tables, t = lines ([title; ""; ctlBound "min1d" lo; ctlBound "max1d" hi; ""] ++ tables ++ ctlProgram (ctlLookups ["lut0"; "lut1"; "lut2"]))) /\
    (forall str (lo hi : T) data entries channels components t, Nat.min 3 (Nat.min components channels) = 1 ->
       writeCTL1D str lo hi data entries channels components = Ok t ->
       exists title tables, t = lines ([title; ""; ctlBound "min1d" lo; ctlBound "max1d" hi; ""] ++ tables ++ ctlProgram (ctlLookups ["lut"; "lut"; "lut"]))) /\
    (forall (lo hi : T) data r0 r1 r2 t, writeCTL3D lo hi data r0 r1 r2 = Ok t ->
       exists title cube, t = (lines [title; ""; ctlBound3 "min3d" lo; ctlBound3 "max3d" hi; ""] ++ cube ++
         lines (ctlProgram ["  lookup3D_f(cube, min3d, max3d, r, g, b, r, g, b);"]))%string).
  Proof.
    split; [|split].
    - intros str lo hi data entries channels components t K E. unfold writeCTL1D in E. rewrite K in E. cbn [Nat.eqb] in E.
      apply bind_ok in E. destruct E as [tables [_ E]]. apply Ok_inj in E. subst t. eexists. exists tables. reflexivity.
    - intros str lo hi data entries channels components t K E. unfold writeCTL1D in E. rewrite K in E. cbn [Nat.eqb] in E.
      apply bind_ok in E. destruct E as [tables [_ E]]. apply Ok_inj in E. subst t. eexists. exists tables. reflexivity.
    - intros lo hi data r0 r1 r2 t E. unfold writeCTL3D in E. apply bind_ok in E. destruct E as [cube [_ E]]. apply Ok_inj in E. subst t.
      assert (A : forall a b c d e, ((a ++ b) ++ c ++ d ++ e = a ++ (b ++ c ++ d) ++ e)%string) by (intros; now rewrite !sapp_assoc).
      eexists. eexists. match goal with |- (lines [?a; ?b; ?c; ?d; ?e; ?f; ?g] ++ _)%string = _ =>
        change (lines [a; b; c; d; e; f; g]) with (lines ([a; b; c; d; e] ++ [f; g])) end.
      rewrite lines_app, A. reflexivity.
  Qed.
End Program.
