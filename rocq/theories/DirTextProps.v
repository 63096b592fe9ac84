(** * What the text of a direction tells *)

From Coq Require Import String Ascii List ZArith Reals Lra Lia.
From Flocq Require Import Core.
From Verif Require Import Num CruiseModel FloatMod FloatUnit FloatSteps FuzzyTextProps DirTextModel.
Import ListNotations.
Open Scope string_scope.
Open Scope R_scope.

(** Texts of numbers have no spaces, and different numbers have different texts. *)
Definition good_show (show : R -> string) : Prop :=
  (forall x, free " "%char (show x)) /\ (forall x y, binary64 x -> binary64 y -> show x = show y -> x = y).

(** The name of the sail, where no name and the empty name are the same. *)
Definition name_of (s : option string) : string := match s with Some n => n | None => "" end.

Lemma sail_text_inj : forall s s', sail_text s = sail_text s' <-> name_of s = name_of s'.
Proof.
  intros s s'. split.
  - destruct s as [[|c r]|], s' as [[|c' r']|]; simpl; intros H; inversion H; auto.
  - destruct s as [[|c r]|], s' as [[|c' r']|]; simpl; intros H; inversion H; auto.
Qed.

(** Two directions have the same text if and only if they have the same angle,
    the same product of share and 100 as computed, and the same sail, where a sail
    without a name is no sail. *)
Theorem direction_text_tells : forall show d d', good_show show ->
  binary64 (d_angle d) -> binary64 (d_angle d') ->
  (direction_text show d = direction_text show d' <->
   d_angle d = d_angle d' /\ f_mul (d_prop d) 100 = f_mul (d_prop d') 100 /\
   name_of (d_sail d) = name_of (d_sail d')).
Proof.
  intros show d d' [F I] A A'. split.
  - unfold direction_text. intros E. cbn in E.
    repeat match type of E with String ?a ?x = String ?a ?y => injection E as E end.
    apply cut in E; [|apply F|apply F]. destruct E as [E1 E].
    repeat match type of E with String ?a ?x = String ?a ?y => injection E as E end.
    apply cut in E; [|apply F|apply F]. destruct E as [E2 E].
    repeat match type of E with String ?a ?x = String ?a ?y => injection E as E end.
    split; [apply I; auto|]. split; [apply I; auto; apply rnd_format|]. apply sail_text_inj; auto.
  - intros [E1 [E2 E3]]. unfold direction_text. apply sail_text_inj in E3. rewrite E1, E2, E3. reflexivity.
Qed.
Print Assumptions direction_text_tells.

(** Hence the text tells shares that differ by more than rounding. *)
Theorem direction_text_share : forall show d d', good_show show ->
  binary64 (d_angle d) -> binary64 (d_angle d') ->
  0 <= d_prop d <= 1 -> 0 <= d_prop d' <= 1 ->
  direction_text show d = direction_text show d' -> Rabs (d_prop d - d_prop d') <= bpow radix2 (-52).
Proof.
  intros show d d' G A A' P P' E. apply direction_text_tells in E; auto. destruct E as [_ [E _]].
  unfold f_mul in E.
  assert (B : forall x, 0 <= x <= 1 -> Rabs (rnd (x * 100) - x * 100) <= bpow radix2 (-47)).
  { intros x Hx. unfold rnd.
    destruct (Req_dec (x * 100) 0) as [->|N].
    - rewrite round_0 by apply valid_rnd_N. rewrite Rminus_0_r, Rabs_R0. apply bpow_ge_0.
    - eapply Rle_trans; [apply error_le_half_ulp; apply FLT_exp_valid; red; lia|].
      assert (U : ulp radix2 fexp (x * 100) <= bpow radix2 (-46)).
      { rewrite ulp_neq_0 by auto. apply bpow_le. unfold cexp, fexp, FLT_exp.
        assert (mag radix2 (x * 100) <= 7)%Z by (apply mag_le_bpow; [auto|]; rewrite Rabs_pos_eq by lra; small_bpow; lra).
        lia. }
      replace (bpow radix2 (-47)) with (/ 2 * bpow radix2 (-46)).
      + apply Rmult_le_compat_l; [lra|exact U].
      + change (-47)%Z with (-1 + -46)%Z. rewrite bpow_plus. f_equal. }
  pose proof (B _ P) as B1. pose proof (B _ P') as B2. rewrite E in B1.
  assert (H : Rabs (d_prop d * 100 - d_prop d' * 100) <= 2 * bpow radix2 (-47)).
  { apply Rabs_le_inv in B1. apply Rabs_le_inv in B2. apply Rabs_le. lra. }
  replace (d_prop d * 100 - d_prop d' * 100) with (100 * (d_prop d - d_prop d')) in H by lra.
  rewrite Rabs_mult, (Rabs_pos_eq 100) in H by lra.
  assert (2 * bpow radix2 (-47) = 64 * bpow radix2 (-52)).
  { change (-47)%Z with (5 + -52)%Z. rewrite bpow_plus. change (bpow radix2 5) with 32. lra. }
  pose proof (bpow_gt_0 radix2 (-52)). lra.
Qed.
Print Assumptions direction_text_share.

(** But not all shares: the neighbours 3/4 + 6 / 2^53 and 3/4 + 7 / 2^53 are shown
    as the same percentage, and a sail with an empty name as no sail. *)
Definition share1 : R := IZR 6755399441055750 * bpow radix2 (-53).
Definition share2 : R := IZR 6755399441055751 * bpow radix2 (-53).
Theorem direction_text_refuted : forall show,
  share1 <> share2 /\ binary64 share1 /\ binary64 share2 /\
  direction_text show (mkDir 45 share1 None) = direction_text show (mkDir 45 share2 (Some "")).
Proof.
  intros show.
  assert (E1 : f_mul share1 100 = IZR 5277655813324805 * bpow radix2 (-46)).
  { unfold f_mul, share1. apply rnd_to; [lia|small_bpow; lra|]. small_bpow. apply Rabs_def1; lra. }
  assert (E2 : f_mul share2 100 = IZR 5277655813324805 * bpow radix2 (-46)).
  { unfold f_mul, share2. apply rnd_to; [lia|small_bpow; lra|]. small_bpow. apply Rabs_def1; lra. }
  split; [|split; [|split]].
  - unfold share1, share2. small_bpow. lra.
  - apply generic_format_FLT. exists (Float radix2 6755399441055750 (-53)); simpl; [reflexivity|lia|lia].
  - apply generic_format_FLT. exists (Float radix2 6755399441055751 (-53)); simpl; [reflexivity|lia|lia].
  - unfold direction_text. cbn [d_angle d_prop d_sail sail_text]. rewrite E1, E2. reflexivity.
Qed.
Print Assumptions direction_text_refuted.

(** ** Example: numbers written as mantissa and exponent with strokes *)
Fixpoint strokes (n : nat) : string := match n with O => "" | S n => String "1" (strokes n) end.
Definition show_Z (z : Z) : string :=
  match z with Z0 => "" | Zpos p => "+" ++ strokes (Pos.to_nat p) | Zneg p => "-" ++ strokes (Pos.to_nat p) end.
Definition show_strokes (x : R) : string :=
  show_Z (Ztrunc (scaled_mantissa radix2 fexp x)) ++ "e" ++ show_Z (cexp radix2 fexp x).

Lemma strokes_inj : forall n m, strokes n = strokes m -> n = m.
Proof. induction n as [|n IH]; intros [|m] H; simpl in H; inversion H; auto. Qed.
Lemma show_Z_inj : forall a b, show_Z a = show_Z b -> a = b.
Proof.
  intros [|p|p] [|q|q] H; simpl in H; try discriminate; auto;
    injection H as H; apply strokes_inj, Pos2Nat.inj in H; congruence.
Qed.
Lemma strokes_free : forall c n, c <> "1"%char -> free c (strokes n).
Proof. intros c n H. induction n; simpl; auto. Qed.
Lemma show_Z_free : forall c z, c <> "1"%char -> c <> "+"%char -> c <> "-"%char -> free c (show_Z z).
Proof. intros c [|p|p] H1 H2 H3; simpl; auto; split; auto; apply strokes_free; auto. Qed.

Lemma good_strokes : good_show show_strokes.
Proof.
  split.
  - intros x. unfold show_strokes. apply free_app; [apply show_Z_free; discriminate|].
    apply free_app; [simpl; split; [discriminate|auto]|apply show_Z_free; discriminate].
  - intros x y Hx Hy H. unfold show_strokes in H.
    apply (cut "e"%char) in H; [|apply show_Z_free; discriminate|apply show_Z_free; discriminate].
    destruct H as [H1 H2]. apply show_Z_inj in H1. apply show_Z_inj in H2.
    unfold binary64, generic_format in Hx, Hy. rewrite Hx, Hy. unfold F2R. simpl. rewrite H1, H2. reflexivity.
Qed.

Example direction_text_meets :
  good_show show_strokes /\ binary64 45 /\ binary64 135 /\
  direction_text show_strokes (mkDir 45 1 (Some "Genoa")) <> direction_text show_strokes (mkDir 135 1 (Some "Genoa")) /\
  direction_text show_strokes (mkDir 45 1 (Some "Genoa")) <> direction_text show_strokes (mkDir 45 1 None).
Proof.
  assert (B1 : binary64 45) by (apply format_int; reflexivity).
  assert (B2 : binary64 135) by (apply format_int; reflexivity).
  split; [apply good_strokes|]. split; [auto|]. split; [auto|]. split; intros E;
    apply direction_text_tells in E; auto using good_strokes; cbn [d_angle d_prop d_sail name_of] in E.
  - destruct E as [E _]. lra.
  - destruct E as [_ [_ E]]. discriminate.
Qed.
