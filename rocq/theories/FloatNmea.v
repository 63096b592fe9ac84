(** * Positions of NMEA sentences with binary64 arithmetic: model and properties

    [NMEAFileHandler._from_nmea_format] (datahandler.py 360-364): a position ddmm.mmm read as a floating point number. *)

From Coq Require Import ZArith Reals Lra Lia.
From Flocq Require Import Core Sterbenz.
From Verif Require Import FloatMod FloatUnit FloatMember.
Open Scope R_scope.

Local Instance valid_exp_fn : Valid_exp fexp.
Proof. apply FLT_exp_valid. reflexivity. Qed.

(** [_from_nmea_format] after [float(value)]; [int] truncates, the product [100 * degrees] is one of whole numbers.
    datahandler.py 361-364. *)
Definition f_from_nmea (value : R) : R :=
  let degrees := Ztrunc (rnd (value / 100)) in
  let minutes := rnd (value - rnd (IZR (100 * degrees))) in
  rnd (IZR degrees + rnd (minutes / 60)).

(** ** Proofs *)

Lemma half_unit : forall x e, (-1000 <= e)%Z -> Rabs x < bpow radix2 e -> Rabs (rnd x - x) <= bpow radix2 (e - 54).
Proof.
  intros x e E B. destruct (Req_dec x 0) as [->|NZ]; [rewrite (rnd_exact 0 format_0), Rminus_eq_0, Rabs_R0; apply bpow_ge_0|].
  assert (Rabs (rnd x - x) <= / 2 * ulp radix2 fexp x) as H by (apply error_le_half_ulp; auto with typeclass_instances).
  rewrite ulp_neq_0 in H by auto. unfold cexp, fexp, FLT_exp in H.
  assert (mag radix2 x <= e)%Z as M by (apply mag_le_bpow; auto).
  assert (bpow radix2 (Z.max (mag radix2 x - 53) (-1074)) <= bpow radix2 (e - 53)) as BB by (apply bpow_le; lia).
  assert (bpow radix2 (e - 53) = 2 * bpow radix2 (e - 54)) as DD by (replace (e - 53)%Z with (1 + (e - 54))%Z by lia; rewrite bpow_plus; reflexivity).
  lra.
Qed.

Lemma degrees_exact : forall v D, (0 <= D <= 180)%Z -> 100 * IZR D <= v <= 100 * IZR D + 60 -> Ztrunc (rnd (v / 100)) = D.
Proof.
  intros v D DB V. assert (0 <= IZR D <= 180) as DR by (split; apply IZR_le; lia).
  assert (IZR D <= rnd (v / 100)) as LO by (apply rnd_ge; [apply format_int; lia|lra]).
  assert (rnd (v / 100) <= IZR (4 * D + 3) * bpow radix2 (-2)) as HI.
  { apply rnd_le; [apply multiple_format; lia|]. rewrite plus_IZR, mult_IZR. cbn. lra. }
  rewrite Ztrunc_floor by lra. apply Zfloor_imp. rewrite plus_IZR. split; [exact LO|].
  eapply Rle_lt_trans; [exact HI|]. rewrite plus_IZR, mult_IZR. cbn. lra.
Qed.

Lemma minutes_exact : forall v D, (0 <= D <= 180)%Z -> binary64 v -> 100 * IZR D <= v <= 100 * IZR D + 60 ->
  rnd (v - rnd (IZR (100 * D))) = v - 100 * IZR D.
Proof.
  intros v D DB F V. rewrite (rnd_exact (IZR (100 * D))) by (apply format_int; lia). rewrite mult_IZR.
  apply rnd_exact. destruct (Z.eq_dec D 0) as [->|N]; [rewrite Rmult_0_r, Rminus_0_r; exact F|].
  assert (1 <= IZR D) as D1 by (apply IZR_le; lia).
  apply sterbenz; auto with typeclass_instances; [apply FLT_exp_monotone| |lra].
  rewrite <- mult_IZR. apply format_int. lia.
Qed.

Lemma nmea_value : forall v D, (0 <= D <= 180)%Z -> binary64 v -> 100 * IZR D <= v <= 100 * IZR D + 60 ->
  f_from_nmea v = rnd (IZR D + rnd ((v - 100 * IZR D) / 60)).
Proof.
  intros v D DB F V. unfold f_from_nmea. rewrite (degrees_exact v D DB V), (minutes_exact v D DB F V). reflexivity.
Qed.

(** ** Properties *)

(** C167.  A text that denotes 100 D + M, with whole degrees D and up to 60 minutes M, is decoded to D + M/60 degrees up to
    2^-44 of a degree, between D and D + 1 degrees, exactly for M = 0. *)
Theorem float_nmea : forall D M, (0 <= D <= 180)%Z -> 0 <= M <= 60 ->
  let r := f_from_nmea (rnd (100 * IZR D + M)) in
  Rabs (r - (IZR D + M / 60)) <= / 2 ^ 44 /\ IZR D <= r <= IZR D + 1 /\ (M = 0 -> r = IZR D) /\ (M = 60 -> r = IZR D + 1).
Proof.
  intros D M DB MB r. assert (0 <= IZR D <= 180) as DR by (split; apply IZR_le; lia).
  set (v := rnd (100 * IZR D + M)) in r.
  assert (100 * IZR D <= v <= 100 * IZR D + 60) as V.
  { split; [apply rnd_ge|apply rnd_le]; try lra.
    - rewrite <- mult_IZR. apply format_int. lia.
    - rewrite <- mult_IZR, <- plus_IZR. apply format_int. lia. }
  unfold r. rewrite (nmea_value v D DB (rnd_format _) V).
  assert (Rabs (v - (100 * IZR D + M)) <= bpow radix2 (15 - 54)) as E1.
  { apply half_unit; [lia|]. rewrite Rabs_pos_eq by lra. cbn. lra. }
  assert (0 <= (v - 100 * IZR D) / 60 <= 1) as U by lra.
  pose proof (unit_error _ U) as E2. destruct (rnd_unit _ U) as [_ U'].
  assert (Rabs (rnd (IZR D + rnd ((v - 100 * IZR D) / 60)) - (IZR D + rnd ((v - 100 * IZR D) / 60))) <= bpow radix2 (8 - 54)) as E3.
  { apply half_unit; [lia|]. rewrite Rabs_pos_eq by lra. cbn. lra. }
  assert (binary64 (IZR D + 1)) as FD by (rewrite <- plus_IZR; apply format_int; lia).
  split; [|split; [split; [apply rnd_ge; [apply format_int; lia|lra]|apply rnd_le; [exact FD|lra]]|split]].
  - apply Rabs_le_inv in E1, E2, E3. cbn in E1, E2, E3. apply Rabs_le. split; lra.
  - intros ->. unfold v. rewrite Rplus_0_r, <- mult_IZR, (rnd_exact (IZR (100 * D))) by (apply format_int; lia).
    rewrite mult_IZR. replace ((100 * IZR D - 100 * IZR D) / 60) with 0 by lra. rewrite (rnd_exact 0 format_0), Rplus_0_r.
    apply rnd_exact, format_int. lia.
  - intros ->. unfold v. rewrite <- mult_IZR, <- plus_IZR, (rnd_exact (IZR _)) by (apply format_int; lia).
    rewrite plus_IZR, mult_IZR. replace ((100 * IZR D + 60 - 100 * IZR D) / 60) with 1 by lra. rewrite (rnd_exact 1 format_1).
    apply rnd_exact, FD.
Qed.
Print Assumptions float_nmea.

(** C167.  Positions further north or east are not decoded to smaller numbers. *)
Theorem float_nmea_monotone : forall D M D' M', (0 <= D <= 180)%Z -> (0 <= D' <= 180)%Z -> 0 <= M <= 60 -> 0 <= M' <= 60 ->
  (D < D')%Z \/ D = D' /\ M <= M' ->
  f_from_nmea (rnd (100 * IZR D + M)) <= f_from_nmea (rnd (100 * IZR D' + M')).
Proof.
  intros D M D' M' DB DB' MB MB' [L|[<- L]].
  - destruct (float_nmea D M DB MB) as [_ [[_ A] _]]. destruct (float_nmea D' M' DB' MB') as [_ [[B _] _]].
    apply Rle_trans with (1 := A). apply Rle_trans with (2 := B). rewrite <- plus_IZR. apply IZR_le. lia.
  - assert (forall M, 0 <= M <= 60 -> 100 * IZR D <= rnd (100 * IZR D + M) <= 100 * IZR D + 60) as V.
    { intros m B. split; [apply rnd_ge|apply rnd_le]; try lra.
      - rewrite <- mult_IZR. apply format_int. lia.
      - rewrite <- mult_IZR, <- plus_IZR. apply format_int. lia. }
    rewrite (nmea_value _ D DB (rnd_format _) (V M MB)), (nmea_value _ D DB (rnd_format _) (V M' MB')).
    apply rnd_mono, Rplus_le_compat_l, rnd_mono. apply Rmult_le_compat_r; [lra|]. apply Rplus_le_compat_r. apply rnd_mono. lra.
Qed.
Print Assumptions float_nmea_monotone.

(** 48 degrees 7.038 minutes, the position of the usual example sentence. *)
Example float_nmea_meets : (0 <= 48 <= 180)%Z /\ 0 <= 7.038 <= 60.
Proof. split; [lia|lra]. Qed.
