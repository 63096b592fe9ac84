(** * Angle reduction in binary64: model and properties

    All other files compute with exact real numbers.  This one is about the
    rounding of [x % 360] on binary64 arrays, as it occurs in
    _polardiagramcurve.py 140, 143, _polardiagrampointcloud.py 139, 201, 324,
    _polardiagramtable.py 753, 781, core/computing.py, models/influencemodel.py 178, 192.
    Binary64 numbers are the reals of Flocq's format [FLT_exp (-1074) 53]; nan, the
    infinities and the sign of zero are not modelled (overflow cannot occur, all
    results are at most 360). *)

From Coq Require Import ZArith Reals Lra Lia Bool.
From Flocq Require Import Core.
From Verif Require Import Num.
Open Scope R_scope.

Definition fexp := FLT_exp (-1074) 53.
Definition binary64 (x : R) : Prop := generic_format radix2 fexp x.
Definition rnd (x : R) : R := round radix2 fexp ZnearestE x.

(** C's [fmod(x, 360)]: the remainder of the division with truncated quotient.
    That it is computed without rounding error is [fmod_exact] below. *)
Definition fmod360 (x : R) : R := x - 360 * IZR (Ztrunc (x / 360)).

(** [x % 360] of numpy: [npy_divmod] in numpy/core/src/npymath (numpy is not part
    of /repo; [mod = fmod(a, b); if (mod) { if ((b < 0) != (mod < 0)) mod += b; }
    else mod = copysign(0, b)]). *)
Definition np_mod360 (x : R) : R :=
  let m := fmod360 x in
  if Reqb m 0 then 0 else if Rltb m 0 then rnd (m + 360) else m.

Local Instance valid_exp : Valid_exp fexp.
Proof. apply FLT_exp_valid. reflexivity. Qed.

Lemma fmod_range : forall x, -360 < fmod360 x < 360 /\ (0 <= x -> 0 <= fmod360 x) /\ (x <= 0 -> fmod360 x <= 0).
Proof.
  intros x. unfold fmod360.
  destruct (Rle_dec 0 x) as [P|P].
  - rewrite Ztrunc_floor by lra. pose proof (Zfloor_lb (x / 360)) as L. pose proof (Zfloor_ub (x / 360)) as U.
    assert (360 * (x / 360) = x) by lra. repeat split; try lra.
    intros N. assert (x = 0) as -> by lra. replace (0 / 360) with (IZR 0) by (cbn; field). rewrite Zfloor_IZR. lra.
  - rewrite Ztrunc_ceil by lra. pose proof (Zceil_ub (x / 360)) as U. pose proof (Zceil_lb (x / 360)) as L.
    assert (360 * (x / 360) = x) by lra. repeat split; lra.
Qed.

Lemma multiple_format : forall k e, (-1074 <= e)%Z -> (Z.abs k < 2 ^ 53)%Z -> binary64 (IZR k * bpow radix2 e).
Proof.
  intros k e E K. apply generic_format_FLT. exists (Float radix2 k e); auto.
Qed.

(** The remainder needs no rounding. *)
Theorem fmod_exact : forall x, binary64 x -> binary64 (fmod360 x).
Proof.
  intros x FX. destruct (Rlt_dec (Rabs x) 360) as [S|L].
  - assert (fmod360 x = x) as ->; auto. unfold fmod360.
    assert (Ztrunc (x / 360) = 0%Z) as ->; [|ring].
    apply Rabs_def2 in S. destruct (Rle_dec 0 x).
    + rewrite Ztrunc_floor by lra. apply Zfloor_imp. cbn. lra.
    + rewrite Ztrunc_ceil by lra. apply Zceil_imp. cbn. lra.
  - destruct (fmod_range x) as [RG _].
    pose proof FX as EX. unfold binary64, generic_format, F2R in EX. cbn [Fnum Fexp] in EX.
    assert (-1074 <= cexp radix2 fexp x)%Z as LE by (unfold cexp, fexp, FLT_exp; lia).
    assert (mag radix2 x <= 53 + cexp radix2 fexp x)%Z as ME by (unfold cexp, fexp, FLT_exp; lia).
    assert (Rabs x < bpow radix2 (mag radix2 x)) as MG by apply bpow_mag_gt.
    unfold fmod360 in *.
    revert EX LE ME. generalize (cexp radix2 fexp x) (Ztrunc (scaled_mantissa radix2 fexp x)). intros e m EX LE ME.
    revert RG. generalize (Ztrunc (x / 360)). intros q RG.
    destruct (Z_le_gt_dec e 3) as [E3|E3].
    + (* everything is a multiple of 2^e *)
      assert (360 = IZR (45 * 2 ^ (3 - e)) * bpow radix2 e) as E360.
      { rewrite mult_IZR. change 2%Z with (radix_val radix2). rewrite IZR_Zpower by lia. rewrite Rmult_assoc, <- bpow_plus.
        replace (3 - e + e)%Z with 3%Z by lia. cbn. lra. }
      assert (x - 360 * IZR q = IZR (m - 45 * 2 ^ (3 - e) * q) * bpow radix2 e) as ER.
      { rewrite minus_IZR, mult_IZR, EX. rewrite E360 at 1. ring. }
      rewrite ER. apply multiple_format; auto.
      assert (Rabs (IZR (m - 45 * 2 ^ (3 - e) * q) * bpow radix2 e) < Rabs x) as LT.
      { rewrite <- ER. apply Rlt_le_trans with 360; [apply Rabs_def1; lra|lra]. }
      assert (Rabs (IZR (m - 45 * 2 ^ (3 - e) * q)) * bpow radix2 e < bpow radix2 (53 + e)) as K.
      { rewrite <- (Rabs_pos_eq (bpow radix2 e)) at 1 by apply bpow_ge_0. rewrite <- Rabs_mult.
        eapply Rlt_le_trans; [|apply bpow_le; exact ME]. lra. }
      rewrite bpow_plus in K. apply Rmult_lt_reg_r in K; [|apply bpow_gt_0].
      rewrite <- abs_IZR in K. apply lt_IZR. eapply Rlt_le_trans; [exact K|]. rewrite <- IZR_Zpower by lia. apply IZR_le. cbn. lia.
    + (* everything is a multiple of 8 *)
      assert (x - 360 * IZR q = IZR (m * 2 ^ (e - 3) - 45 * q) * bpow radix2 3) as ER.
      { rewrite minus_IZR, !mult_IZR, EX. change 2%Z with (radix_val radix2). rewrite IZR_Zpower by lia.
        replace (bpow radix2 e) with (bpow radix2 (e - 3) * bpow radix2 3) by (rewrite <- bpow_plus; f_equal; lia).
        cbn [bpow]. cbn. ring. }
      rewrite ER. apply multiple_format; [lia|].
      assert (Rabs (IZR (m * 2 ^ (e - 3) - 45 * q) * bpow radix2 3) < 360) as LT by (rewrite <- ER; apply Rabs_def1; lra).
      rewrite Rabs_mult, (Rabs_pos_eq (bpow radix2 3)), <- abs_IZR in LT by apply bpow_ge_0.
      apply lt_IZR. change (bpow radix2 3) with 8 in LT. assert (IZR (Z.abs (m * 2 ^ (e - 3) - 45 * q)) < 360) as LT' by (pose proof (IZR_le 0 _ (Z.abs_nonneg (m * 2 ^ (e - 3) - 45 * q))); lra).
      eapply Rlt_trans; [exact LT'|]. apply IZR_lt. reflexivity.
Qed.
Print Assumptions fmod_exact.

Lemma format_360 : binary64 360.
Proof. replace 360 with (IZR 360 * bpow radix2 0) by (cbn; lra). apply multiple_format; [lia|reflexivity]. Qed.

Lemma format_0 : binary64 0.
Proof. apply generic_format_0. Qed.

(** The exact remainder, in [0,360). *)
Definition exact_mod (x r : R) : Prop := 0 <= r < 360 /\ exists k : Z, x = r + 360 * IZR k.

Theorem exact_mod_unique : forall x, exists r, exact_mod x r /\ forall r', exact_mod x r' -> r' = r.
Proof.
  intros x. exists (x - 360 * IZR (Zfloor (x / 360))).
  pose proof (Zfloor_lb (x / 360)) as L. pose proof (Zfloor_ub (x / 360)) as U. split.
  - split; [split; lra|]. exists (Zfloor (x / 360)). ring.
  - intros r' [RR [k EK]]. assert (Zfloor (x / 360) = k) as ->; [|lra].
    apply Zfloor_imp. rewrite plus_IZR. split; lra.
Qed.
Print Assumptions exact_mod_unique.

(** C83.  The result is a binary64 number in the closed interval ([_partial]: 360
    itself occurs, see [mod_half_open_refuted]). *)
Theorem mod_closed_partial : forall x, binary64 x -> binary64 (np_mod360 x) /\ 0 <= np_mod360 x <= 360.
Proof.
  intros x FX. pose proof (fmod_exact x FX) as FE. destruct (fmod_range x) as [RG _]. unfold np_mod360.
  destruct (Reqb_spec (fmod360 x) 0) as [Z|NZ]; [split; [apply format_0|lra]|].
  destruct (Rltb_spec (fmod360 x) 0) as [N|N]; [|split; [auto|lra]].
  split; [apply generic_format_round; auto with typeclass_instances|].
  unfold rnd. split.
  - apply round_ge_generic; auto with typeclass_instances; [apply format_0|lra].
  - apply round_le_generic; auto with typeclass_instances; [apply format_360|lra].
Qed.
Print Assumptions mod_closed_partial.

(** C83.  How close the result is to the exact remainder: equal for a
    nonnegative number, within 2^-45 for a negative one. *)
Theorem mod_error : forall x r, binary64 x -> exact_mod x r ->
  (0 <= x -> np_mod360 x = r) /\ Rabs (np_mod360 x - r) <= bpow radix2 (-45).
Proof.
  intros x r FX [RR [k EK]]. destruct (fmod_range x) as [RG [FP FN]].
  assert (0 < bpow radix2 (-45)) as BP by apply bpow_gt_0.
  assert (exists j, r = fmod360 x + 360 * IZR j) as [j EJ].
  { exists (Ztrunc (x / 360) - k)%Z. unfold fmod360. rewrite minus_IZR. lra. }
  assert (0 <= fmod360 x -> r = fmod360 x) as POS.
  { intros P. assert (-1 < IZR j < 1) as [J1 J2] by lra. apply (lt_IZR (-1)) in J1. apply (lt_IZR j 1) in J2.
    assert (j = 0%Z) as -> by lia. lra. }
  assert (fmod360 x < 0 -> r = fmod360 x + 360) as NEG.
  { intros P. assert (0 < IZR j < 2) as [J1 J2] by lra. apply (lt_IZR 0) in J1. apply (lt_IZR j 2) in J2.
    assert (j = 1%Z) as -> by lia. lra. }
  unfold np_mod360. split.
  - intros P. destruct (Reqb_spec (fmod360 x) 0) as [Z|NZ]; [rewrite POS; lra|].
    rewrite Rltb_false by auto. rewrite POS; auto.
  - destruct (Reqb_spec (fmod360 x) 0) as [Z|NZ].
    + rewrite POS by lra. rewrite Z, Rminus_0_r, Rabs_R0. lra.
    + destruct (Rltb_spec (fmod360 x) 0) as [N|N].
      * rewrite NEG by auto. set (y := fmod360 x + 360) in *.
        eapply Rle_trans; [apply error_le_half_ulp; auto with typeclass_instances|].
        destruct (Req_dec y 0) as [Z|NY].
        { exfalso. unfold y in Z. lra. }
        rewrite ulp_neq_0 by auto. unfold cexp, fexp, FLT_exp.
        assert (mag radix2 y <= 9)%Z as MG.
        { apply mag_le_bpow; auto. rewrite Rabs_pos_eq by (unfold y; lra). cbn. unfold y. lra. }
        replace (bpow radix2 (-45)) with (/ 2 * bpow radix2 (-44)).
        { apply Rmult_le_compat_l; [lra|]. apply bpow_le. lia. }
        change (-44)%Z with (1 + -45)%Z. rewrite bpow_plus. change (bpow radix2 1) with 2. lra.
      * rewrite POS by lra. rewrite Rminus_eq_0, Rabs_R0. lra.
Qed.
Print Assumptions mod_error.

Lemma even_360 : rnd (360 - bpow radix2 (-45)) = 360.
Proof.
  unfold rnd, round, scaled_mantissa.
  set (y := 360 - bpow radix2 (-45)).
  assert (0 < bpow radix2 (-45) < 1) as B.
  { split; [apply bpow_gt_0|]. change 1 with (bpow radix2 0). apply bpow_lt. lia. }
  assert (cexp radix2 fexp y = -44)%Z as ->.
  { unfold cexp, fexp, FLT_exp. rewrite (mag_unique_pos radix2 y 9); [reflexivity|]. unfold y. cbn [Z.sub Z.add Z.opp]. cbn -[bpow].
    change (bpow radix2 8) with 256. change (bpow radix2 9) with 512. lra. }
  assert (y * bpow radix2 (- -44) = IZR (360 * 2 ^ 44) - / 2) as ->.
  { unfold y. rewrite Rmult_minus_distr_r, <- bpow_plus. change (-45 + - -44)%Z with (-1)%Z. change (bpow radix2 (-1)) with (/ 2).
    rewrite mult_IZR. reflexivity. }
  assert (ZnearestE (IZR (360 * 2 ^ 44) - / 2) = (360 * 2 ^ 44)%Z) as ->.
  { unfold Znearest.
    assert (Zfloor (IZR (360 * 2 ^ 44) - / 2) = (360 * 2 ^ 44 - 1)%Z) as F.
    { apply Zfloor_imp. rewrite plus_IZR, !minus_IZR. lra. }
    assert (Zceil (IZR (360 * 2 ^ 44) - / 2) = (360 * 2 ^ 44)%Z) as C.
    { apply Zceil_imp. rewrite !minus_IZR. lra. }
    rewrite F, C. rewrite Rcompare_Eq; [reflexivity|]. rewrite minus_IZR. lra. }
  unfold F2R. cbn [Fnum Fexp]. rewrite mult_IZR. change (2 ^ 44)%Z with (radix2 ^ 44)%Z. rewrite IZR_Zpower by lia. rewrite Rmult_assoc, <- bpow_plus.
  cbn. ring.
Qed.

(** C83.  The result 360 occurs exactly for the numbers up to 2^-45 below a
    multiple of 360. *)
Theorem mod_360_iff : forall x, binary64 x ->
  (np_mod360 x = 360 <-> - bpow radix2 (-45) <= fmod360 x < 0).
Proof.
  intros x FX. destruct (fmod_range x) as [RG _]. unfold np_mod360.
  assert (0 < bpow radix2 (-45)) as BP by apply bpow_gt_0.
  destruct (Reqb_spec (fmod360 x) 0) as [Z|NZ]; [split; intros; lra|].
  destruct (Rltb_spec (fmod360 x) 0) as [N|N]; [|split; intros; lra].
  split.
  - intros E. split; auto. destruct (Rle_dec (- bpow radix2 (-45)) (fmod360 x)) as [|C]; auto. exfalso.
    (* the predecessor of 360 is closer *)
    set (y := fmod360 x + 360) in *.
    assert (binary64 (360 - bpow radix2 (-44))) as FP.
    { replace (360 - bpow radix2 (-44)) with (IZR (360 * 2 ^ 44 - 1) * bpow radix2 (-44)).
      - apply multiple_format; [lia|reflexivity].
      - rewrite minus_IZR, mult_IZR. change (2 ^ 44)%Z with (radix2 ^ 44)%Z. rewrite IZR_Zpower by lia.
        rewrite Rmult_minus_distr_r, Rmult_assoc, <- bpow_plus. change (44 + -44)%Z with 0%Z. change (bpow radix2 0) with 1. lra. }
    assert (bpow radix2 (-44) = 2 * bpow radix2 (-45)) as D.
    { change (-44)%Z with (1 + -45)%Z. rewrite bpow_plus. reflexivity. }
    destruct (Rle_dec (360 - bpow radix2 (-44)) y) as [LE|GT].
    + pose proof (round_N_pt radix2 fexp (fun z => negb (Z.even z)) y) as [_ NP].
      specialize (NP _ FP). fold (rnd y) in NP. rewrite E in NP.
      rewrite (Rabs_pos_eq (360 - y)), (Rabs_left1 (360 - bpow radix2 (-44) - y)) in NP by (unfold y in *; lra).
      unfold y in *. lra.
    + assert (rnd y <= 360 - bpow radix2 (-44)) as K by (apply round_le_generic; auto with typeclass_instances; lra). lra.
  - intros [L _]. apply Rle_antisym.
    + apply round_le_generic; auto with typeclass_instances; [apply format_360|lra].
    + rewrite <- even_360 at 1. apply round_le; auto with typeclass_instances. lra.
Qed.
Print Assumptions mod_360_iff.

(** C83 is false: a tiny negative angle is reduced to 360. *)
Theorem mod_half_open_refuted : exists x, binary64 x /\ x < 0 /\ np_mod360 x = 360 /\ exact_mod x (x + 360).
Proof.
  exists (- bpow radix2 (-60)).
  assert (0 < bpow radix2 (-60) < bpow radix2 (-45)) as B by (split; [apply bpow_gt_0|apply bpow_lt; lia]).
  assert (bpow radix2 (-45) < 1) as B1 by (change 1 with (bpow radix2 0); apply bpow_lt; lia).
  assert (binary64 (- bpow radix2 (-60))) as F.
  { apply generic_format_opp. apply generic_format_bpow. unfold fexp, FLT_exp. lia. }
  split; auto. split; [lra|]. split.
  - apply mod_360_iff; auto. unfold fmod360. rewrite Ztrunc_ceil by lra.
    assert (Zceil (- bpow radix2 (-60) / 360) = 0%Z) as ->; [|cbn; lra].
    apply Zceil_imp. cbn. lra.
  - split; [lra|]. exists (-1)%Z. lra.
Qed.
Print Assumptions mod_half_open_refuted.

(** A nonnegative example, and one that is rounded but stays inside. *)
Example mod_example : np_mod360 730 = 10 /\ np_mod360 (-90) = 270.
Proof.
  split.
  - apply (mod_error 730 10); [|split; [lra|exists 2%Z; lra]|lra].
    replace 730 with (IZR 730 * bpow radix2 0) by (cbn; lra). apply multiple_format; [lia|reflexivity].
  - unfold np_mod360, fmod360. rewrite Ztrunc_ceil by lra.
    assert (Zceil (-90 / 360) = 0%Z) as -> by (apply Zceil_imp; cbn; lra).
    rewrite Reqb_false, Rltb_true by lra. unfold rnd. replace (-90 - 360 * 0 + 360) with 270 by lra.
    apply round_generic; auto with typeclass_instances.
    replace 270 with (IZR 270 * bpow radix2 0) by (cbn; lra). apply multiple_format; [lia|reflexivity].
Qed.
