(** * Step sizes of table resolutions in binary64: model and properties

    The model of tables (TableModel.v) computes with exact numbers.  Here the
    resolution given by a step size is computed as numpy does it with binary64
    numbers (see FloatMod.v for the numbers). *)

From Coq Require Import List Bool Arith ZArith Reals Lra Lia.
From Flocq Require Import Core Mult_error.
From Verif Require Import Py Num ListX FloatMod FloatUnit.
Import ListNotations.
Open Scope R_scope.

(** ** Model *)

(** [np.arange(start, stop, step)] of numpy: the length is [ceil((stop - start) / step)], the first two
    entries are [start] and [start + step], the others [start + i * delta] with the difference [delta] of
    the first two ([PyArray_ArangeObj], [DOUBLE_fill]; numpy is not part of /repo). *)
Definition f_arange (start stop step : R) : list R :=
  let n := Z.to_nat (Zceil (rnd (f_sub stop start / step))) in
  let second := f_add start step in
  let delta := f_sub second start in
  map (fun i => match i with
                | O => start
                | 1%nat => second
                | _ => f_add start (f_mul (INR i) delta)
                end) (seq 0 n).

(** [_custom_stepsize_resolution].  polardiagram/_polardiagramtable.py 757-771; the maximal value is 40
    for wind speeds and 360 for wind angles. *)
Definition f_stepsize_resolution (max_value res : R) : result (list R) :=
  if Rleb res 0 then Raise ValueError
  else if Rltb max_value res then Raise ValueError
  else Ok (f_arange res max_value res).

(** ** Rounding of concrete numbers *)

Local Instance valid_exp_st : Valid_exp fexp.
Proof. apply FLT_exp_valid. reflexivity. Qed.

(** [x] is rounded to [m * 2^e] if it has [e] as exponent and is closer than half a unit. *)
Lemma rnd_to : forall x m e, (-1074 <= e)%Z -> bpow radix2 (e + 52) <= x < bpow radix2 (e + 53) ->
  Rabs (x * bpow radix2 (- e) - IZR m) < / 2 -> rnd x = IZR m * bpow radix2 e.
Proof.
  intros x m e E B N. unfold rnd, round, scaled_mantissa, F2R. cbn [Fnum Fexp].
  assert (cexp radix2 fexp x = e) as ->.
  { unfold cexp, fexp, FLT_exp. rewrite (mag_unique_pos radix2 x (e + 53)); [lia|]. replace (e + 53 - 1)%Z with (e + 52)%Z by lia. auto. }
  rewrite (Znearest_imp _ _ m) by auto. reflexivity.
Qed.

Ltac small_bpow := repeat match goal with |- context [bpow radix2 ?e] =>
  let v := eval vm_compute in e in
  match v with
  | Z0 => change (bpow radix2 e) with 1
  | Zpos ?p => let n := eval vm_compute in (Z.pow_pos 2 p) in change (bpow radix2 e) with (IZR n)
  | Zneg ?p => let n := eval vm_compute in (Z.pow_pos 2 p) in change (bpow radix2 e) with (/ IZR n)
  end end.

(** ** Specification *)

(** [l] lists the multiples of [s] between 0 and [mx], both excluded. *)
Definition multiples_below (s mx : R) (l : list R) : Prop :=
  forall x, In x l <-> exists k, (0 < k)%Z /\ x = IZR k * s /\ x < mx.

(** ** Whole steps *)

Lemma ceil_quotient : forall a k, (0 <= a < 2 ^ 30)%Z -> (1 <= k < 2 ^ 20)%Z ->
  Zceil (rnd (IZR a / IZR k)) = Zceil (IZR a / IZR k).
Proof.
  intros a k A K. assert (1 <= IZR k) as K1 by (apply IZR_le; lia). assert (0 <= IZR a) as A0 by (apply IZR_le; lia).
  set (q := IZR a / IZR k). set (N := Zceil q).
  assert (q * IZR k = IZR a) as Q by (unfold q; field; lra).
  assert (0 <= q) as Q0 by (unfold q; apply Rmult_le_pos; [lra|apply Rlt_le, Rinv_0_lt_compat; lra]).
  assert (0 <= N)%Z as N0 by (apply Zceil_glb in Q0 || (unfold N; apply le_IZR; eapply Rle_trans; [exact Q0|apply Zceil_ub])).
  assert (N <= a)%Z as NA.
  { unfold N. apply Zceil_glb. nra. }
  assert (rnd q <= IZR N) as U by (apply rnd_le; [apply format_int; lia|apply Zceil_ub]).
  apply Zceil_imp. split; auto.
  pose proof (Zceil_lb q) as LB. fold N in LB.
  (* q is at least 1/k above N - 1 *)
  assert (IZR N - 1 + / IZR k <= q) as GAP.
  { assert (IZR ((N - 1) * k) < IZR a) as L by (rewrite mult_IZR, minus_IZR; nra).
    apply lt_IZR in L. assert (IZR ((N - 1) * k + 1) <= IZR a) as L2 by (apply IZR_le; lia).
    rewrite plus_IZR, mult_IZR, minus_IZR in L2. apply Rmult_le_reg_r with (IZR k); [lra|].
    rewrite Q. rewrite Rmult_plus_distr_r, Rinv_l by lra. lra. }
  assert (bpow radix2 (-20) <= / IZR k) as S.
  { replace (bpow radix2 (-20)) with (/ IZR (2 ^ 20)) by (cbn; lra). apply Rinv_le_contravar; [lra|apply IZR_le; lia]. }
  assert (IZR N - 1 + bpow radix2 (-20) <= rnd q) as LO.
  { apply rnd_ge; [|lra]. replace (IZR N - 1 + bpow radix2 (-20)) with (IZR ((N - 1) * 2 ^ 20 + 1) * bpow radix2 (-20)).
    - apply multiple_format; [lia|]. lia.
    - rewrite plus_IZR, mult_IZR, minus_IZR. replace (IZR (2 ^ 20)) with (bpow radix2 20) by reflexivity.
      rewrite Rmult_plus_distr_r, Rmult_assoc, <- bpow_plus. change (bpow radix2 (20 + -20)) with 1. ring. }
  assert (0 < bpow radix2 (-20)) by apply bpow_gt_0. rewrite minus_IZR. lra.
Qed.

(** C131: whole steps give exactly the multiples below the maximum ([_partial]: steps that are no
    whole numbers are missing, see the refuted part). *)
Theorem float_steps_partial : forall s mx, (1 <= s <= mx)%Z -> (mx <= 360)%Z ->
  exists l, f_stepsize_resolution (IZR mx) (IZR s) = Ok l /\ multiples_below (IZR s) (IZR mx) l.
Proof.
  intros s mx SM M. assert (1 <= IZR s <= IZR mx) as SR by (split; apply IZR_le; lia).
  unfold f_stepsize_resolution. rewrite Rleb_false, Rltb_false by lra. eexists. split; [reflexivity|].
  assert (f_sub (IZR mx) (IZR s) = IZR (mx - s)) as D.
  { unfold f_sub. rewrite <- minus_IZR. apply rnd_exact, format_int. lia. }
  assert (f_add (IZR s) (IZR s) = IZR (2 * s)) as A.
  { unfold f_add. rewrite <- plus_IZR. replace (s + s)%Z with (2 * s)%Z by lia. apply rnd_exact, format_int. lia. }
  assert (f_sub (IZR (2 * s)) (IZR s) = IZR s) as DE.
  { unfold f_sub. rewrite <- minus_IZR. replace (2 * s - s)%Z with s by lia. apply rnd_exact, format_int. lia. }
  unfold f_arange. rewrite D, A, DE. rewrite ceil_quotient by lia.
  set (n := Zceil (IZR (mx - s) / IZR s)).
  assert (forall k : Z, (k < n)%Z <-> (k * s + s < mx)%Z) as NS.
  { intros k. assert (IZR (mx - s) / IZR s * IZR s = IZR (mx - s)) as Q by (field; lra).
    split; intros L.
    - assert (IZR k < IZR (mx - s) / IZR s) as L2.
      { apply Rnot_le_lt. intros C. apply Zceil_glb in C. fold n in C. lia. }
      apply Rmult_lt_compat_r with (r := IZR s) in L2; [|lra]. rewrite Q, <- mult_IZR in L2. apply lt_IZR in L2. lia.
    - destruct (Z_lt_le_dec k n) as [|C]; auto. exfalso.
      assert (IZR (mx - s) / IZR s <= IZR k) as C2 by (eapply Rle_trans; [apply Zceil_ub|apply IZR_le; fold n; auto]).
      apply Rmult_le_compat_r with (r := IZR s) in C2; [|lra]. rewrite Q, <- mult_IZR in C2. apply le_IZR in C2. lia. }
  assert (forall i, (i < Z.to_nat n)%nat ->
    match i with O => IZR s | 1%nat => IZR (2 * s) | _ => f_add (IZR s) (f_mul (INR i) (IZR s)) end = IZR (Z.of_nat i + 1) * IZR s) as V.
  { intros i L. assert (Z.of_nat i * s + s < mx)%Z as LM by (apply NS; lia).
    destruct i as [|[|i]]; [cbn; lra|rewrite mult_IZR; cbn; lra|].
    set (k := S (S i)) in *. unfold f_mul, f_add. rewrite INR_IZR_INZ, <- mult_IZR.
    assert (0 <= Z.of_nat k * s < 360)%Z as B by nia.
    rewrite (rnd_exact (IZR _)) by (apply format_int; lia). rewrite <- plus_IZR, <- mult_IZR.
    rewrite rnd_exact by (apply format_int; lia). f_equal. lia. }
  intros x. rewrite in_map_iff. split.
  - intros [i [<- I]]. apply in_seq in I. rewrite V by lia. exists (Z.of_nat i + 1)%Z. split; [lia|]. split; auto.
    rewrite <- mult_IZR. apply IZR_lt. assert (Z.of_nat i * s + s < mx)%Z by (apply NS; lia). lia.
  - intros [k [K [-> L]]]. rewrite <- mult_IZR in L. apply lt_IZR in L.
    assert (k - 1 < n)%Z by (apply NS; lia). exists (Z.to_nat (k - 1)). split; [|apply in_seq; lia].
    rewrite V by lia. rewrite Z2Nat.id by lia. replace (k - 1 + 1)%Z with k by lia. auto.
Qed.
Print Assumptions float_steps_partial.

Example float_steps_meets : exists l, f_stepsize_resolution 40 15 = Ok l /\ forall x, In x l <-> x = 15 \/ x = 30.
Proof.
  destruct (float_steps_partial 15 40) as [l [E H]]; [lia|lia|]. exists l. split; auto. intros x. rewrite (H x). split.
  - intros [k [K [-> L]]]. rewrite <- mult_IZR in L. apply lt_IZR in L. assert (k = 1 \/ k = 2)%Z as [->| ->] by lia; lra.
  - intros [->| ->]; [exists 1%Z|exists 2%Z]; split; try lia; lra.
Qed.

(** ** Broken steps *)

Lemma last_entry : forall start stop step n, Z.to_nat (Zceil (rnd (f_sub stop start / step))) = S n -> (2 <= n)%nat ->
  length (f_arange start stop step) = S n /\
  nth_error (f_arange start stop step) n = Some (f_add start (f_mul (INR n) (f_sub (f_add start step) start))).
Proof.
  intros start stop step n E L. unfold f_arange. rewrite E. split; [rewrite map_length, seq_length; auto|].
  rewrite nth_error_map, nth_error_nth' with (d := 0%nat) by (rewrite seq_length; lia). rewrite seq_nth by lia. cbn [option_map plus].
  destruct n as [|[|n]]; try lia. reflexivity.
Qed.

Lemma double_exact : forall s, binary64 s -> f_sub (f_add s s) s = s.
Proof.
  intros s F. unfold f_add, f_sub. rewrite (rnd_exact (s + s)).
  - replace (s + s - s) with s by ring. apply rnd_exact; auto.
  - replace (s + s) with (s * bpow radix2 1) by (cbn; ring). apply mult_bpow_pos_exact_FLT; auto; lia.
Qed.

(** The binary64 numbers written 5 / 11, 0.16 and 0.3. *)
Definition step_511 : R := IZR 8188362958855447 * bpow radix2 (-54).
Definition step_016 : R := IZR 5764607523034235 * bpow radix2 (-55).
Definition step_03 : R := IZR 5404319552844595 * bpow radix2 (-54).

Lemma steps_are_written : step_511 = rnd (5 / 11) /\ step_016 = rnd (16 / 100) /\ step_03 = rnd (3 / 10).
Proof.
  unfold step_511, step_016, step_03. repeat split; symmetry; apply rnd_to; try lia; try (small_bpow; lra);
    apply Rabs_def1; small_bpow; lra.
Qed.

Lemma steps_format : binary64 step_511 /\ binary64 step_016 /\ binary64 step_03.
Proof. repeat split; apply multiple_format; lia. Qed.

(** C131: with the step 5 / 11 the table has the wind angle 360, with the step 0.16 the wind speed 40,
    and with the step 0.3 the wind angle 1200 * 0.3 < 360 is missing. *)
Theorem float_steps_refuted :
  (step_511 = rnd (5 / 11) /\ exists l, f_stepsize_resolution 360 step_511 = Ok l /\ length l = 792%nat /\ In 360 l) /\
  (step_016 = rnd (16 / 100) /\ exists l, f_stepsize_resolution 40 step_016 = Ok l /\ length l = 250%nat /\ In 40 l) /\
  (step_03 = rnd (3 / 10) /\ exists l, f_stepsize_resolution 360 step_03 = Ok l /\ length l = 1199%nat /\ 1200 * step_03 < 360).
Proof.
  destruct steps_are_written as [W1 [W2 W3]]. destruct steps_format as [F1 [F2 F3]].
  split; [split; auto|split; split; auto].
  - assert (f_sub 360 step_511 = IZR 6325190527787753 * bpow radix2 (-44)) as D.
    { unfold f_sub. apply rnd_to; [lia| |apply Rabs_def1]; unfold step_511; small_bpow; lra. }
    assert (Z.to_nat (Zceil (rnd (f_sub 360 step_511 / step_511))) = 792)%nat as N.
    { rewrite D, (rnd_to _ 6957709580566529 (-43)); [|lia|unfold step_511; small_bpow; lra|apply Rabs_def1; unfold step_511; small_bpow; lra].
      rewrite (Zceil_imp 792); [reflexivity|]. rewrite minus_IZR. small_bpow. lra. }
    unfold f_stepsize_resolution. rewrite Rleb_false, Rltb_false by (unfold step_511; small_bpow; lra).
    eexists. split; [reflexivity|]. destruct (last_entry step_511 360 step_511 791 N ltac:(lia)) as [LN LE]. split; auto.
    apply nth_error_In with 791%nat. rewrite LE, double_exact by auto. f_equal. unfold f_mul, f_add. rewrite INR_IZR_INZ.
    change (Z.of_nat 791) with 791%Z.
    rewrite (rnd_to (791 * step_511) 6325190527787753 (-44)); [|lia|unfold step_511; small_bpow; lra|apply Rabs_def1; unfold step_511; small_bpow; lra].
    rewrite (rnd_to _ 6333186975989760 (-44)); [|lia|unfold step_511; small_bpow; lra|apply Rabs_def1; unfold step_511; small_bpow; lra].
    small_bpow. lra.
  - assert (f_sub 40 step_016 = IZR 5606981536076268 * bpow radix2 (-47)) as D.
    { unfold f_sub. apply rnd_to; [lia| |apply Rabs_def1]; unfold step_016; small_bpow; lra. }
    assert (Z.to_nat (Zceil (rnd (f_sub 40 step_016 / step_016))) = 250)%nat as N.
    { rewrite D, (rnd_to _ 8760908650119169 (-45)); [|lia|unfold step_016; small_bpow; lra|apply Rabs_def1; unfold step_016; small_bpow; lra].
      rewrite (Zceil_imp 250); [reflexivity|]. rewrite minus_IZR. small_bpow. lra. }
    unfold f_stepsize_resolution. rewrite Rleb_false, Rltb_false by (unfold step_016; small_bpow; lra).
    eexists. split; [reflexivity|]. destruct (last_entry step_016 40 step_016 249 N ltac:(lia)) as [LN LE]. split; auto.
    apply nth_error_In with 249%nat. rewrite LE, double_exact by auto. f_equal. unfold f_mul, f_add. rewrite INR_IZR_INZ.
    change (Z.of_nat 249) with 249%Z.
    rewrite (rnd_to (249 * step_016) 5606981536076268 (-47)); [|lia|unfold step_016; small_bpow; lra|apply Rabs_def1; unfold step_016; small_bpow; lra].
    rewrite (rnd_to _ 5629499534213120 (-47)); [|lia|unfold step_016; small_bpow; lra|apply Rabs_def1; unfold step_016; small_bpow; lra].
    small_bpow. lra.
  - assert (f_sub 360 step_03 = IZR 6327909320176435 * bpow radix2 (-44)) as D.
    { unfold f_sub. apply rnd_to; [lia| |apply Rabs_def1]; unfold step_03; small_bpow; lra. }
    assert (Z.to_nat (Zceil (rnd (f_sub 360 step_03 / step_03))) = 1199)%nat as N.
    { rewrite D, (rnd_to _ 5273257766813696 (-42)); [|lia|unfold step_03; small_bpow; lra|apply Rabs_def1; unfold step_03; small_bpow; lra].
      rewrite (Zceil_imp 1199); [reflexivity|]. rewrite minus_IZR. small_bpow. lra. }
    unfold f_stepsize_resolution. rewrite Rleb_false, Rltb_false by (unfold step_03; small_bpow; lra).
    eexists. split; [reflexivity|]. destruct (last_entry step_03 360 step_03 1198 N ltac:(lia)) as [LN LE]. split; auto.
    unfold step_03. small_bpow. lra.
Qed.
Print Assumptions float_steps_refuted.
