(** * The fluctuation weigher with binary64 arithmetic: model and properties

    The inner loop of [FluctuationWeigher.weigh] (weigher.py 526-546) for one row: every operation rounds to the nearest
    binary64 number, ties to even; sums may be added in any order.  Which rows belong to the window of a row is decided
    by time stamps without rounding (see [fluct_weigh] in WeigherModel.v); here the windows are given.
    Overflow, nan and the sign of zero are left out (see FloatMod.v). *)

From Coq Require Import List Bool Arith ZArith Reals Lra Lia.
From Flocq Require Import Core Mult_error Sterbenz.
From Verif Require Import Py Num ListX FloatMod FloatUnit FloatSteps FloatAverage FloatSmooth FloatWeigh.
Import ListNotations.
Open Scope R_scope.

Local Instance valid_exp_ff : Valid_exp fexp.
Proof. apply FLT_exp_valid. reflexivity. Qed.

(** One column with the standard deviation [std] and the upper bound [ub].  weigher.py 541-544. *)
Definition f_fluct_step (std ub w : R) : R := if Rltb ub std then 0 else f_mul w (rnd (f_sub ub std / ub)).

(** The loop over the columns from the weight [w]: the windows with their bounds, the deviations and the weight. *)
Inductive f_fluct : list (list R * R) -> R -> list R -> R -> Prop :=
| fluct_end : forall w, f_fluct [] w [] w
| fluct_col : forall window ub cols w std stds w', f_np_std window std ->
    f_fluct cols (f_fluct_step std ub w) stds w' -> f_fluct ((window, ub) :: cols) w (std :: stds) w'.

(** The weight of a row starts with 1. *)
Definition f_fluct_weight (cols : list (list R * R)) (stds : list R) (w : R) : Prop := f_fluct cols 1 stds w.

(** ** Proofs *)

Lemma std_exists : forall l, l <> [] -> exists r, f_np_std l r.
Proof.
  intros l N. destruct (mean_exists l N) as [m M].
  destruct (mean_exists (map (fun x => f_mul (f_sub x m) (f_sub x m)) l)) as [v V]; [destruct l; [contradiction|discriminate]|].
  exists (rnd (sqrt v)), m, v. auto.
Qed.
Lemma std_nonneg : forall l r, f_np_std l r -> binary64 r /\ 0 <= r.
Proof. intros l r [m [v [_ [_ ->]]]]. split; [apply rnd_format|apply rnd_nonneg, sqrt_pos]. Qed.

(** The factor of a column. *)
Lemma factor_range : forall s ub, binary64 ub -> 0 < ub -> 0 <= s <= ub -> 0 <= rnd (f_sub ub s / ub) <= 1.
Proof.
  intros s ub FU U S.
  assert (0 <= f_sub ub s <= ub) as D.
  { unfold f_sub. split; [apply rnd_nonneg; lra|apply rnd_le; [auto|lra]]. }
  assert (0 < / ub) as I by (apply Rinv_0_lt_compat; auto). split.
  - apply rnd_nonneg. apply Rmult_le_pos; lra.
  - apply rnd_le; [apply format_1|]. apply (Rmult_le_reg_r ub); auto. unfold Rdiv. rewrite Rmult_assoc, Rinv_l by lra. lra.
Qed.

(** Neighbouring numbers are not too close: [2^-54] of the larger one. *)
Lemma gap : forall x y, binary64 x -> binary64 y -> 0 <= x -> x < y -> y * bpow radix2 (-54) <= f_sub y x.
Proof.
  intros x y FX FY PX L. unfold f_sub. assert (0 < y) as PY by lra.
  assert (y * bpow radix2 (-54) <= y / 4) as B54 by (small_bpow; lra).
  destruct (Rle_lt_dec (y / 2) x) as [H|H].
  - rewrite rnd_exact by (apply sterbenz; auto with typeclass_instances; [apply FLT_exp_monotone|lra]).
    assert (0 < x) as PX' by lra.
    set (e := cexp radix2 fexp x).
    assert (x = IZR (Ztrunc (scaled_mantissa radix2 fexp x)) * bpow radix2 e) as EX by exact FX.
    assert (y = IZR (Ztrunc (scaled_mantissa radix2 fexp y)) * bpow radix2 (cexp radix2 fexp y)) as EY by exact FY.
    assert (e <= cexp radix2 fexp y)%Z as EE.
    { unfold e, cexp, fexp, FLT_exp. assert (mag radix2 x <= mag radix2 y)%Z by (apply mag_le; lra). lia. }
    set (mx := Ztrunc (scaled_mantissa radix2 fexp x)) in *. set (my := Ztrunc (scaled_mantissa radix2 fexp y)) in *.
    assert (y = IZR (my * 2 ^ (cexp radix2 fexp y - e)) * bpow radix2 e) as EY'.
    { rewrite EY at 1. rewrite mult_IZR. rewrite (IZR_Zpower radix2) by lia. rewrite Rmult_assoc, <- bpow_plus. f_equal. f_equal. lia. }
    set (k := (my * 2 ^ (cexp radix2 fexp y - e))%Z) in *.
    assert (0 < bpow radix2 e) as BE by apply bpow_gt_0.
    assert (mx < k)%Z as LK by (apply lt_IZR; apply (Rmult_lt_reg_r (bpow radix2 e)); auto; rewrite <- EX, <- EY'; auto).
    assert (bpow radix2 e <= y - x) as GE.
    { rewrite EX, EY' at 1. rewrite <- Rmult_minus_distr_r, <- minus_IZR.
      assert (1 <= IZR (k - mx)) by (apply IZR_le; lia). nra. }
    assert (x < bpow radix2 (e + 53)) as UX.
    { apply Rle_lt_trans with (Rabs x); [apply Rle_abs|]. eapply Rlt_le_trans; [apply (bpow_mag_gt radix2 x)|]. apply bpow_le. unfold e, cexp, fexp, FLT_exp. lia. }
    apply Rle_trans with (2 := GE). apply Rle_trans with (bpow radix2 (e + 54) * bpow radix2 (-54)).
    + apply Rmult_le_compat_r; [apply bpow_ge_0|]. replace (e + 54)%Z with (e + 53 + 1)%Z by lia. rewrite bpow_plus.
      change (bpow radix2 1) with 2. lra.
    + rewrite <- bpow_plus. replace (e + 54 + -54)%Z with e by lia. lra.
  - destruct (mag radix2 y) as [k K]. cbn in K. specialize (K ltac:(lra)). rewrite Rabs_pos_eq in K by lra. destruct K as [K1 K2].
    assert (bpow radix2 (k - 1) = bpow radix2 (k - 2) * 2) as P1.
    { replace (k - 1)%Z with (k - 2 + 1)%Z by lia. rewrite bpow_plus. reflexivity. }
    assert (bpow radix2 k = bpow radix2 (k - 2) * 4) as P2.
    { replace k with (k - 2 + 2)%Z at 1 by lia. rewrite bpow_plus. reflexivity. }
    destruct (Z_le_gt_dec (-1074) (k - 2)) as [Q|Q].
    + apply Rle_trans with (bpow radix2 (k - 2)); [lra|]. apply rnd_ge; [apply power_format; auto|lra].
    + (* y is the smallest positive number *)
      assert (forall z, binary64 z -> 0 < z -> bpow radix2 (-1074) <= z) as SM.
      { intros z FZ PZ. assert (z = IZR (Ztrunc (scaled_mantissa radix2 fexp z)) * bpow radix2 (cexp radix2 fexp z)) as EZ by exact FZ.
        assert (-1074 <= cexp radix2 fexp z)%Z by (unfold cexp, fexp, FLT_exp; lia).
        assert (bpow radix2 (-1074) <= bpow radix2 (cexp radix2 fexp z)) by (apply bpow_le; auto).
        pose proof (bpow_gt_0 radix2 (cexp radix2 fexp z)).
        assert (0 < Ztrunc (scaled_mantissa radix2 fexp z))%Z as PM by (apply lt_IZR; nra).
        assert (1 <= IZR (Ztrunc (scaled_mantissa radix2 fexp z))) by (apply IZR_le; lia). nra. }
      assert (bpow radix2 (-1074) <= y) as Y1 by (apply SM; auto).
      assert (k - 1 = -1074)%Z as KE.
      { assert (bpow radix2 (-1074) < bpow radix2 k) as LL by lra. apply lt_bpow in LL. lia. }
      assert (x = 0) as ->.
      { destruct (Req_dec x 0) as [|NZ]; auto. pose proof (SM x FX ltac:(lra)). rewrite KE in P1.
        assert (bpow radix2 k = bpow radix2 (-1074) * 2) by (replace k with (-1074 + 1)%Z by lia; rewrite bpow_plus; reflexivity). lra. }
      rewrite Rminus_0_r, rnd_exact by auto. lra.
Qed.

Lemma factor_positive : forall s ub, binary64 s -> binary64 ub -> 0 <= s < ub -> bpow radix2 (-54) <= rnd (f_sub ub s / ub).
Proof.
  intros s ub FS FU S. apply rnd_ge; [apply power_format; lia|]. pose proof (gap s ub FS FU ltac:(lra) ltac:(lra)) as G.
  apply (Rmult_le_reg_r ub); [lra|]. unfold Rdiv. rewrite Rmult_assoc, Rinv_l by lra. lra.
Qed.

Lemma step_range : forall s ub w, binary64 ub -> 0 < ub -> 0 <= s -> unit64 w -> unit64 (f_fluct_step s ub w).
Proof.
  intros s ub w FU U S [FW W]. unfold f_fluct_step. destruct (Rltb_spec ub s) as [|N].
  - split; [apply format_0|lra].
  - assert (0 <= rnd (f_sub ub s / ub) <= 1) as F by (apply factor_range; auto; lra).
    split; [apply rnd_format|]. unfold f_mul. split; [apply rnd_nonneg, Rmult_le_pos; lra|].
    apply rnd_le; [apply format_1|]. nra.
Qed.

(** ** Properties *)

(** Upper bounds above 0 and windows with at least one row. *)
Definition bounded (cols : list (list R * R)) : Prop :=
  forall window ub, In (window, ub) cols -> window <> [] /\ binary64 ub /\ 0 < ub.

(** C161.  The weight of every row is in [0,1]. *)
Theorem float_fluct_range : forall cols, bounded cols ->
  (exists stds w, f_fluct_weight cols stds w) /\ forall stds w, f_fluct_weight cols stds w -> unit64 w /\ length stds = length cols.
Proof.
  intros cols B. unfold f_fluct_weight. split.
  - generalize 1. induction cols as [|[window ub] cols IH]; intros w.
    + exists [], w. constructor.
    + destruct (B window ub (or_introl eq_refl)) as [N _]. destruct (std_exists window N) as [s S].
      destruct (IH ltac:(intros x y I; apply B; right; auto) (f_fluct_step s ub w)) as [stds [w' H]].
      exists (s :: stds), w'. constructor; auto.
  - assert (unit64 1) as W1 by (split; [apply format_1|lra]). revert W1. generalize 1. intros w0 W0 stds w H.
    induction H as [w|window ub cols w std stds w' S H IH]; [auto|].
    destruct (B window ub (or_introl eq_refl)) as [_ [FU U]]. destruct (std_nonneg _ _ S).
    destruct IH as [I1 I2]; [intros x y I; apply B; right; auto|apply step_range; auto|]. split; auto. cbn. auto.
Qed.
Print Assumptions float_fluct_range.

Lemma fluct_zero : forall cols w0 stds w, f_fluct cols w0 stds w -> w0 = 0 -> w = 0.
Proof.
  intros cols w0 stds w H. induction H as [|window ub cols w std stds w' S H IH]; intros W; auto. subst w.
  apply IH. unfold f_fluct_step. destruct (Rltb ub std); auto. unfold f_mul. rewrite Rmult_0_l. apply rnd_exact, format_0.
Qed.

(** C161.  A row gets the weight 0 only if the deviation in some column reaches its bound: with up to 19 columns the
    factors are not lost by rounding. *)
Theorem float_fluct_zero : forall cols stds w, bounded cols -> (length cols <= 19)%nat -> f_fluct_weight cols stds w ->
  (w = 0 <-> exists i window ub std, nth_error cols i = Some (window, ub) /\ nth_error stds i = Some std /\ ub <= std).
Proof.
  intros cols stds w B L H. split.
  - intros W.
    assert (forall cols w0 stds w, f_fluct cols w0 stds w -> bounded cols -> forall k, (54 * Z.of_nat (length cols) + k <= 1074)%Z -> (0 <= k)%Z ->
      bpow radix2 (- k) <= w0 -> (forall i window ub std, nth_error cols i = Some (window, ub) -> nth_error stds i = Some std -> std < ub) ->
      0 < w) as K.
    { clear. induction 1 as [w|window ub cols w std stds w' S H IH]; intros B k KL K0 WK A.
      - pose proof (bpow_gt_0 radix2 (- k)). lra.
      - destruct (B window ub (or_introl eq_refl)) as [_ [FU U]]. destruct (std_nonneg _ _ S) as [FS PS].
        pose proof (A 0%nat window ub std eq_refl eq_refl) as LT. cbn [length] in KL.
        apply (IH ltac:(intros x y I; apply B; right; auto) (k + 54)%Z); try lia.
        + unfold f_fluct_step. rewrite Rltb_false by lra. unfold f_mul. apply rnd_ge; [apply power_format; lia|].
          pose proof (factor_positive std ub FS FU ltac:(lra)) as F. replace (- (k + 54))%Z with (- k + -54)%Z by lia. rewrite bpow_plus.
          apply Rmult_le_compat; auto; apply bpow_ge_0.
        + intros i window' ub' std' N1 N2. apply (A (Datatypes.S i) window' ub' std'); auto. }
    destruct (Classical_Prop.classic (exists i window ub std, nth_error cols i = Some (window, ub) /\ nth_error stds i = Some std /\ ub <= std)) as [|N]; auto.
    exfalso. assert (0 < w); [|lra]. apply (K cols 1 stds w H B 0%Z); [lia|lia|change (bpow radix2 (- 0)) with 1; lra|].
    intros i window ub std N1 N2. apply Rnot_le_lt. intros Q. apply N. exists i, window, ub, std. auto.
  - intros [i [window [ub [std [N1 [N2 LE]]]]]]. unfold f_fluct_weight in H. clear L. revert i N1 N2. generalize dependent 1. intros w0 H.
    induction H as [|window' ub' cols w0 std' stds w S H IH]; intros i N1 N2; destruct i as [|i]; try discriminate; cbn in N1, N2.
    + injection N1 as -> ->. injection N2 as ->. destruct (B window ub (or_introl eq_refl)) as [_ [FU U]].
      assert (f_fluct_step std ub w0 = 0) as E; [|apply (fluct_zero _ _ _ _ H E)].
      unfold f_fluct_step. destruct (Rltb_spec ub std) as [|NL]; auto. assert (std = ub) as -> by lra.
      unfold f_sub. rewrite Rminus_eq_0, (rnd_exact 0 format_0). unfold Rdiv. rewrite Rmult_0_l, (rnd_exact 0 format_0).
      unfold f_mul. rewrite Rmult_0_r. apply rnd_exact, format_0.
    + apply (IH ltac:(intros x y I; apply B; right; auto) i); auto.
Qed.
Print Assumptions float_fluct_zero.

(** C161.  For one column, a larger deviation never gives a larger weight. *)
Theorem float_fluct_monotone : forall window window' ub s s' w w', bounded [(window, ub)] -> bounded [(window', ub)] ->
  f_fluct_weight [(window, ub)] [s] w -> f_fluct_weight [(window', ub)] [s'] w' -> s <= s' -> w' <= w.
Proof.
  intros window window' ub s s' w w' B B' H H' L. destruct (B window ub (or_introl eq_refl)) as [_ [FU U]].
  inversion H as [|? ? ? ? ? ? ? S1 H1]; subst. inversion H1; subst. inversion H' as [|? ? ? ? ? ? ? S2 H2]; subst. inversion H2; subst.
  destruct (std_nonneg _ _ S1) as [_ P1]. unfold f_fluct_step. destruct (Rltb_spec ub s') as [A|A].
  - destruct (Rltb_spec ub s) as [A'|A']; [lra|]. pose proof (factor_range s ub FU U ltac:(lra)). unfold f_mul. rewrite Rmult_1_l.
    apply rnd_nonneg. lra.
  - rewrite Rltb_false by lra. unfold f_mul. rewrite !Rmult_1_l. do 2 apply rnd_mono. apply Rmult_le_compat_r; [apply Rlt_le, Rinv_0_lt_compat; auto|].
    unfold f_sub. apply rnd_mono. lra.
Qed.
Print Assumptions float_fluct_monotone.

(** C161.  A row in whose windows no column changes gets the weight 1, if the values can be added up without rounding. *)
Theorem float_fluct_steady_partial : forall cols stds w, bounded cols ->
  (forall window ub, In (window, ub) cols -> exists b, (forall x, In x window -> x = b) /\ short_enough b (length window)) ->
  f_fluct_weight cols stds w -> w = 1.
Proof.
  intros cols stds w B ST H. unfold f_fluct_weight in H.
  assert (forall w0, w0 = 1 -> f_fluct cols w0 stds w -> w = 1) as K; [|apply (K 1); auto]. clear H. intros w0 W0 H. revert W0.
  induction H as [|window ub cols w0 std stds w S H IH]; intros W0; [auto|].
  destruct (B window ub (or_introl eq_refl)) as [N [FU U]]. destruct (ST window ub (or_introl eq_refl)) as [b [E SE]].
  assert (std = 0) as ->.
  { destruct (deviation_exists window b N) as [d _]. destruct S as [m [v [M [V ->]]]].
    assert (rnd 0 = 0) as R0 by apply rnd_exact, format_0.
    assert (m = b) as ->.
    { destruct M as [s [HS ->]]. destruct (sums_equal window s b HS E (short_multiples b _ SE)) as [L ->].
      assert (INR (length window) <> 0) by (apply not_0_INR; lia).
      replace (INR (length window) * b / INR (length window)) with b by (field; auto). apply rnd_exact.
      replace b with (INR 1 * b) by (simpl; lra). apply (short_multiples b _ SE). lia. }
    assert (v = 0) as ->; [|rewrite sqrt_0; auto].
    destruct V as [s [HS ->]]. destruct (sums_equal _ s 0 HS) as [L ->].
    - intros x I. apply in_map_iff in I. destruct I as [y [<- I]]. rewrite (E y I). unfold f_mul, f_sub. rewrite Rminus_eq_0, R0, Rmult_0_l. exact R0.
    - intros k _. rewrite Rmult_0_r. apply format_0.
    - rewrite Rmult_0_r. unfold Rdiv. rewrite Rmult_0_l. exact R0. }
  apply IH; [intros x y I; apply B; right; auto|intros x y I; apply (ST x y); right; auto|].
  unfold f_fluct_step. rewrite Rltb_false by lra. unfold f_sub. rewrite Rminus_0_r, (rnd_exact ub FU).
  replace (ub / ub) with 1 by (field; lra). rewrite (rnd_exact 1 format_1). unfold f_mul. rewrite W0, Rmult_1_l. apply rnd_exact, format_1.
Qed.
Print Assumptions float_fluct_steady_partial.

Lemma six_one_std : forall r, f_np_std [six_one; six_one; six_one] r -> r = bpow radix2 (-50).
Proof.
  intros r HS.
    assert (forall z, f_np_mean [six_one; six_one; six_one] z -> z = IZR 6867989431740005 * bpow radix2 (-50)) as MZ.
    { intros z [s [HZ ->]].
      destruct (sums_three _ s six_one HZ) as [_ [_ S3]]; [intros x [<-|[<-|[<-|[]]]]; reflexivity|]. rewrite S3 by reflexivity.
      assert (f_add six_one six_one = IZR 6867989431740006 * bpow radix2 (-49)) as ->.
      { unfold f_add. apply rnd_to; [lia|unfold six_one; small_bpow; lra|unfold six_one; apply Rabs_def1; small_bpow; lra]. }
      assert (f_add (IZR 6867989431740006 * bpow radix2 (-49)) six_one = IZR 5150992073805004 * bpow radix2 (-48)) as ->.
      { unfold f_add. apply rnd_tie; [lia|unfold six_one; small_bpow; lra|unfold six_one; small_bpow; lra|reflexivity]. }
      replace (INR (length [six_one; six_one; six_one])) with 3 by (simpl; lra).
      apply rnd_to; [lia|small_bpow; lra|apply Rabs_def1; small_bpow; lra]. }
    destruct HS as [m' [v [HM' [[t [HT ->]] ->]]]]. rewrite (MZ m' HM') in HT |- *. clear HM' MZ m'.
    assert (f_sub six_one (IZR 6867989431740005 * bpow radix2 (-50)) = bpow radix2 (-50)) as D1.
    { unfold f_sub. replace (six_one - IZR 6867989431740005 * bpow radix2 (-50)) with (bpow radix2 (-50)) by (unfold six_one; small_bpow; lra).
      apply rnd_exact, power_format. lia. }
    assert (f_mul (bpow radix2 (-50)) (bpow radix2 (-50)) = bpow radix2 (-100)) as D2.
    { unfold f_mul. rewrite <- bpow_plus. apply rnd_exact, power_format. lia. }
    cbn [map] in HT |- *. rewrite D1, D2 in HT |- *.
    destruct (sums_equal _ t (bpow radix2 (-100)) HT) as [_ ->].
    { intros x [<-|[<-|[<-|[]]]]; reflexivity. }
    { intros k K. rewrite INR_IZR_INZ. apply multiple_format; [lia|]. simpl in K. lia. }
    cbn [length]. replace (INR 3 * bpow radix2 (-100) / INR 3) with (bpow radix2 (-100)) by (field; apply not_0_INR; lia).
    rewrite (rnd_exact (bpow radix2 (-100))) by (apply power_format; lia).
    replace (bpow radix2 (-100)) with (bpow radix2 (-50) * bpow radix2 (-50)) by (rewrite <- bpow_plus; reflexivity).
    rewrite sqrt_square by apply bpow_ge_0. apply rnd_exact, power_format. lia.
Qed.

(** C161, refuted part: three equal values 6.1 with the bound 1 give less than 1. *)
Theorem float_fluct_steady_refuted : forall stds w, f_fluct_weight [([six_one; six_one; six_one], 1)] stds w -> w = 1 - bpow radix2 (-50).
Proof.
  intros stds w H. inversion H as [|? ? ? ? std ? ? S H1]; subst. inversion H1; subst.
  assert (std = bpow radix2 (-50)) as ->.
  { apply (six_one_std std S). }
  unfold f_fluct_step. rewrite Rltb_false by (small_bpow; lra). unfold f_sub.
  assert (binary64 (1 - bpow radix2 (-50))) as F.
  { replace (1 - bpow radix2 (-50)) with (IZR (2 ^ 50 - 1) * bpow radix2 (-50)); [apply multiple_format; lia|].
    rewrite minus_IZR. small_bpow. change (2 ^ 50)%Z with 1125899906842624%Z. lra. }
  rewrite (rnd_exact _ F). unfold Rdiv. rewrite Rinv_1, Rmult_1_r, (rnd_exact _ F). unfold f_mul. rewrite Rmult_1_l. apply rnd_exact, F.
Qed.
Print Assumptions float_fluct_steady_refuted.

(** A row with two columns. *)
Example float_fluct_meets : bounded [([13 / 2; 13 / 2; 13 / 2], 1 / 2); ([90], 10)] /\
  (exists stds w, f_fluct_weight [([13 / 2; 13 / 2; 13 / 2], 1 / 2); ([90], 10)] stds w) /\ short_enough (13 / 2) 3 /\ short_enough 90 1.
Proof.
  assert (bounded [([13 / 2; 13 / 2; 13 / 2], 1 / 2); ([90], 10)]) as B.
  { intros window ub [E|[E|[]]]; injection E as <- <-; split; try discriminate; split; try lra.
    - replace (1 / 2) with (IZR 1 * bpow radix2 (-1)) by (small_bpow; lra). apply multiple_format; lia.
    - apply (format_int 10). reflexivity. }
  split; [exact B|]. split; [apply (float_fluct_range _ B)|]. split.
  - apply float_weigh_meets.
  - left. exists 90%Z, 0%Z. split; [lia|]. split; [change (- 0)%Z with 0%Z; small_bpow; lra|simpl; lia].
Qed.

(** A row whose deviation is its bound. *)
Example float_fluct_zero_meets : bounded [([0; 2], 1)] /\ f_fluct_weight [([0; 2], 1)] [1] 0.
Proof.
  assert (forall k, (Z.abs k < 2 ^ 53)%Z -> rnd (IZR k) = IZR k) as RI by (intros; apply rnd_exact, format_int; auto).
  split.
  - intros window ub [E|[]]. injection E as <- <-. split; [discriminate|]. split; [apply format_1|lra].
  - assert (forall a b s m, rnd (a + b) = s -> rnd (s / 2) = m -> f_np_mean [a; b] m) as M.
    { intros a b s m E1 E2. exists s. split; [rewrite <- E1; apply (sum_two [a; b] [a] [b]); [reflexivity|constructor|constructor]|].
      rewrite <- E2. cbn [length]. replace (INR 2) with 2 by (simpl; lra). reflexivity. }
    assert (f_np_std [0; 2] 1) as S.
    { exists 1, 1. split; [|split].
      - apply (M 0 2 2); [replace (0 + 2) with 2 by lra; apply (RI 2%Z); reflexivity|replace (2 / 2) with 1 by lra; apply (RI 1%Z); reflexivity].
      - cbn [map]. unfold f_mul, f_sub. replace (0 - 1) with (-1) by lra. replace (2 - 1) with 1 by lra.
        rewrite (RI (-1)%Z), (RI 1%Z) by reflexivity. replace (-1 * -1) with 1 by lra. rewrite Rmult_1_l, (RI 1%Z) by reflexivity.
        apply (M 1 1 2); [replace (1 + 1) with 2 by lra; apply (RI 2%Z); reflexivity|replace (2 / 2) with 1 by lra; apply (RI 1%Z); reflexivity].
      - rewrite sqrt_1, (RI 1%Z); reflexivity. }
    apply (fluct_col [0; 2] 1 [] 1 1 [] 0 S).
    assert (f_fluct_step 1 1 1 = 0) as ->; [|constructor].
    unfold f_fluct_step. rewrite Rltb_false by lra. unfold f_sub, f_mul. replace (1 - 1) with 0 by lra.
    rewrite (RI 0%Z) by reflexivity. unfold Rdiv. rewrite Rmult_0_l, (RI 0%Z), Rmult_0_r by reflexivity. apply (RI 0%Z). reflexivity.
Qed.
