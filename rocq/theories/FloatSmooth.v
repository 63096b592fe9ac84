(** * The affine smoother in binary64: properties

    The model functions of SmoothModel.v are written for any number type ([Num]).  Here they run
    on binary64 numbers: every operation rounds (see FloatMod.v and FloatUnit.v for the numbers;
    overflow is left out).  The time stamps are exact numbers of seconds: Python subtracts dates
    exactly and [total_seconds] rounds the difference once, which is what [nsub] does here. *)

From Coq Require Import String.
From Coq Require Import List Bool Arith ZArith Reals Lra Lia Sorted.
From Flocq Require Import Core Relative Plus_error.
From Verif Require Import Py Num ListX DataModel SmoothModel SmoothProps FloatMod FloatUnit FloatSteps FloatAverage.
Import ListNotations.
Open Scope list_scope.
Open Scope R_scope.

(** Numbers of Python: binary64 without infinities, nan and the sign of zero. *)
Definition FNum : Num R := {|
  nofZ := fun z => rnd (IZR z); nadd := f_add; nsub := f_sub; nmul := f_mul; ndiv := fun x y => rnd (x / y);
  nopp := Ropp; nleb := Rleb; nltb := Rltb; neqb := Reqb; nfloor := Int_part
|}.

(** [AffineSmoother.smooth] and [_smooth_field] of processing/smoother.py 85-120 in binary64. *)
Definition f_smooth_field : R -> list R -> list R -> result (list R) := @smooth_field R FNum.
Definition f_affine_smooth : R -> @smdata R -> result (@smdata R) := @affine_smooth R FNum.

(** ** Specification *)

(** How far rounding may carry a number beyond a range [lo, hi]: four units in the last place of the
    larger bound. *)
Definition slack (lo hi : R) : R := 4 * unit_roundoff * Rmax (Rabs lo) (Rabs hi) + 4 * tiny.

(** ** Proofs *)

Lemma format_twice : forall x, binary64 x -> binary64 (2 * x).
Proof.
  intros x F. unfold binary64, fexp in *. apply FLT_format_generic in F; [|reflexivity].
  destruct F as [[m e] E1 E2 E3]. cbn in *. apply generic_format_FLT. exists (Float radix2 m (e + 1)); cbn; auto; [|lia].
  rewrite E1. unfold F2R. cbn [Fnum Fexp]. rewrite bpow_plus. change (bpow radix2 1) with 2. ring.
Qed.

Lemma half_value : rnd (rnd 1 / rnd 2) = / 2.
Proof.
  rewrite (rnd_exact 1) by apply format_1. rewrite (rnd_exact 2) by (apply (format_int 2); reflexivity).
  replace (1 / 2) with (bpow radix2 (-1)) by (cbn; lra).
  rewrite rnd_exact by (apply power_format; lia). reflexivity.
Qed.

Lemma f_half_eq : forall x y, @sm_half R FNum (@nadd R FNum x y) = rnd (/ 2 * rnd (x + y)).
Proof. intros. unfold sm_half. cbn [nofZ nmul ndiv nadd FNum]. unfold f_mul, f_add. rewrite half_value. reflexivity. Qed.

(** The mean of two numbers never leaves their range. *)
Lemma f_half_range : forall lo hi x y, binary64 lo -> binary64 hi -> lo <= x <= hi -> lo <= y <= hi ->
  lo <= @sm_half R FNum (@nadd R FNum x y) <= hi /\ binary64 (@sm_half R FNum (@nadd R FNum x y)).
Proof.
  intros lo hi x y FL FH HX HY. rewrite f_half_eq. split; [|apply rnd_format].
  assert (2 * lo <= rnd (x + y) <= 2 * hi) as K.
  { split; [apply rnd_ge; [apply format_twice; auto|lra]|apply rnd_le; [apply format_twice; auto|lra]]. }
  split; [apply rnd_ge; auto; lra|apply rnd_le; auto; lra].
Qed.

Lemma f_half_nonneg : forall x y, 0 <= x -> 0 <= y -> 0 <= @sm_half R FNum (@nadd R FNum x y).
Proof.
  intros x y HX HY. rewrite f_half_eq. apply rnd_nonneg. assert (0 <= rnd (x + y)) by (apply rnd_nonneg; lra). lra.
Qed.

Lemma f_half_same : forall x, binary64 x -> @sm_half R FNum (@nadd R FNum x x) = x.
Proof. intros x F. destruct (f_half_range x x x x) as [K _]; auto; lra. Qed.

Lemma rnd_err : forall x, Rabs (rnd x - x) <= unit_roundoff * Rabs x + tiny.
Proof.
  intros x. destruct (error_N_FLT radix2 (-1074) 53 eq_refl (fun z => negb (Z.even z)) x) as [eps [eta [E1 [E2 [_ E]]]]].
  rewrite <- u_bpow in E1. rewrite tiny_half in E2. unfold rnd. change fexp with (FLT_exp (-1074) 53).
  change ZnearestE with (Znearest (fun z => negb (Z.even z))). rewrite E.
  replace (x * (1 + eps) + eta - x) with (x * eps + eta) by ring.
  eapply Rle_trans; [apply Rabs_triang|]. rewrite Rabs_mult. pose proof (Rabs_pos x). nra.
Qed.

Lemma sum_err : forall x y, binary64 x -> binary64 y -> Rabs (rnd (x + y) - (x + y)) <= unit_roundoff * Rabs (x + y).
Proof.
  intros x y FX FY. assert (Prec_gt_0 53) as PG by reflexivity.
  destruct (FLT_plus_error_N_ex radix2 (-1074) 53 (fun z => negb (Z.even z)) x y FX FY) as [eps [E1 E]].
  rewrite u_ro_u in E1. unfold rnd. change fexp with (FLT_exp (-1074) 53).
  change ZnearestE with (Znearest (fun z => negb (Z.even z))). rewrite E.
  pose proof u_bounds as U. assert (unit_roundoff / (1 + unit_roundoff) <= unit_roundoff) as UU.
  { apply Rmult_le_reg_r with (1 + unit_roundoff); [lra|]. unfold Rdiv. rewrite Rmult_assoc, Rinv_l by lra. nra. }
  replace ((x + y) * (1 + eps) - (x + y)) with ((x + y) * eps) by ring. rewrite Rabs_mult.
  pose proof (Rabs_pos (x + y)). nra.
Qed.

Lemma u_small : unit_roundoff <= / 16.
Proof.
  unfold unit_roundoff. apply Rinv_le_contravar; [lra|]. apply (IZR_le 16). vm_compute. discriminate.
Qed.

(** Rounded convex combinations. *)
Lemma f_convex : forall mu a b lo hi, unit64 mu -> binary64 a -> binary64 b -> lo <= a <= hi -> lo <= b <= hi ->
  lo - slack lo hi <= f_add (f_mul mu b) (f_mul (f_sub 1 mu) a) <= hi + slack lo hi.
Proof.
  intros mu a b lo hi [FM HM] FA FB HA HB. unfold f_add, f_mul, f_sub, slack.
  set (M := Rmax (Rabs lo) (Rabs hi)).
  assert (forall z, lo <= z <= hi -> Rabs z <= M) as BM.
  { intros z HZ. unfold M. pose proof (Rmax_l (Rabs lo) (Rabs hi)). pose proof (Rmax_r (Rabs lo) (Rabs hi)).
    unfold Rabs in *. repeat destruct (Rcase_abs _); lra. }
  pose proof (BM a HA) as Ma. pose proof (BM b HB) as Mb. assert (0 <= M) as M0 by (pose proof (Rabs_pos a); lra).
  pose proof u_bounds as [U0 _]. pose proof u_small as U1. pose proof tiny_pos as T0. set (u := unit_roundoff) in *.
  set (nu := rnd (1 - mu)).
  assert (Rabs (nu - (1 - mu)) <= u * (1 - mu)) as EN.
  { unfold nu. replace (1 - mu) with (1 + - mu) by ring. eapply Rle_trans; [apply sum_err; [apply format_1|apply generic_format_opp; auto]|].
    rewrite Rabs_pos_eq by lra. fold u. lra. }
  assert (0 <= nu <= 1) as HN by (destruct (rnd_unit (1 - mu)) as [_ K]; [lra|exact K]).
  clearbody nu.
  pose proof (rnd_err (mu * b)) as EA. pose proof (rnd_err (nu * a)) as EB. fold u in EA, EB.
  set (pa := rnd (mu * b)) in *. set (pb := rnd (nu * a)) in *.
  assert (binary64 pa) as FPA by apply rnd_format. assert (binary64 pb) as FPB by apply rnd_format.
  pose proof (sum_err pa pb FPA FPB) as ES. fold u in ES. set (r := rnd (pa + pb)) in *. clearbody r pa pb.
  rewrite Rabs_mult, (Rabs_pos_eq mu) in EA by lra. rewrite Rabs_mult, (Rabs_pos_eq nu) in EB by lra.
  assert (Rabs (pa - mu * b) <= u * mu * M + tiny) as EA' by (assert (mu * Rabs b <= mu * M) by nra; nra).
  assert (Rabs (pb - nu * a) <= u * nu * M + tiny) as EB' by (assert (nu * Rabs a <= nu * M) by nra; nra).
  assert (Rabs (nu * a - (1 - mu) * a) <= u * (1 - mu) * M) as EC.
  { replace (nu * a - (1 - mu) * a) with ((nu - (1 - mu)) * a) by ring. rewrite Rabs_mult.
    pose proof (Rabs_pos (nu - (1 - mu))). pose proof (Rabs_pos a).
    apply Rle_trans with ((u * (1 - mu)) * M); [apply Rmult_le_compat; auto|lra]. }
  assert (lo <= mu * b + (1 - mu) * a <= hi) as CV by nra.
  set (c := mu * b + (1 - mu) * a) in *.
  assert (nu <= (1 - mu) * (1 + u)) as NU by (apply Rabs_le_inv in EN; lra).
  assert (Rabs (pa + pb - c) <= u * M * (2 + u) + 2 * tiny) as E1.
  { replace (pa + pb - c) with ((pa - mu * b) + (pb - nu * a) + (nu * a - (1 - mu) * a)) by (unfold c; ring).
    eapply Rle_trans; [apply Rabs_triang|]. eapply Rle_trans; [apply Rplus_le_compat_r, Rabs_triang|].
    assert (u * nu * M <= u * M * ((1 - mu) * (1 + u))) by (assert (0 <= u * M) by nra; nra).
    assert (0 <= u * M * mu * u) by (repeat apply Rmult_le_pos; lra).
    nra. }
  assert (Rabs c <= M) as MC by (apply BM; auto).
  assert (Rabs (pa + pb) <= M + (u * M * (2 + u) + 2 * tiny)) as E2.
  { replace (pa + pb) with (c + (pa + pb - c)) by ring. eapply Rle_trans; [apply Rabs_triang|]. lra. }
  assert (Rabs (r - c) <= 4 * u * M + 4 * tiny) as E3.
  { replace (r - c) with ((r - (pa + pb)) + (pa + pb - c)) by ring. eapply Rle_trans; [apply Rabs_triang|].
    assert (u * Rabs (pa + pb) <= u * (M + (u * M * (2 + u) + 2 * tiny))) by (apply Rmult_le_compat_l; lra).
    set (m := u * M) in *. assert (0 <= m) by (unfold m; nra).
    replace (u * (M + (m * (2 + u) + 2 * tiny))) with (m + u * (m * (2 + u) + 2 * tiny)) in * by (unfold m; ring).
    assert (m * (2 + u) <= 3 * m) by nra. assert (u * (m * (2 + u) + 2 * tiny) <= / 16 * (3 * m + 2 * tiny)) by nra.
    assert (m * (2 + u) <= m * (2 + / 16)) by nra. replace (4 * u * M) with (4 * m) by (unfold m; ring). lra. }
  apply Rabs_le_inv in E3. unfold c in *. lra.
Qed.

(** The proportion lies in [0,1]. *)
Lemma f_proportion : forall lb ub x, lb <= x <= ub -> Reqb (f_sub ub lb) 0 = false -> unit64 (rnd (f_sub x lb / f_sub ub lb)).
Proof.
  intros lb ub x HX NZ. unfold f_sub in *. destruct (Reqb_spec (rnd (ub - lb)) 0) as [|N]; [discriminate|].
  apply rnd_unit. assert (0 <= rnd (x - lb)) by (apply rnd_nonneg; lra).
  assert (rnd (x - lb) <= rnd (ub - lb)) by (apply rnd_mono; lra).
  assert (0 < rnd (ub - lb)) by lra. split; [apply Rmult_le_pos; [auto|apply Rlt_le, Rinv_0_lt_compat; auto]|].
  apply (Rmult_le_reg_r (rnd (ub - lb))); auto. unfold Rdiv. rewrite Rmult_assoc, Rinv_l by lra. lra.
Qed.

Lemma f_piece_range : forall p x lo hi, plb p <= x <= pub p ->
  binary64 (fst (snd p)) -> binary64 (snd (snd p)) -> lo <= fst (snd p) <= hi -> lo <= snd (snd p) <= hi ->
  lo - slack lo hi <= @piece_value R FNum p x <= hi + slack lo hi /\ binary64 (@piece_value R FNum p x).
Proof.
  intros [[lb ub] [a b]] x lo hi HX FA FB HA HB. unfold plb, pub in HX. cbn [fst snd] in *. unfold piece_value.
  cbn [nofZ nadd nsub nmul ndiv neqb FNum]. rewrite (rnd_exact 0) by apply format_0. rewrite (rnd_exact 1) by apply format_1.
  destruct (Reqb (f_sub ub lb) 0) eqn:E.
  - split; auto. assert (0 <= slack lo hi).
    { unfold slack. pose proof u_bounds. pose proof tiny_pos. pose proof (Rmax_l (Rabs lo) (Rabs hi)). pose proof (Rabs_pos lo). nra. }
    lra.
  - split; [apply f_convex; auto; apply f_proportion; auto|apply rnd_format].
Qed.

Lemma f_smooth_points_map : forall xs cur rest ys, length ys = length xs -> StronglySorted Rle xs ->
  (forall x, In x xs -> locate (cur :: rest) x <> None) ->
  @smooth_points R FNum cur rest xs ys =
  map (fun x => match locate (cur :: rest) x with Some p => @piece_value R FNum p x | None => 0 end) xs.
Proof.
  induction xs as [|x xs IH]; intros cur rest [|y ys] HL HS HN; try discriminate; auto.
  cbn [smooth_points map]. pose proof (advance_locate rest cur x) as A.
  change (@advance R FNum) with (@advance R RNum).
  destruct (advance x cur rest) as [[c r]|].
  - destruct A as [A1 A2]. rewrite A1. f_equal. inversion HS as [|? ? S1 S2]; subst.
    rewrite Forall_forall in S2.
    rewrite IH; auto.
    + apply map_ext_in. intros x' Hx'. rewrite A2 by auto. auto.
    + intros x' Hx'. rewrite A2 by auto. apply HN. simpl; auto.
  - exfalso. apply (HN x); simpl; auto.
Qed.

Lemma f_approx_one_chain : forall span yb x_lb x_ub y ya,
  chain x_lb x_ub (@approx_one R FNum span yb ((x_lb, x_ub), y) ya).
Proof. intros. unfold approx_one. destruct (_ <? _)%num; simpl; auto. Qed.

Lemma f_approx_chain : forall span bs yb lst a b, bchain a b bs -> chain a b (@approx_intervals R FNum span yb lst bs).
Proof.
  intros span. induction bs as [|[[lb ub] y] bs IH]; intros yb lst a b H; cbn [approx_intervals].
  - exact H.
  - simpl in H. destruct H as [-> H]. eapply chain_app; [apply f_approx_one_chain|]. apply IH. auto.
Qed.

Lemma f_bounds_eq : forall (a b x xa : R) xs y ya yb yr,
  @interval_bounds R FNum a b (x :: xa :: xs) (y :: ya :: yb :: yr) =
  if Reqb y ya then @interval_bounds R FNum a b (xa :: xs) (ya :: yb :: yr)
  else ((a, @sm_half R FNum (f_add x xa)), b) :: @interval_bounds R FNum (@sm_half R FNum (f_add x xa)) ya (xa :: xs) (ya :: yb :: yr).
Proof. reflexivity. Qed.

Lemma f_bounds_chain : forall xs ys x_lb y_lb, length ys = length xs -> (2 <= length xs)%nat ->
  bchain x_lb (last xs 0) (@interval_bounds R FNum x_lb y_lb xs ys).
Proof.
  induction xs as [|x xs IH]; intros ys x_lb y_lb HL H2; [simpl in H2; lia|].
  destruct xs as [|xa xs]; [simpl in H2; lia|].
  destruct ys as [|y [|ya yr]]; try discriminate.
  destruct yr as [|yb yr].
  - destruct xs; [|discriminate]. simpl. auto.
  - assert (2 <= length (xa :: xs))%nat by (simpl in *; lia).
    rewrite f_bounds_eq. destruct (Reqb_spec y ya).
    + change (last (x :: xa :: xs) 0) with (last (xa :: xs) 0). apply IH; auto.
    + split; [reflexivity|]. change (last (x :: xa :: xs) 0) with (last (xa :: xs) 0). apply IH; auto.
Qed.

Lemma f_bounds_values : forall xs ys x_lb y_lb b, In y_lb ys -> In b (@interval_bounds R FNum x_lb y_lb xs ys) -> In (snd b) ys.
Proof.
  induction xs as [|x xs IH]; intros ys x_lb y_lb b HI Hb; [destruct ys; contradiction|].
  destruct xs as [|xa xs]; [destruct ys as [|? [|? ?]]; contradiction|].
  destruct ys as [|y [|ya yr]]; try contradiction.
  destruct yr as [|yb yr].
  - destruct Hb as [<-|[]]. simpl. auto.
  - rewrite f_bounds_eq in Hb. destruct (Reqb_spec y ya) as [->|NE].
    + right. apply (IH (ya :: yb :: yr) x_lb y_lb b); auto.
      destruct HI as [->|HI]; simpl; auto.
    + destruct Hb as [<-|Hb]; [exact HI|]. right. eapply IH; [|exact Hb]. simpl; auto.
Qed.

Lemma f_approx_range : forall span m M bs yb lst, binary64 m -> binary64 M ->
  m <= yb <= M -> m <= lst <= M -> (forall b, In b bs -> m <= snd b <= M /\ binary64 (snd b)) ->
  forall p, In p (@approx_intervals R FNum span yb lst bs) ->
    (m <= fst (snd p) <= M /\ binary64 (fst (snd p))) /\ (m <= snd (snd p) <= M /\ binary64 (snd (snd p))).
Proof.
  intros span m M. induction bs as [|[[lb ub] y] bs IH]; intros yb lst Fm FM H1 H2 H3 p Hp; cbn [approx_intervals] in Hp.
  - contradiction.
  - apply in_app_or in Hp. pose proof (H3 _ (or_introl eq_refl)) as [Hy Fy]. cbn [snd] in Hy, Fy.
    destruct Hp as [Hp|Hp].
    + set (ya := match bs with [] => lst | b' :: _ => snd b' end) in *.
      assert (m <= ya <= M) as Ha.
      { unfold ya. destruct bs as [|b' bs]; auto. apply H3. simpl; auto. }
      pose proof (f_half_range m M yb y Fm FM H1 Hy) as K1. pose proof (f_half_range m M ya y Fm FM Ha Hy) as K2.
      unfold approx_one in Hp. destruct (_ <? _)%num; simpl in Hp;
        repeat (destruct Hp as [<-|Hp]); try contradiction; cbn [fst snd]; split; auto.
    + apply (IH y lst); auto. intros b Hb. apply H3. simpl; auto.
Qed.

Lemma f_approx_nonempty : forall span yb lst b bs, @approx_intervals R FNum span yb lst (b :: bs) <> [].
Proof.
  intros span yb lst [[lb ub] y] bs. cbn [approx_intervals]. unfold approx_one.
  destruct (_ <? _)%num; discriminate.
Qed.

Lemma f_bounds_nonempty : forall (xs ys : list R) a b, length ys = length xs -> (2 <= length xs)%nat ->
  @interval_bounds R FNum a b xs ys <> [].
Proof.
  induction xs as [|x xs IH]; intros ys a b HL H2; [simpl in H2; lia|].
  destruct xs as [|xa xs]; [simpl in H2; lia|].
  destruct ys as [|y [|ya [|yb yr]]]; try discriminate. try discriminate. rewrite f_bounds_eq.
  destruct (Reqb _ _); [|discriminate]. apply IH; simpl in *; lia.
Qed.

(** The function drawn by the smoother. *)
Lemma f_smooth_field_pieces : forall span times ys, in_order times -> length ys = length times ->
  (2 <= length times)%nat ->
  exists t0 y0 trest yrest p ps, times = t0 :: trest /\ ys = y0 :: yrest /\
    @approx_intervals R FNum span y0 (last ys y0)
      (@interval_bounds R FNum 0 y0 (map (fun t => f_sub t t0) times) ys) = p :: ps /\
    (forall x, In x times -> exists q, locate (p :: ps) (f_sub x t0) = Some q /\ plb q <= f_sub x t0 <= pub q) /\
    f_smooth_field span times ys =
      Ok (map (fun x => match locate (p :: ps) (f_sub x t0) with Some p => @piece_value R FNum p (f_sub x t0) | None => 0 end) times).
Proof.
  intros span times ys HO HL H2. destruct times as [|t0 trest]; [simpl in H2; lia|].
  destruct ys as [|y0 yrest]; [discriminate|].
  set (times := t0 :: trest) in *. set (ys := y0 :: yrest) in *.
  set (xs := map (fun t => f_sub t t0) times).
  assert (length xs = length times) as Lx by apply map_length.
  assert (nth 0 xs 0 = 0) as X0.
  { unfold xs, times, f_sub. simpl. rewrite Rminus_eq_0. apply rnd_exact, format_0. }
  destruct (@approx_intervals R FNum span y0 (last ys y0) (@interval_bounds R FNum 0 y0 xs ys)) as [|p ps] eqn:EA.
  { exfalso. destruct (@interval_bounds R FNum 0 y0 xs ys) as [|b bs] eqn:EB.
    - apply (f_bounds_nonempty xs ys 0 y0); auto; lia.
    - apply (f_approx_nonempty span y0 (last ys y0) b bs). auto. }
  exists t0, y0, trest, yrest, p, ps. split; auto. split; auto. split; auto.
  assert (chain 0 (last xs 0) (p :: ps)) as CH.
  { rewrite <- EA. apply f_approx_chain. apply f_bounds_chain; lia. }
  assert (StronglySorted Rle xs) as SX.
  { unfold xs. clear - HO. unfold in_order in HO. induction HO as [|a l S IH FA]; simpl; constructor; auto.
    apply Forall_forall. intros z Hz. apply in_map_iff in Hz. destruct Hz as [w [<- Hw]].
    rewrite Forall_forall in FA. specialize (FA w Hw). apply rnd_mono. lra. }
  assert (forall x, In x xs -> 0 <= x <= last xs 0) as RX.
  { intros x Hx. split.
    - destruct xs as [|x0 xs']; [contradiction|]. simpl in X0. subst x0.
      destruct Hx as [<-|Hx]; [lra|]. inversion SX as [|? ? _ FA]; subst. rewrite Forall_forall in FA. auto.
    - clear - SX Hx. clearbody xs. revert x Hx. induction SX as [|a l S IH FA]; intros x Hx; [contradiction|].
      destruct l as [|b l].
      + destruct Hx as [<-|[]]. simpl. lra.
      + change (last (a :: b :: l) 0) with (last (b :: l) 0).
        destruct Hx as [<-|Hx]; [|auto]. rewrite Forall_forall in FA.
        apply Rle_trans with b; [apply FA; simpl; auto|]. apply IH. simpl; auto. }
  assert (forall x, In x xs -> exists q, locate (p :: ps) x = Some q /\ plb q <= x <= pub q) as LX.
  { intros x Hx. apply (chain_locate (p :: ps) 0 (last xs 0)); auto. discriminate. }
  split.
  { intros x Hx. apply LX. apply in_map_iff. eauto. }
  unfold f_smooth_field, smooth_field. unfold times at 1, ys at 1. fold times.
  change (fun t : R => @nsub R FNum t t0) with (fun t : R => f_sub t t0). fold xs.
  assert (forall d, nth 0 xs d = 0) as XD by (intros d; unfold xs, times in *; simpl in *; exact X0).
  rewrite XD. fold ys. rewrite EA. f_equal.
  rewrite f_smooth_points_map; auto; try lia.
  - unfold xs. rewrite map_map. auto.
  - intros x Hx. destruct (LX x Hx) as [q [Q _]]. congruence.
Qed.

Lemma f_smooth_field_range : forall span times ys lo hi, in_order times -> length ys = length times ->
  (2 <= length times)%nat -> binary64 lo -> binary64 hi -> (forall y, In y ys -> binary64 y /\ lo <= y <= hi) ->
  exists ys', f_smooth_field span times ys = Ok ys' /\ length ys' = length ys /\
    (forall y, In y ys' -> binary64 y /\ lo - slack lo hi <= y <= hi + slack lo hi).
Proof.
  intros span times ys lo hi HO HL H2 Fl Fh HR.
  destruct (f_smooth_field_pieces span times ys HO HL H2) as [t0 [y0 [tr [yr [p [ps [E1 [E2 [E3 [E4 E5]]]]]]]]]].
  assert (In y0 ys) as I0 by (rewrite E2; simpl; auto).
  eexists. split; [exact E5|]. split; [rewrite map_length; auto|].
  intros y Hy. apply in_map_iff in Hy. destruct Hy as [x [<- Hx]].
  destruct (E4 x Hx) as [q [Q1 Q2]]. rewrite Q1.
  assert ((lo <= fst (snd q) <= hi /\ binary64 (fst (snd q))) /\ (lo <= snd (snd q) <= hi /\ binary64 (snd (snd q)))) as [[R1 F1] [R2 F2]].
  { apply locate_In in Q1. rewrite <- E3 in Q1.
    eapply f_approx_range; [| | | | |exact Q1]; auto.
    - apply HR. auto.
    - apply HR. rewrite E2. apply last_in_cons.
    - intros b Hb. assert (In (snd b) ys) as IB by (eapply f_bounds_values; eauto). destruct (HR _ IB). auto. }
  destruct (f_piece_range q _ lo hi Q2 F1 F2 R1 R2). auto.
Qed.

Lemma f_first_bound : forall xs ys x_lb b bs, @interval_bounds R FNum x_lb (nth 0 ys 0) xs ys = b :: bs ->
  snd b = nth 0 ys 0 /\ fst (fst b) = x_lb.
Proof.
  induction xs as [|x xs IH]; intros ys x_lb b bs E; [destruct ys; discriminate|].
  destruct xs as [|xa xs]; [destruct ys as [|? [|? ?]]; discriminate|].
  destruct ys as [|y [|ya yr]]; try discriminate.
  destruct yr as [|yb yr].
  - cbn in E. injection E as <- <-. auto.
  - rewrite f_bounds_eq in E. destruct (Reqb_spec y ya) as [->|NE].
    + apply (IH (ya :: yb :: yr) x_lb b bs). exact E.
    + injection E as <- <-. auto.
Qed.

Lemma f_piece_start : forall a c, binary64 a -> @piece_value R FNum ((0, c), (a, a)) 0 = a.
Proof.
  intros a c FA. unfold piece_value. cbn [nofZ nadd nsub nmul ndiv neqb FNum].
  rewrite (rnd_exact 0) by apply format_0. rewrite (rnd_exact 1) by apply format_1.
  destruct (Reqb _ 0); auto. unfold f_add, f_mul, f_sub. rewrite Rminus_eq_0, (rnd_exact 0) by apply format_0.
  unfold Rdiv. rewrite !Rmult_0_l, (rnd_exact 0) by apply format_0. rewrite Rmult_0_l, Rminus_0_r, (rnd_exact 0) by apply format_0.
  rewrite (rnd_exact 1) by apply format_1. rewrite Rmult_1_l, (rnd_exact a) by auto. rewrite Rplus_0_l. apply rnd_exact; auto.
Qed.

(** The end of the first piece is not before the first row. *)
Lemma f_bounds_nonneg : forall xs ys x_lb y_lb b, 0 <= x_lb -> (forall x, In x xs -> 0 <= x) ->
  In b (@interval_bounds R FNum x_lb y_lb xs ys) -> 0 <= snd (fst b).
Proof.
  induction xs as [|x xs IH]; intros ys x_lb y_lb b HL HX Hb; [destruct ys; contradiction|].
  destruct xs as [|xa xs]; [destruct ys as [|? [|? ?]]; contradiction|].
  destruct ys as [|y [|ya yr]]; try contradiction.
  assert (0 <= @sm_half R FNum (f_add x xa)) as HH.
  { change (f_add x xa) with (@nadd R FNum x xa). rewrite f_half_eq. apply rnd_nonneg.
    assert (0 <= rnd (x + xa)); [|lra]. apply rnd_nonneg. pose proof (HX x). pose proof (HX xa). simpl in *. assert (0 <= x) by auto. assert (0 <= xa) by auto. lra. }
  destruct yr as [|yb yr].
  - destruct Hb as [<-|[]]. cbn. apply HX. simpl; auto.
  - rewrite f_bounds_eq in Hb. assert (forall z, In z (xa :: xs) -> 0 <= z) as HX' by (intros z Hz; apply HX; simpl; auto).
    destruct (Reqb_spec y ya); [eapply IH; [| |exact Hb]; auto|]. destruct Hb as [<-|Hb]; [auto|]. eapply IH; [| |exact Hb]; auto.
Qed.

Lemma f_smooth_first : forall span times ys ys', 0 <= span -> in_order times -> length ys = length times ->
  (2 <= length times)%nat -> (forall y, In y ys -> binary64 y) ->
  f_smooth_field span times ys = Ok ys' -> nth 0 ys' 0 = nth 0 ys 0.
Proof.
  intros span times ys ys' HS HO HL H2 FY E.
  destruct (f_smooth_field_pieces span times ys HO HL H2) as [t0 [y0 [tr [yr [p [ps [E1 [E2 [E3 [E4 E5]]]]]]]]]].
  rewrite E in E5. injection E5 as ->. rewrite E1. cbn [map nth].
  assert (f_sub t0 t0 = 0) as Z by (unfold f_sub; rewrite Rminus_eq_0; apply rnd_exact, format_0). rewrite Z.
  rewrite E2. cbn [nth]. assert (binary64 y0) as F0 by (apply FY; rewrite E2; simpl; auto).
  assert (forall x, In x (map (fun t => f_sub t t0) times) -> 0 <= x) as XN.
  { intros x Hx. apply in_map_iff in Hx. destruct Hx as [t [<- Ht]]. apply rnd_nonneg. rewrite E1 in HO, Ht.
    destruct Ht as [<-|Ht]; [lra|]. inversion HO as [|? ? _ FA]; subst. rewrite Forall_forall in FA. specialize (FA t Ht). lra. }
  assert (plb p = 0 /\ fst (snd p) = y0 /\ snd (snd p) = y0 /\ 0 <= pub p) as [P1 [P2 [P3 P4]]].
  { destruct (@interval_bounds R FNum 0 y0 (map (fun t => f_sub t t0) times) ys) as [|[[lb ub] y] bs] eqn:EB; [discriminate|].
    assert (0 <= ub) as UB.
    { apply (f_bounds_nonneg (map (fun t => f_sub t t0) times) ys 0 y0 ((lb, ub), y)); auto; [lra|]. rewrite EB. simpl; auto. }
    assert (snd ((lb, ub), y) = nth 0 ys 0 /\ fst (fst ((lb, ub), y)) = 0) as [EY EL].
    { eapply f_first_bound. rewrite <- EB. rewrite E2. reflexivity. }
    rewrite E2 in EY. cbn [fst snd nth] in EY, EL. subst y lb.
    cbn [approx_intervals] in E3. unfold approx_one in E3. destruct (_ <? _)%num; cbn [app] in E3; injection E3 as <- <-;
      unfold plb, pub; cbn [fst snd]; (split; [reflexivity|]); (split; [apply f_half_same; auto|]); (split; [reflexivity|]).
    - apply f_half_nonneg; lra.
    - cbn [nadd FNum]. unfold f_add. apply rnd_nonneg. lra. }
  cbn [locate]. rewrite Rltb_false by lra. destruct p as [[a b] [c d]]. unfold plb in P1. cbn [fst snd] in *. subst.
  apply f_piece_start. auto.
Qed.

(** ** Properties *)

(** C147.  For a log in order every smoothed value is a number that leaves the range of its column by
    at most four units in the last place; the other columns and the rows stay as they are. *)
Theorem float_smooth_range : forall span d, in_order (sm_time d) -> (2 <= length (sm_time d))%nat -> sm_rect d ->
  (forall k l y, In (k, FloatCol l) (sm_cols d) -> In y l -> binary64 y) ->
  exists d', f_affine_smooth span d = Ok d' /\ sm_time d' = sm_time d /\
    map fst (sm_cols d') = map fst (sm_cols d) /\
    (forall i k l, nth_error (sm_cols d) i = Some (k, OtherCol l) -> nth_error (sm_cols d') i = Some (k, OtherCol l)) /\
    (forall i k l, nth_error (sm_cols d) i = Some (k, FloatCol l) ->
       exists l', nth_error (sm_cols d') i = Some (k, FloatCol l') /\ length l' = length l /\
         f_smooth_field span (sm_time d) l = Ok l' /\ (0 <= span -> nth 0 l' 0 = nth 0 l 0) /\
         forall lo hi, binary64 lo -> binary64 hi -> (forall y, In y l -> lo <= y <= hi) ->
           forall y, In y l' -> binary64 y /\ lo - slack lo hi <= y <= hi + slack lo hi).
Proof.
  intros span d HO H2 HR HF. unfold f_affine_smooth, affine_smooth.
  assert ((match sm_time d with [] => false | t0 :: _ => existsb (fun t => @nltb R FNum t t0) (sm_time d) end) = false) as ->.
  { destruct (sm_time d) as [|t0 ts]; auto. destruct (existsb _ _) eqn:E; auto. exfalso.
    apply existsb_exists in E. destruct E as [t [Ht1 Ht2]]. cbn in Ht2. destruct (Rltb_spec t t0); [|discriminate].
    destruct Ht1 as [<-|Ht1]; [lra|]. inversion HO as [|? ? _ FA]; subst. rewrite Forall_forall in FA.
    specialize (FA t Ht1). lra. }
  set (f := fun kc : string * @smcol R => match snd kc with
              | FloatCol l => do l' <- @smooth_field R FNum span (sm_time d) l; Ok (fst kc, FloatCol l')
              | OtherCol _ => Ok kc end).
  assert (forall k l, In (k, FloatCol l) (sm_cols d) -> exists l', f_smooth_field span (sm_time d) l = Ok l' /\ length l' = length l) as FC.
  { intros k l I. specialize (HR _ _ I). cbn in HR.
    assert (exists lo hi, binary64 lo /\ binary64 hi /\ forall y, In y l -> lo <= y <= hi) as [lo [hi [Fl [Fh B]]]].
    { assert (forall y, In y l -> binary64 y) as FL by (intros y Hy; eapply HF; eauto). clear - FL.
      destruct l as [|a l]; [exists 0, 0; split; [apply format_0|split; [apply format_0|intros y []]]|].
      destruct (fold_min_spec l a) as [M1 M2]. destruct (fold_max_spec l a) as [N1 N2].
      exists (fold_left Rmin l a), (fold_left Rmax l a). split; [auto|]. split; [auto|]. intros y Hy. split; auto. }
    destruct (f_smooth_field_range span (sm_time d) l lo hi) as [l' [L1 [L2 _]]]; auto.
    { intros y Hy. split; auto. eapply HF; eauto. }
    exists l'. auto. }
  assert (forall cols, (forall k l, In (k, FloatCol l) cols -> exists l', f_smooth_field span (sm_time d) l = Ok l' /\ length l' = length l) ->
    exists cs, mapM f cols = Ok cs /\ map fst cs = map fst cols /\
      (forall i k l, nth_error cols i = Some (k, OtherCol l) -> nth_error cs i = Some (k, OtherCol l)) /\
      (forall i k l, nth_error cols i = Some (k, FloatCol l) -> exists l', nth_error cs i = Some (k, FloatCol l') /\
         length l' = length l /\ f_smooth_field span (sm_time d) l = Ok l')) as KEY.
  { induction cols as [|[k c] r IH]; intros H.
    - exists []. split; [reflexivity|]. split; [reflexivity|]. split; intros [|i] k' l' E; discriminate.
    - destruct IH as [cs [E1 [E2 [E3 E4]]]]; [intros k' l' I; apply (H k'); simpl; auto|].
      destruct c as [l|l].
      + destruct (H k l (or_introl eq_refl)) as [l' [L1 L2]]. exists ((k, FloatCol l') :: cs).
        split; [cbn [mapM]; unfold f at 1; cbn [fst snd]; unfold f_smooth_field in L1; rewrite L1; cbn [rbind]; rewrite E1; reflexivity|].
        split; [simpl; congruence|]. split.
        * intros [|i] k' q E; cbn in E; [discriminate|]. cbn. auto.
        * intros [|i] k' q E; cbn in E; [injection E as <- <-; exists l'; auto|]. cbn. apply E4. auto.
      + exists ((k, OtherCol l) :: cs).
        split; [cbn [mapM]; unfold f at 1; cbn [fst snd rbind]; rewrite E1; reflexivity|].
        split; [simpl; congruence|]. split.
        * intros [|i] k' q E; cbn in E; [injection E as <- <-; reflexivity|]. cbn. auto.
        * intros [|i] k' q E; cbn in E; [discriminate|]. cbn. apply E4. auto. }
  destruct (KEY (sm_cols d) FC) as [cs [E1 [E2 [E3 E4]]]]. exists (mkSm (sm_time d) cs). fold f. rewrite E1.
  split; [reflexivity|]. split; [reflexivity|]. split; [exact E2|]. split; [exact E3|].
  intros i k l Hi. destruct (E4 i k l Hi) as [l' [L1 [L2 L3]]]. exists l'. split; [exact L1|]. split; [exact L2|]. split; [exact L3|].
  apply nth_error_In in Hi. pose proof (HR _ _ Hi) as LL. cbn in LL.
  split.
  { intros HS. apply (f_smooth_first span (sm_time d) l); auto. intros y Hy. eapply HF; eauto. }
  intros lo hi Fl Fh B y Hy.
  destruct (f_smooth_field_range span (sm_time d) l lo hi) as [l2 [M1 [_ M3]]]; auto.
  { intros z Hz. split; auto. eapply HF; eauto. }
  assert (l2 = l') as -> by congruence. auto.
Qed.
Print Assumptions float_smooth_range.

(** A constant 6.1 combined with the weights 0.1 and 0.9. *)
Definition speed_61 : R := IZR 6867989431740006 * bpow radix2 (-50).
Lemma combination_61 : f_add (f_mul (rnd (1 / 10)) speed_61) (f_mul (f_sub 1 (rnd (1 / 10))) speed_61) = speed_61 + bpow radix2 (-50).
Proof.
  unfold f_add, f_mul, f_sub.
  rewrite (rnd_to (1 / 10) 7205759403792794 (-56)); [|lia| |]; [|small_bpow; lra|small_bpow; apply Rabs_def1; lra].
  rewrite (rnd_to (1 - IZR 7205759403792794 * bpow radix2 (-56)) 8106479329266893 (-53)); [|lia| |]; [|small_bpow; lra|small_bpow; apply Rabs_def1; lra].
  unfold speed_61.
  rewrite (rnd_to (IZR 7205759403792794 * bpow radix2 (-56) * (IZR 6867989431740006 * bpow radix2 (-50))) 5494391545392005 (-53));
    [|lia| |]; [|small_bpow; lra|small_bpow; apply Rabs_def1; lra].
  rewrite (rnd_to (IZR 8106479329266893 * bpow radix2 (-53) * (IZR 6867989431740006 * bpow radix2 (-50))) 6181190488566006 (-50));
    [|lia| |]; [|small_bpow; lra|small_bpow; apply Rabs_def1; lra].
  rewrite (rnd_to (IZR 5494391545392005 * bpow radix2 (-53) + IZR 6181190488566006 * bpow radix2 (-50)) 6867989431740007 (-50));
    [|lia| |]; [|small_bpow; lra|small_bpow; apply Rabs_def1; lra].
  replace 6867989431740007%Z with (6867989431740006 + 1)%Z by reflexivity. rewrite plus_IZR. ring.
Qed.

(** C147, refuted part: a boat speed of 6.1 recorded 0, 1 and 20 seconds after the start, which is
    constant, does not stay constant and leaves its range. *)
Theorem float_smooth_constant_refuted : exists ys',
  speed_61 = rnd (61 / 10) /\ f_smooth_field 30 [0; 1; 20] [speed_61; speed_61; speed_61] = Ok ys' /\
  nth 1 ys' 0 = speed_61 + bpow radix2 (-50).
Proof.
  assert (speed_61 = rnd (61 / 10)) as E61.
  { symmetry. apply (rnd_to _ 6867989431740006 (-50)); [lia| |]; small_bpow; [lra|]. apply Rabs_def1; lra. }
  assert (forall z, (Z.abs z < 2 ^ 53)%Z -> rnd (IZR z) = IZR z) as RZ by (intros z Hz; apply rnd_exact, format_int; auto).
  assert (binary64 speed_61) as FS by (rewrite E61; apply rnd_format).
  eexists. split; [exact E61|].
  unfold f_smooth_field, smooth_field. cbn [map nth interval_bounds last nsub neqb nofZ FNum].
  unfold f_sub at 1 2 3 4 5 6 7. rewrite !Rminus_0_r. rewrite (RZ 0%Z), (RZ 1%Z), (RZ 20%Z) by reflexivity.
  rewrite (Reqb_true speed_61 speed_61) by reflexivity.
  cbn [approx_intervals approx_one snd app nltb nsub nmul nofZ FNum]. unfold f_mul at 1, f_sub at 1.
  rewrite Rminus_0_r, (RZ 20%Z), (RZ 2%Z) by reflexivity. replace (2 * 30) with 60 by lra. rewrite (RZ 60%Z) by reflexivity.
  rewrite (Rltb_true 20 60) by lra.
  change (f_add speed_61 speed_61) with (@nadd R FNum speed_61 speed_61).
  assert (@sm_half R FNum (@nadd R FNum 20 0) = 10) as H10.
  { rewrite f_half_eq. replace (20 + 0) with 20 by lra. rewrite (RZ 20%Z) by reflexivity. replace (/ 2 * 20) with 10 by lra. apply (RZ 10%Z). reflexivity. }
  rewrite H10, f_half_same by auto.
  assert (f_sub 0 0 = 0 /\ f_sub 1 0 = 1 /\ f_sub 20 0 = 20) as [S0 [S1 S20]].
  { unfold f_sub. rewrite !Rminus_0_r. split; [apply (RZ 0%Z)|split; [apply (RZ 1%Z)|apply (RZ 20%Z)]]; reflexivity. }
  cbn [app smooth_points advance fst snd nltb FNum]. rewrite S0, S1, S20.
  cbn [app smooth_points advance fst snd nltb FNum]. 
  rewrite (Rltb_false 10 0) by lra. cbn [advance fst snd nltb FNum].
  rewrite (Rltb_false 10 1) by lra. cbn [advance fst snd nltb FNum].
  rewrite (Rltb_true 10 20) by lra. cbn [advance fst snd nltb FNum].
  rewrite (Rltb_false 20 20) by lra.
  split; [reflexivity|]. cbn [nth]. unfold piece_value. cbn [nofZ nadd nsub nmul ndiv neqb FNum].
  assert (f_sub 1 0 = 1 /\ f_sub 10 0 = 10) as [-> ->].
  { unfold f_sub. rewrite !Rminus_0_r. split; [apply (RZ 1%Z)|apply (RZ 10%Z)]; reflexivity. }
  rewrite (RZ 0%Z), (RZ 1%Z) by reflexivity. rewrite (Reqb_false 10 0) by lra.
  apply combination_61.
Qed.
Print Assumptions float_smooth_constant_refuted.

(** ** Examples *)

(** A log of four rows with a jump from 5 to 6 knots. *)
Example float_smooth_ex : exists l', f_smooth_field 30 [0; 10; 20; 30] [5; 5; 6; 6] = Ok l' /\ length l' = 4%nat /\
  nth 0 l' 0 = 5 /\ forall y, In y l' -> 5 - slack 5 6 <= y <= 6 + slack 5 6.
Proof.
  destruct (float_smooth_range 30 (mkSm [0; 10; 20; 30] [("bsp"%string, FloatCol [5; 5; 6; 6])])) as [d' [_ [_ [_ [_ A]]]]].
  - cbn. repeat constructor; lra.
  - cbn. lia.
  - intros k c [E|[]]. injection E as <- <-. reflexivity.
  - intros k l y [E|[]] Hy. injection E as <- <-. cbn in Hy.
    repeat (destruct Hy as [<-|Hy]; [(apply (format_int 5); reflexivity) || (apply (format_int 6); reflexivity)|]). contradiction.
  - destruct (A 0%nat "bsp"%string [5; 5; 6; 6] eq_refl) as [l' [_ [L [S [F B]]]]]. exists l'. split; [exact S|]. split; [exact L|].
    split; [apply F; lra|]. intros y Hy. apply B; auto; try (apply (format_int 5); reflexivity); try (apply (format_int 6); reflexivity).
    intros z Hz. cbn in Hz. repeat (destruct Hz as [<-|Hz]; [lra|]). contradiction.
Qed.
