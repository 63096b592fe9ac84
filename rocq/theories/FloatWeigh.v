(** * The mean weigher with binary64 arithmetic: model and properties

    [CylindricMeanWeigher.weigh] on arrays: every operation rounds to the nearest binary64 number, ties to even;
    sums may be added in any order.  Overflow, nan and the sign of zero are left out (see FloatMod.v).
    The norm is any function of the rounded differences. *)

From Coq Require Import List Bool Arith ZArith Reals Lra Lia Permutation.
From Flocq Require Import Core Mult_error.
From Verif Require Import Py Num ListX FloatMod FloatUnit FloatSteps FloatAverage FloatSmooth.
Import ListNotations.
Open Scope R_scope.

Local Instance valid_exp_fw : Valid_exp fexp.
Proof. apply FLT_exp_valid. reflexivity. Qed.

(** [np.mean(l)] may be [m]. *)
Definition f_np_mean (l : list R) (m : R) : Prop := exists s, f_sums l s /\ m = rnd (s / INR (length l)).

(** [np.std(l)] may be [r]: the root of the mean of the squared distances from the mean. *)
Definition f_np_std (l : list R) (r : R) : Prop :=
  exists m v, f_np_mean l m /\ f_np_mean (map (fun x => f_mul (f_sub x m) (f_sub x m)) l) v /\ r = rnd (sqrt v).

(** [_calculate_weight] for the boat speed [bsp] and the boat speeds in the cylinder.  weigher.py 308-316, 325-330. *)
Definition f_deviation (inside : list R) (bsp d : R) : Prop :=
  exists m r, f_np_mean inside m /\ f_np_std inside r /\
    f_div (Rabs (f_sub m bsp)) (if Reqb r 0 then 1 else r) = Ok d.

Definition f_row_sub (p q : list R) : list R := map (fun xy => f_sub (fst xy) (snd xy)) (combine p q).

(** [_determine_points_in_cylinder].  weigher.py 318-322. *)
Definition f_inside (norm : list R -> R) (radius : R) (rows : list (list R)) (bsps : list R) (point : list R) : list R :=
  map snd (filter (fun pb => Rleb (norm (f_row_sub (fst pb) point)) radius) (combine rows bsps)).

(** [weigh] for an array with at least one row.  weigher.py 271-306. *)
Definition f_mean_weigh (norm : list R -> R) (radius : R) (rows : list (list R)) (bsps w : list R) : Prop :=
  exists raw, Forall2 (fun pb d => f_deviation (f_inside norm radius rows bsps (fst pb)) (snd pb) d) (combine rows bsps) raw /\
    f_mean_weights raw = Ok w.

(** ** Proofs *)

Lemma sums_equal : forall l s b, f_sums l s -> (forall x, In x l -> x = b) ->
  (forall k, (1 <= k <= length l)%nat -> binary64 (INR k * b)) -> (1 <= length l)%nat /\ s = INR (length l) * b.
Proof.
  induction 1 as [x|l l1 l2 s1 s2 P H1 IH1 H2 IH2]; intros E F.
  - split; [auto|]. rewrite (E x) by (left; auto). simpl. lra.
  - assert (length l = (length l1 + length l2)%nat) as L by (rewrite (Permutation_length P), app_length; auto).
    destruct IH1 as [L1 ->]; [intros x I; apply E; eapply Permutation_in; [apply Permutation_sym; eauto|]; apply in_or_app; auto|intros; apply F; lia|].
    destruct IH2 as [L2 ->]; [intros x I; apply E; eapply Permutation_in; [apply Permutation_sym; eauto|]; apply in_or_app; auto|intros; apply F; lia|].
    split; [lia|]. unfold f_add. rewrite L, plus_INR, Rmult_plus_distr_r. apply rnd_exact.
    rewrite <- Rmult_plus_distr_r, <- plus_INR, <- L. apply F. lia.
Qed.

Lemma divisor_ok : forall x r, f_div x (if Reqb r 0 then 1 else r) = Ok (rnd (x / (if Reqb r 0 then 1 else r))).
Proof.
  intros x r. unfold f_div. destruct (Reqb_spec r 0) as [_|N]; [rewrite Reqb_false by lra|rewrite Reqb_false by auto]; reflexivity.
Qed.
Lemma deviation_value : forall inside bsp d, f_deviation inside bsp d ->
  exists m r, f_np_mean inside m /\ f_np_std inside r /\ d = rnd (Rabs (f_sub m bsp) / (if Reqb r 0 then 1 else r)).
Proof.
  intros inside bsp d [m [r [HM [HR E]]]]. exists m, r. split; [exact HM|]. split; [exact HR|]. rewrite divisor_ok in E. congruence.
Qed.

Lemma deviation_steady : forall inside b d, f_deviation inside b d -> (forall x, In x inside -> x = b) ->
  (forall k, (1 <= k <= length inside)%nat -> binary64 (INR k * b)) -> d = 0.
Proof.
  assert (rnd 0 = 0) as R0 by apply rnd_exact, format_0.
  assert (forall l m b, f_np_mean l m -> (forall x, In x l -> x = b) ->
    (forall k, (1 <= k <= length l)%nat -> binary64 (INR k * b)) -> m = b) as ME.
  { intros l m b [s [HS ->]] E F. destruct (sums_equal l s b HS E F) as [L ->].
    assert (INR (length l) <> 0) as N by (apply not_0_INR; lia).
    replace (INR (length l) * b / INR (length l)) with b by (field; auto). apply rnd_exact.
    replace b with (INR 1 * b) by (simpl; lra). apply F. lia. }
  intros inside b d H E F. apply deviation_value in H. destruct H as [m [r [HM [HS ->]]]]. rewrite (ME inside m b HM E F). destruct HS as [m' [v [HM' [HV ->]]]].
  pose proof (ME inside m' b HM' E F) as ->.
  assert (v = 0) as ->.
  { apply (ME _ v 0 HV).
    - intros x I. apply in_map_iff in I. destruct I as [y [<- I]]. rewrite (E y I). unfold f_mul, f_sub.
      rewrite Rminus_eq_0, R0, Rmult_0_l. exact R0.
    - intros k _. rewrite Rmult_0_r. apply format_0. }
  rewrite sqrt_0, R0, Reqb_refl. unfold f_sub. rewrite Rminus_eq_0, R0, Rabs_R0. unfold Rdiv. rewrite Rmult_0_l. exact R0.
Qed.

Lemma mean_exists : forall l, l <> [] -> exists m, f_np_mean l m.
Proof. intros l N. destruct (sums_exist l N) as [s H]. exists (rnd (s / INR (length l))), s. auto. Qed.
Lemma deviation_exists : forall l b, l <> [] -> exists d, f_deviation l b d.
Proof.
  intros l b N. destruct (mean_exists l N) as [m M].
  destruct (mean_exists (map (fun x => f_mul (f_sub x m) (f_sub x m)) l)) as [v V]; [destruct l; [contradiction|discriminate]|].
  eexists. exists m, (rnd (sqrt v)). split; [exact M|]. split; [exists m, v; auto|apply divisor_ok].
Qed.
Lemma deviation_nonneg : forall l b d, f_deviation l b d -> binary64 d /\ 0 <= d.
Proof.
  intros l b d H. apply deviation_value in H. destruct H as [m [r [_ [[m' [v [_ [_ ->]]]] ->]]]]. split; [apply rnd_format|]. apply rnd_nonneg.
  assert (0 <= rnd (sqrt v)) as P by (apply rnd_nonneg, sqrt_pos).
  destruct (Reqb_spec (rnd (sqrt v)) 0) as [_|N]; apply Rmult_le_pos; try apply Rabs_pos; apply Rlt_le, Rinv_0_lt_compat; lra.
Qed.

(** ** Properties *)

(** Every point lies in its own cylinder. *)
Definition own_cylinder (norm : list R -> R) (radius : R) (rows : list (list R)) : Prop :=
  forall p, In p rows -> norm (f_row_sub p p) <= radius.

(** C160.  The weights are in [0,1]; some weight is 0 or all are 1. *)
Theorem float_weigh_range : forall norm radius rows bsps, length rows = length bsps -> own_cylinder norm radius rows ->
  (exists w, f_mean_weigh norm radius rows bsps w) /\
  forall w, f_mean_weigh norm radius rows bsps w ->
    length w = length rows /\ (forall c, In c w -> unit64 c) /\ (In 0 w \/ forall c, In c w -> c = 1).
Proof.
  intros norm radius rows bsps L OWN. split.
  - assert (exists raw, Forall2 (fun pb d => f_deviation (f_inside norm radius rows bsps (fst pb)) (snd pb) d) (combine rows bsps) raw) as [raw H].
    { assert (forall l, incl l (combine rows bsps) ->
        exists raw, Forall2 (fun pb d => f_deviation (f_inside norm radius rows bsps (fst pb)) (snd pb) d) l raw) as G; [|apply G, incl_refl].
      induction l as [|[p b] l IH]; intros I; [exists []; constructor|].
      destruct IH as [raw H]; [intros x X; apply I; right; auto|].
      destruct (deviation_exists (f_inside norm radius rows bsps p) b) as [d D].
      { assert (In b (f_inside norm radius rows bsps p)) as IB; [|intros Q; rewrite Q in IB; destruct IB].
        unfold f_inside. change b with (snd (p, b)). apply in_map. apply filter_In. split; [apply I; left; auto|].
        cbn [fst]. destruct (Rleb_spec (norm (f_row_sub p p)) radius) as [|N]; auto. exfalso.
        apply N, OWN. eapply in_combine_l. apply I. left. reflexivity. }
      exists (d :: raw). constructor; auto. }
    destruct (float_mean_weights raw) as [w [E _]].
    { intros x X. apply In_nth_error in X. destruct X as [i X]. revert i X. induction H; intros [|i] X; try discriminate.
      - injection X as <-. eapply deviation_nonneg. eauto.
      - eapply IHForall2; eauto. }
    exists w, raw. auto.
  - intros w [raw [H E]].
    assert (forall x, In x raw -> binary64 x /\ 0 <= x) as NN.
    { clear E. induction H; intros x' X; [destruct X|]. destruct X as [<-|X]; eauto using deviation_nonneg. }
    assert (length raw = length rows) as LR.
    { assert (length (combine rows bsps) = length raw) as Q by (clear - H; induction H; simpl; congruence).
      rewrite <- Q, combine_length. lia. }
    destruct (float_mean_weights raw NN) as [w' [E' [L' G]]]. assert (w' = w) as -> by congruence.
    split; [congruence|].
    assert (forall c, In c w -> exists i x, nth_error raw i = Some x /\ nth_error w i = Some c) as PR.
    { intros c C. apply In_nth_error in C. destruct C as [i C]. destruct (nth_error raw i) as [x|] eqn:X.
      - exists i, x. auto.
      - apply nth_error_None in X. assert (i < length w)%nat by (apply nth_error_Some; congruence). lia. }
    split.
    { intros c C. destruct (PR c C) as [i [x [X C']]]. apply (G i x c X C'). }
    destruct raw as [|g r].
    { right. intros c C. destruct (PR c C) as [[|i] [x [X _]]]; discriminate. }
    destruct (fold_max_spec r g) as [MX1 MX2]. set (mx := fold_left Rmax r g) in *.
    destruct (Req_EM_T mx 0) as [Z|NZ].
    + right. intros c C. destruct (PR c C) as [i [x [X C']]]. apply (G i x c X C').
      apply nth_error_In in X. pose proof (MX1 x X). destruct (NN x X). lra.
    + left. apply In_nth_error in MX2. destruct MX2 as [i X].
      destruct (nth_error w i) as [c|] eqn:C.
      * assert (c = 0) as <-; [|eapply nth_error_In; eauto]. apply (G i mx c X C); [exact MX1|].
        apply nth_error_In in X. destruct (NN mx X). lra.
      * apply nth_error_None in C. assert (i < length (g :: r))%nat by (apply nth_error_Some; congruence). lia.
Qed.
Print Assumptions float_weigh_range.

(** The boat speed [b] can be added [n] times without rounding: it has few binary digits, or [n] is at most 2. *)
Definition short_enough (b : R) (n : nat) : Prop :=
  (exists m j, (j <= 1074)%Z /\ b = IZR m * bpow radix2 (- j) /\ (Z.of_nat n * Z.abs m < 2 ^ 53)%Z) \/
  (binary64 b /\ (n <= 2)%nat).

Lemma short_multiples : forall b n, short_enough b n -> forall k, (1 <= k <= n)%nat -> binary64 (INR k * b).
Proof.
  intros b n [[m [j [J [-> B]]]]|[F N]] k K.
  - rewrite INR_IZR_INZ, <- Rmult_assoc, <- mult_IZR. apply multiple_format; [lia|]. rewrite Z.abs_mul, (Z.abs_eq (Z.of_nat k)) by lia.
    nia.
  - assert (k = 1 \/ k = 2)%nat as [-> | ->] by lia; [simpl; rewrite Rmult_1_l; auto|].
    replace (INR 2 * b) with (b * bpow radix2 1) by (simpl; lra). apply mult_bpow_pos_exact_FLT; [exact F|lia].
Qed.

(** C160.  A point whose cylinder has only one boat speed gets the weight 1, if this speed can be added up without
    rounding. *)
Theorem float_weigh_steady_partial : forall norm radius rows bsps w i p b,
  length rows = length bsps -> f_mean_weigh norm radius rows bsps w ->
  nth_error rows i = Some p -> nth_error bsps i = Some b ->
  (forall x, In x (f_inside norm radius rows bsps p) -> x = b) ->
  short_enough b (length (f_inside norm radius rows bsps p)) -> nth_error w i = Some 1.
Proof.
  intros norm radius rows bsps w i p b L [raw [H E]] HP HB EQ SE.
  assert (nth_error (combine rows bsps) i = Some (p, b)) as HC.
  { clear - HP HB. revert bsps i HP HB. induction rows as [|q rows IH]; intros [|c bsps] [|i] HP HB; try discriminate; simpl in *; [congruence|auto]. }
  assert (exists d, nth_error raw i = Some d /\ f_deviation (f_inside norm radius rows bsps p) b d) as [d [HD D]].
  { clear - H HC. revert i HC. induction H as [|pb d l raw D H IH]; intros [|i] HC; try discriminate; simpl in *.
    - injection HC as ->. exists d. auto.
    - apply IH; auto. }
  assert (d = 0) as -> by (eapply deviation_steady; eauto; apply short_multiples; auto).
  assert (forall x, In x raw -> binary64 x /\ 0 <= x) as NN.
  { clear - H. induction H; intros x' X; [destruct X|]. destruct X as [<-|X]; eauto using deviation_nonneg. }
  destruct (float_mean_weights raw NN) as [w' [E' [L' G]]]. assert (w' = w) as -> by congruence.
  destruct (nth_error w i) as [c|] eqn:C.
  - f_equal. apply (G i 0 c HD C). auto.
  - apply nth_error_None in C. assert (i < length raw)%nat by (apply nth_error_Some; congruence). lia.
Qed.
Print Assumptions float_weigh_steady_partial.

(** ** Counterexample *)

(** The number written 6.1. *)
Definition six_one : R := IZR 6867989431740006 * bpow radix2 (-50).
Lemma six_one_written : six_one = rnd (61 / 10).
Proof. symmetry. apply rnd_to; [lia|small_bpow; lra|apply Rabs_def1; small_bpow; lra]. Qed.

(** Half way between two numbers, the even one is taken. *)
Lemma rnd_tie : forall x m e, (-1074 <= e)%Z -> bpow radix2 (e + 52) <= x < bpow radix2 (e + 53) ->
  x * bpow radix2 (- e) = IZR m + / 2 -> Z.even m = true -> rnd x = IZR m * bpow radix2 e.
Proof.
  intros x m e E B N EV. unfold rnd, round, scaled_mantissa, F2R. cbn [Fnum Fexp].
  assert (cexp radix2 fexp x = e) as ->.
  { unfold cexp, fexp, FLT_exp. rewrite (mag_unique_pos radix2 x (e + 53)); [lia|]. replace (e + 53 - 1)%Z with (e + 52)%Z by lia. auto. }
  rewrite N. f_equal. f_equal. unfold Znearest. rewrite (Zfloor_imp m) by (rewrite plus_IZR; lra).
  rewrite Rcompare_Eq by lra. rewrite EV. reflexivity.
Qed.

Lemma sums_three : forall l s b, f_sums l s -> (forall x, In x l -> x = b) ->
  (length l = 1%nat -> s = b) /\ (length l = 2%nat -> s = f_add b b) /\ (length l = 3%nat -> s = f_add (f_add b b) b).
Proof.
  induction 1 as [x|l l1 l2 s1 s2 P H1 IH1 H2 IH2]; intros E.
  - split; [intros; apply E; left; auto|]. split; discriminate.
  - assert (length l = (length l1 + length l2)%nat) as L by (rewrite (Permutation_length P), app_length; auto).
    assert (forall l s, f_sums l s -> (1 <= length l)%nat) as POS.
    { induction 1 as [|l' k1 k2 t1 t2 P' _ J1 _ J2]; simpl; auto. rewrite (Permutation_length P'), app_length. lia. }
    pose proof (POS _ _ H1) as P1. pose proof (POS _ _ H2) as P2.
    destruct IH1 as [A1 [A2 _]]; [intros x I; apply E; eapply Permutation_in; [apply Permutation_sym; eauto|]; apply in_or_app; auto|].
    destruct IH2 as [B1 [B2 _]]; [intros x I; apply E; eapply Permutation_in; [apply Permutation_sym; eauto|]; apply in_or_app; auto|].
    split; [lia|]. split; intros L3.
    + rewrite A1, B1 by lia. reflexivity.
    + assert (length l1 = 1 /\ length l2 = 2 \/ length l1 = 2 /\ length l2 = 1)%nat as [[Q1 Q2]|[Q1 Q2]] by lia.
      * rewrite A1, B2 by auto. unfold f_add at 1. rewrite Rplus_comm. reflexivity.
      * rewrite A2, B1 by auto. reflexivity.
Qed.

(** C160 is false in general: a boat that makes 6.1 knots in three measurements at the same wind is given the weight 0
    for all of them, in whatever order numpy adds. *)
Theorem float_weigh_steady_refuted : forall norm radius p w, norm (f_row_sub p p) <= radius ->
  f_mean_weigh norm radius [p; p; p] [six_one; six_one; six_one] w -> w = [0; 0; 0].
Proof.
  intros norm radius p w NP [raw [H E]].
  assert (f_inside norm radius [p; p; p] [six_one; six_one; six_one] p = [six_one; six_one; six_one]) as EI.
  { unfold f_inside. cbn [combine filter fst]. destruct (Rleb_spec (norm (f_row_sub p p)) radius); [reflexivity|lra]. }
  assert (forall d, f_deviation [six_one; six_one; six_one] six_one d -> d = 1) as D.
  { intros d HD. apply deviation_value in HD. destruct HD as [m [r [HM [HS ->]]]].
    assert (forall z, f_np_mean [six_one; six_one; six_one] z -> z = IZR 6867989431740005 * bpow radix2 (-50)) as MZ.
    { intros z [s [HZ ->]].
      destruct (sums_three _ s six_one HZ) as [_ [_ S3]]; [intros x [<-|[<-|[<-|[]]]]; reflexivity|]. rewrite S3 by reflexivity.
      assert (f_add six_one six_one = IZR 6867989431740006 * bpow radix2 (-49)) as ->.
      { unfold f_add. apply rnd_to; [lia|unfold six_one; small_bpow; lra|unfold six_one; apply Rabs_def1; small_bpow; lra]. }
      assert (f_add (IZR 6867989431740006 * bpow radix2 (-49)) six_one = IZR 5150992073805004 * bpow radix2 (-48)) as ->.
      { unfold f_add. apply rnd_tie; [lia|unfold six_one; small_bpow; lra|unfold six_one; small_bpow; lra|reflexivity]. }
      replace (INR (length [six_one; six_one; six_one])) with 3 by (simpl; lra).
      apply rnd_to; [lia|small_bpow; lra|apply Rabs_def1; small_bpow; lra]. }
    rewrite (MZ m HM). destruct HS as [m' [v [HM' [[t [HT ->]] ->]]]]. rewrite (MZ m' HM') in HT |- *. clear HM HM' MZ m m'.
    assert (f_sub six_one (IZR 6867989431740005 * bpow radix2 (-50)) = bpow radix2 (-50)) as D1.
    { unfold f_sub. replace (six_one - IZR 6867989431740005 * bpow radix2 (-50)) with (bpow radix2 (-50)) by (unfold six_one; small_bpow; lra).
      apply rnd_exact, power_format. lia. }
    assert (f_mul (bpow radix2 (-50)) (bpow radix2 (-50)) = bpow radix2 (-100)) as D2.
    { unfold f_mul. rewrite <- bpow_plus. apply rnd_exact, power_format. lia. }
    cbn [map] in HT |- *. rewrite D1, D2 in HT |- *.
    destruct (sums_equal _ t (bpow radix2 (-100)) HT) as [_ ->].
    { intros x [<-|[<-|[<-|[]]]]; reflexivity. }
    { intros k K. rewrite INR_IZR_INZ. apply multiple_format; [lia|]. simpl in K. lia. }
    cbn [length]. replace (INR 3 * bpow radix2 (-100) / INR 3) with (bpow radix2 (-100)) by (field; apply not_0_INR; lia).
    rewrite (rnd_exact (bpow radix2 (-100))) by (apply power_format; lia).
    replace (bpow radix2 (-100)) with (bpow radix2 (-50) * bpow radix2 (-50)) by (rewrite <- bpow_plus; reflexivity).
    rewrite sqrt_square by apply bpow_ge_0. rewrite (rnd_exact (bpow radix2 (-50))) by (apply power_format; lia).
    pose proof (bpow_gt_0 radix2 (-50)) as BP. rewrite Reqb_false by lra.
    assert (f_sub (IZR 6867989431740005 * bpow radix2 (-50)) six_one = - bpow radix2 (-50)) as ->.
    { unfold f_sub. replace (IZR 6867989431740005 * bpow radix2 (-50) - six_one) with (- bpow radix2 (-50)) by (unfold six_one; small_bpow; lra).
      apply rnd_exact, generic_format_opp, power_format. lia. }
    rewrite Rabs_Ropp, Rabs_pos_eq by lra. replace (bpow radix2 (-50) / bpow radix2 (-50)) with 1 by (field; lra).
    apply rnd_exact, format_1. }
  cbn [combine] in H. inversion H as [|? d1 ? r1 H1 H2]; subst. inversion H2 as [|? d2 ? r2 H3 H4]; subst.
  inversion H4 as [|? d3 ? r3 H5 H6]; subst. inversion H6; subst. cbn [fst snd] in *. rewrite EI in *.
  rewrite (D d1 H1), (D d2 H3), (D d3 H5) in E. unfold f_mean_weights, f_normalize in E. cbn [fold_left] in E.
  assert (Rmax (Rmax 1 1) 1 = 1) as M by (unfold Rmax; repeat destruct Rle_dec; lra). rewrite M in E.
  rewrite Reqb_false in E by lra. cbn [mapM] in E. unfold f_div in E. rewrite Reqb_false in E by lra. cbn [rbind map] in E.
  replace (1 / 1) with 1 in E by lra. rewrite (rnd_exact 1 format_1) in E. unfold f_sub in E. rewrite Rminus_eq_0 in E.
  rewrite (rnd_exact 0 format_0) in E. congruence.
Qed.
Print Assumptions float_weigh_steady_refuted.

(** Such points exist, and 6.5 knots instead give the weight 1. *)
Definition largest (l : list R) : R := fold_left Rmax (map Rabs l) 0.
Example float_weigh_meets : own_cylinder largest (/ 20) [[10; 50]; [10; 50]; [10; 50]] /\ short_enough (13 / 2) 3.
Proof.
  split.
  - intros p [<-|[<-|[<-|[]]]]; unfold largest, f_row_sub, f_sub; cbn [combine map fst snd fold_left];
      rewrite !Rminus_eq_0, !(rnd_exact 0 format_0), !Rabs_R0; unfold Rmax; repeat destruct Rle_dec; lra.
  - left. exists 13%Z, 1%Z. split; [lia|]. split; [change (- (1))%Z with (-1)%Z; small_bpow; lra|simpl; lia].
Qed.
