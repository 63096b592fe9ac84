(** * The error figures of a polar diagram with binary64 arithmetic: model and properties

    [MinimalQualityAssurance.check]: every operation rounds to the nearest binary64 number, ties to even; the sums of
    [np.mean] may be added in any order.  The square of a number is its rounded product with itself.  Overflow, nan and
    the sign of zero are left out (see FloatMod.v).  The test data are given as pairs of the boat speed and the value of
    the diagram; a diagram that raises is treated in QAModel.v. *)

From Coq Require Import List Bool Arith ZArith Reals Lra Lia Permutation.
From Flocq Require Import Core Sterbenz Plus_error.
From Verif Require Import Py Num ListX FloatMod FloatUnit FloatSteps FloatAverage FloatSmooth FloatWeigh.
Import ListNotations.
Open Scope R_scope.

Local Instance valid_exp_fq : Valid_exp fexp.
Proof. apply FLT_exp_valid. reflexivity. Qed.
Local Instance monotone_exp_fq : Monotone_exp fexp.
Proof. apply FLT_exp_monotone. Qed.

(** ** Model *)

(** [abs(bsp - polar_diagram(ws, wa))].  pipeline/quality_assurance.py 65. *)
Definition f_error (p : R * R) : R := Rabs (f_sub (fst p) (snd p)).

(** [MinimalQualityAssurance.check] may deliver these figures; there are none without test data, since [max] raises
    then.  pipeline/quality_assurance.py 65-72. *)
Definition f_minimal (data : list (R * R)) (largest smallest average quadratic : R) : Prop :=
  match map f_error data with
  | [] => False
  | e :: l => largest = fold_left Rmax l e /\ smallest = fold_left Rmin l e /\
              f_np_mean (e :: l) average /\ f_np_mean (map (fun x => f_mul x x) (e :: l)) quadratic
  end.

(** ** Specification *)

(** [m] is an element of [l] and none is greater, respectively smaller. *)
Definition greatest_of (l : list R) (m : R) : Prop := In m l /\ forall x, In x l -> x <= m.
Definition least_of (l : list R) (m : R) : Prop := In m l /\ forall x, In x l -> m <= x.

(** The rounded distance of two numbers. *)
Definition distance64 (p : R * R) : R := rnd (Rabs (fst p - snd p)).

(** Between [lo] and [hi] up to [n] roundings and one underflow. *)
Definition about_between (n : nat) (lo hi r : R) : Prop :=
  lo * (1 - / 2 ^ 53) ^ n - bpow radix2 (-1075) <= r <= hi * (1 + / 2 ^ 53) ^ n + bpow radix2 (-1075).

(** ** Proofs *)

Lemma u_written : / 2 ^ 53 = unit_roundoff.
Proof. unfold unit_roundoff. f_equal. rewrite pow_IZR. f_equal. Qed.

Lemma error_distance : forall p, f_error p = distance64 p.
Proof. intros p. unfold f_error, distance64, f_sub, rnd. rewrite round_NE_abs by auto with typeclass_instances. reflexivity. Qed.

Lemma error_nonneg : forall p, binary64 (f_error p) /\ 0 <= f_error p.
Proof. intros p. split; [|apply Rabs_pos]. rewrite error_distance. apply rnd_format. Qed.

Lemma error_zero : forall p, binary64 (fst p) -> binary64 (snd p) -> (f_error p = 0 <-> fst p = snd p).
Proof.
  intros [x y] FX FY. cbn [fst snd] in *. unfold f_error. cbn [fst snd]. split.
  - intros E. destruct (Req_dec (x - y) 0) as [|N]; [lra|]. exfalso.
    assert (f_sub x y = 0) as Z by (destruct (Req_dec (f_sub x y) 0) as [|M]; [auto|apply Rabs_no_R0 in M; contradiction]).
    revert Z. unfold f_sub, rnd, Rminus. apply round_plus_neq_0; auto with typeclass_instances.
    apply generic_format_opp. exact FY.
  - intros ->. unfold f_sub. rewrite Rminus_eq_0. rewrite rnd_exact by (apply (format_int 0); reflexivity). apply Rabs_R0.
Qed.

Lemma fold_max : forall l e, greatest_of (e :: l) (fold_left Rmax l e).
Proof.
  induction l as [|y l IH]; intros e; cbn [fold_left].
  - split; [left; auto|]. intros x [<-|[]]. lra.
  - destruct (IH (Rmax e y)) as [I G]. split.
    + destruct I as [I|I]; [|right; right; auto]. rewrite <- I. unfold Rmax. destruct (Rle_dec e y); [right; left|left]; auto.
    + intros x [<-|[<-|X]].
      * apply Rle_trans with (Rmax e y); [apply Rmax_l|apply G; left; auto].
      * apply Rle_trans with (Rmax e y); [apply Rmax_r|apply G; left; auto].
      * apply G. right. auto.
Qed.
Lemma fold_min : forall l e, least_of (e :: l) (fold_left Rmin l e).
Proof.
  induction l as [|y l IH]; intros e; cbn [fold_left].
  - split; [left; auto|]. intros x [<-|[]]. lra.
  - destruct (IH (Rmin e y)) as [I G]. split.
    + destruct I as [I|I]; [|right; right; auto]. rewrite <- I. unfold Rmin. destruct (Rle_dec e y); [left|right; left]; auto.
    + intros x [<-|[<-|X]].
      * apply Rle_trans with (Rmin e y); [apply G; left; auto|apply Rmin_l].
      * apply Rle_trans with (Rmin e y); [apply G; left; auto|apply Rmin_r].
      * apply G. right. auto.
Qed.

Lemma total_between : forall l lo hi, (forall x, In x l -> lo <= x <= hi) -> INR (length l) * lo <= total l <= INR (length l) * hi.
Proof.
  induction l as [|x l IH]; intros lo hi H.
  - cbn. lra.
  - destruct (IH lo hi) as [A B]; [intros; apply H; right; auto|]. pose proof (H x (or_introl eq_refl)).
    change (total (x :: l)) with (x + total l). cbn [length]. rewrite S_INR. nra.
Qed.

Lemma mean_between : forall l lo hi m, f_np_mean l m -> Forall (fun x => binary64 x /\ 0 <= x) l -> 0 <= lo ->
  (forall x, In x l -> lo <= x <= hi) -> about_between (length l) lo hi m.
Proof.
  intros l lo hi m [s [HS ->]] F PL B. destruct (sums_error l s HS F) as [NE [_ [PS [S1 S2]]]].
  pose proof (total_between l lo hi B) as [T1 T2]. pose proof u_bounds as U.
  assert (0 < INR (length l)) as PN by (apply lt_0_INR; destruct l; [contradiction|cbn; lia]).
  assert (lo <= hi) as LH by (destruct l as [|x l']; [contradiction|]; specialize (B x (or_introl eq_refl)); lra).
  pose proof (pow_up_pos (length l - 1)) as PU. pose proof (pow_down_pos (length l - 1)) as PD.
  unfold about_between. rewrite u_written. fold u. fold tiny. fold u in U.
  replace (length l) with (S (length l - 1)) at 1 4 by (destruct l; [contradiction|cbn; lia]). cbn [pow].
  set (q := s / INR (length l)). assert (q * INR (length l) = s) as Q by (unfold q; field; lra).
  set (d := (1 - u) ^ (length l - 1)) in *. set (w := (1 + u) ^ (length l - 1)) in *. set (n := INR (length l)) in *.
  assert (lo * d <= q) as Q1.
  { apply Rmult_le_reg_r with n; [auto|]. rewrite Q. apply Rle_trans with (total l * d); [|auto].
    replace (lo * d * n) with (n * lo * d) by ring. apply Rmult_le_compat_r; lra. }
  assert (q <= hi * w) as Q2.
  { apply Rmult_le_reg_r with n; [auto|]. rewrite Q. apply Rle_trans with (total l * w); [auto|].
    replace (hi * w * n) with (n * hi * w) by ring. apply Rmult_le_compat_r; lra. }
  assert (0 <= lo * d) as LD by (apply Rmult_le_pos; lra).
  assert (0 <= q) as PQ by lra. destruct (rnd_error q PQ) as [E1 E2]. clear - E1 E2 Q1 Q2 LD U PQ.
  replace (lo * ((1 - u) * d)) with (lo * d * (1 - u)) by ring. replace (hi * ((1 + u) * w)) with (hi * w * (1 + u)) by ring.
  split; nra.
Qed.

(** C168: the largest and the smallest error are the extreme rounded distances of boat speeds and values; the averages lie between the extremes up to one rounding per
    test point; the largest error is zero exactly if the diagram reproduces all test points. *)
Theorem float_qa : forall data, data <> [] -> Forall (fun p => binary64 (fst p) /\ binary64 (snd p)) data ->
  (exists mx mn av sq, f_minimal data mx mn av sq) /\
  (forall mx mn av sq, f_minimal data mx mn av sq ->
    greatest_of (map distance64 data) mx /\ least_of (map distance64 data) mn /\ 0 <= mn /\
    about_between (length data) mn mx av /\
    about_between (length data) (rnd (mn * mn)) (rnd (mx * mx)) sq /\
    (mx = 0 <-> forall p, In p data -> fst p = snd p) /\
    (mx = 0 -> mn = 0 /\ av = 0 /\ sq = 0)).
Proof.
  intros data NE F. split.
  - unfold f_minimal. destruct data as [|p data]; [contradiction|]. cbn [map].
    destruct (mean_exists (f_error p :: map f_error data)) as [av AV]; [discriminate|].
    destruct (mean_exists (map (fun x => f_mul x x) (f_error p :: map f_error data))) as [sq SQ]; [discriminate|].
    do 4 eexists. split; [reflexivity|]. split; [reflexivity|]. split; [exact AV|exact SQ].
  - intros mx mn av sq H. unfold f_minimal in H. rewrite <- (map_ext _ _ error_distance).
    assert (length data = length (map f_error data)) as L by (rewrite map_length; auto). rewrite L.
    assert (Forall (fun x => binary64 x /\ 0 <= x) (map f_error data)) as FE.
    { apply Forall_forall. intros x X. apply in_map_iff in X. destruct X as [p [<- _]]. apply error_nonneg. }
    assert (forall p, In p data -> (f_error p = 0 <-> fst p = snd p)) as EZ.
    { intros p P. rewrite Forall_forall in F. destruct (F p P). apply error_zero; auto. }
    assert (forall p, In p data -> In (f_error p) (map f_error data)) as IM by (intros; apply in_map; auto).
    assert (forall x, In x (map f_error data) -> exists p, In p data /\ x = f_error p) as MI.
    { intros x X. apply in_map_iff in X. destruct X as [p [<- P]]. eauto. }
    destruct (map f_error data) as [|e l]; [contradiction|]. destruct H as [-> [-> [AV SQ]]].
    pose proof (fold_max l e) as [GI G]. pose proof (fold_min l e) as [LI LE].
    set (mx := fold_left Rmax l e) in *. set (mn := fold_left Rmin l e) in *.
    assert (forall x, In x (e :: l) -> 0 <= x) as P0 by (intros x X; rewrite Forall_forall in FE; apply FE; auto).
    assert (0 <= mn) as PM by (apply P0; auto).
    assert (Forall (fun x => binary64 x /\ 0 <= x) (map (fun x => f_mul x x) (e :: l))) as FS.
    { apply Forall_forall. intros x X. apply in_map_iff in X. destruct X as [y [<- Y]]. split; [apply rnd_format|].
      apply rnd_nonneg. pose proof (P0 y Y). nra. }
    assert (forall b, b = 0 -> mx = b -> mn = b /\ forall x, In x (e :: l) -> x = b) as ZE.
    { intros b -> Z. assert (forall x, In x (e :: l) -> x = 0) as A; [|split; auto].
      intros x X. pose proof (G x X). pose proof (P0 x X). lra. }
    assert (forall k m, f_np_mean k m -> (forall x, In x k -> x = 0) -> m = 0) as MZ.
    { intros k m [s [HS ->]] A. destruct (sums_equal k s 0 HS A) as [_ ->].
      - intros. rewrite Rmult_0_r. apply (format_int 0). reflexivity.
      - replace (INR (length k) * 0 / INR (length k)) with 0 by (unfold Rdiv; ring). apply rnd_exact, (format_int 0). reflexivity. }
    split; [split; auto|]. split; [split; auto|]. split; [auto|]. split; [|split; [|split]].
    + apply mean_between; auto.
    + replace (length (e :: l)) with (length (map (fun x => f_mul x x) (e :: l))) by apply map_length.
      apply mean_between; auto; [apply rnd_nonneg; nra|]. intros x X. apply in_map_iff in X. destruct X as [y [<- Y]].
      pose proof (G y Y). pose proof (LE y Y). unfold f_mul, rnd. split; apply round_le; auto with typeclass_instances; nra.
    + split.
      * intros Z p P. apply EZ; auto. destruct (ZE 0 eq_refl Z) as [_ A]. apply A, IM, P.
      * intros A. destruct (MI mx GI) as [p [P ->]]. apply EZ; auto.
    + intros Z. destruct (ZE 0 eq_refl Z) as [-> A]. split; auto. split.
      * apply (MZ (e :: l)); auto.
      * apply (MZ (map (fun x => f_mul x x) (e :: l))); auto. intros x X. apply in_map_iff in X. destruct X as [y [<- Y]].
        rewrite (A y Y). unfold f_mul. rewrite Rmult_0_l. apply rnd_exact, (format_int 0). reflexivity.
Qed.

(** C168: the distance of numbers within a factor of two is not rounded. *)
Theorem float_qa_exact : forall bsp v, binary64 bsp -> binary64 v -> v / 2 <= bsp <= 2 * v ->
  f_minimal [(bsp, v)] (Rabs (bsp - v)) (Rabs (bsp - v)) (Rabs (bsp - v)) (rnd (Rsqr (bsp - v))).
Proof.
  intros x v FX FV B. unfold f_minimal. cbn [map]. unfold f_error. cbn [fst snd].
  assert (f_sub x v = x - v) as ->.
  { unfold f_sub. apply rnd_exact. apply sterbenz; auto with typeclass_instances. }
  assert (binary64 (Rabs (x - v))) as FA.
  { apply generic_format_abs. apply sterbenz; auto with typeclass_instances. }
  split; [reflexivity|]. split; [reflexivity|]. split; eexists; (split; [constructor|]); cbn [length INR map]; unfold Rdiv; rewrite Rinv_1, Rmult_1_r.
  - symmetry. apply rnd_exact. auto.
  - unfold f_mul. rewrite <- Rabs_mult. fold (Rsqr (x - v)). rewrite (Rabs_pos_eq (Rsqr _)) by apply Rle_0_sqr.
    symmetry. apply rnd_exact. apply rnd_format.
Qed.

(** The number written 0.1. *)
Definition one_tenth : R := IZR 7205759403792794 * bpow radix2 (-56).
Lemma one_tenth_written : one_tenth = rnd (1 / 10).
Proof. symmetry. apply rnd_to; [lia|small_bpow; lra|apply Rabs_def1; small_bpow; lra]. Qed.

(** C168: it is not true that the average error is at most the largest one: for three test points that all miss the
    diagram by 0.1 it is greater; for three that miss it by 6.1 it is smaller than the smallest error. *)
Theorem float_qa_average_refuted :
  (forall mx mn av sq, f_minimal [(one_tenth, 0); (one_tenth, 0); (one_tenth, 0)] mx mn av sq -> mx < av) /\
  (forall mx mn av sq, f_minimal [(six_one, 0); (six_one, 0); (six_one, 0)] mx mn av sq -> av < mn).
Proof.
  assert (forall b, binary64 b -> 0 <= b -> f_error (b, 0) = b) as EE.
  { intros b FB PB. unfold f_error, f_sub. cbn [fst snd]. rewrite Rminus_0_r, rnd_exact by auto. apply Rabs_pos_eq. auto. }
  assert (forall b m, f_np_mean [b; b; b] m -> m = rnd (f_add (f_add b b) b / 3)) as M3.
  { intros b m [s [HS ->]]. destruct (sums_three _ s b HS) as [_ [_ S3]]; [intros x [<-|[<-|[<-|[]]]]; reflexivity|].
    rewrite S3 by reflexivity. f_equal. f_equal. simpl. lra. }
  split; intros mx mn av sq H; unfold f_minimal in H; cbn [map] in H.
  - rewrite EE in H; [|rewrite one_tenth_written; apply rnd_format|unfold one_tenth; small_bpow; lra].
    destruct H as [-> [_ [AV _]]]. apply M3 in AV.
    assert (f_add one_tenth one_tenth = IZR 7205759403792794 * bpow radix2 (-55)) as E2.
    { unfold f_add. apply rnd_to; [lia|unfold one_tenth; small_bpow; lra|unfold one_tenth; apply Rabs_def1; small_bpow; lra]. }
    assert (f_add (IZR 7205759403792794 * bpow radix2 (-55)) one_tenth = IZR 5404319552844596 * bpow radix2 (-54)) as E3.
    { unfold f_add.
      assert (forall x m e, (-1074 <= e)%Z -> bpow radix2 (e + 52) <= x < bpow radix2 (e + 53) ->
        x * bpow radix2 (- e) = IZR m + / 2 -> Z.even m = false -> rnd x = IZR (m + 1) * bpow radix2 e) as TIE.
      { intros x m e E B N EV. unfold rnd, round, scaled_mantissa, F2R. cbn [Fnum Fexp].
        assert (cexp radix2 fexp x = e) as ->.
        { unfold cexp, fexp, FLT_exp. rewrite (mag_unique_pos radix2 x (e + 53)); [lia|]. replace (e + 53 - 1)%Z with (e + 52)%Z by lia. auto. }
        rewrite N. f_equal. f_equal. unfold Znearest. rewrite (Zfloor_imp m) by (rewrite plus_IZR; lra).
        rewrite Rcompare_Eq by lra. rewrite EV. cbn [negb]. rewrite (Zceil_imp (m + 1)); [reflexivity|]. rewrite minus_IZR, plus_IZR. lra. }
      apply (TIE _ 5404319552844595%Z); [lia|unfold one_tenth; small_bpow; lra|unfold one_tenth; small_bpow; lra|reflexivity]. }
    rewrite E2, E3 in AV. cbn [fold_left]. rewrite !(Rmax_left one_tenth one_tenth) by apply Rle_refl. rewrite AV.
    rewrite (rnd_to _ 7205759403792795 (-56)); [unfold one_tenth; small_bpow; lra|lia|small_bpow; lra|apply Rabs_def1; small_bpow; lra].
  - rewrite EE in H; [|rewrite six_one_written; apply rnd_format|unfold six_one; small_bpow; lra].
    destruct H as [_ [-> [AV _]]]. apply M3 in AV.
    assert (f_add six_one six_one = IZR 6867989431740006 * bpow radix2 (-49)) as E2.
    { unfold f_add. apply rnd_to; [lia|unfold six_one; small_bpow; lra|unfold six_one; apply Rabs_def1; small_bpow; lra]. }
    assert (f_add (IZR 6867989431740006 * bpow radix2 (-49)) six_one = IZR 5150992073805004 * bpow radix2 (-48)) as E3.
    { unfold f_add. apply rnd_tie; [lia|unfold six_one; small_bpow; lra|unfold six_one; small_bpow; lra|reflexivity]. }
    rewrite E2, E3 in AV. cbn [fold_left]. rewrite !(Rmin_left six_one six_one) by apply Rle_refl. rewrite AV.
    rewrite (rnd_to _ 6867989431740005 (-50)); [unfold six_one; small_bpow; lra|lia|small_bpow; lra|apply Rabs_def1; small_bpow; lra].
Qed.

(** Errors 1 and 3. *)
Example float_qa_meets : Forall (fun p => binary64 (fst p) /\ binary64 (snd p)) [(5, 4); (2, 5)] /\ f_minimal [(5, 4); (2, 5)] 3 1 2 5.
Proof.
  assert (forall z, (Z.abs z < 2 ^ 53)%Z -> binary64 (IZR z)) as FI by (intros; apply format_int; auto).
  split; [repeat constructor; apply FI; cbn; lia|].
  unfold f_minimal. cbn [map]. unfold f_error, f_sub. cbn [fst snd].
  replace (5 - 4) with 1 by lra. replace (2 - 5) with (-3) by lra. rewrite !rnd_exact by (apply FI; cbn; lia).
  rewrite Rabs_R1, (Rabs_left (-3)) by lra. replace (- -3) with 3 by lra. cbn [fold_left].
  rewrite Rmax_right, Rmin_left by lra. split; [reflexivity|]. split; [reflexivity|]. split.
  - exists (f_add 1 3). split; [apply (sum_two _ [1] [3]); [apply Permutation_refl|constructor|constructor]|].
    unfold f_add. replace (1 + 3) with 4 by lra. rewrite (rnd_exact 4) by (apply FI; cbn; lia). simpl. replace (4 / (1 + 1)) with 2 by lra.
    symmetry. apply rnd_exact, FI. cbn. lia.
  - cbn [map]. unfold f_mul. replace (1 * 1) with 1 by lra. replace (3 * 3) with 9 by lra. rewrite !rnd_exact by (apply FI; cbn; lia).
    exists (f_add 1 9). split; [apply (sum_two _ [1] [9]); [apply Permutation_refl|constructor|constructor]|].
    unfold f_add. replace (1 + 9) with 10 by lra. rewrite (rnd_exact 10) by (apply FI; cbn; lia). simpl. replace (10 / (1 + 1)) with 5 by lra.
    symmetry. apply rnd_exact, FI. cbn. lia.
Qed.

Print Assumptions float_qa.
Print Assumptions float_qa_exact.
Print Assumptions float_qa_average_refuted.
