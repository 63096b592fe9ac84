(** * C155: the exact values of smoothed rows

    SmoothProps.v describes rows far from jumps.  Here the value of every row is given, for time stamps that
    increase strictly. *)

From Coq Require Import String.
From Coq Require Import List Bool Arith ZArith Reals Lra Lia Sorted.
From Verif Require Import Py Num ListX DataModel SmoothModel SmoothProps.
Import ListNotations.
Open Scope R_scope.

(** ** Specification *)

(** Rows [a] to [b] hold the same value, and neither neighbour does.  The last row does not belong to a run: the
    run before it ends with the last but one row. *)
Definition run (ys : list R) (a b : nat) : Prop :=
  (a <= b)%nat /\ (S b < length ys)%nat /\
  (forall k, (a <= k <= b)%nat -> nth k ys 0 = nth a ys 0) /\
  (a = 0%nat \/ nth (a - 1) ys 0 <> nth a ys 0) /\
  (S (S b) = length ys \/ nth (S b) ys 0 <> nth a ys 0).

Definition middle (ts : list R) (k : nat) : R := (nth k ts 0 + nth (S k) ts 0) / 2.

(** A run lasts from the middle between its first row and the row before to the middle between its last row and
    the row after; at the ends of the log from the first, to the last time stamp. *)
Definition start_of (ts : list R) (a : nat) : R := match a with O => nth 0 ts 0 | S k => middle ts k end.
Definition end_of (ts : list R) (b : nat) : R :=
  if Nat.eqb (S (S b)) (length ts) then nth (S b) ts 0 else middle ts b.

(** The value at time [x] of a run with value [v] from [s] to [e] between the values [before] and [after]: the way
    to the mean with the neighbour takes the time span, or half of the run if this is shorter. *)
Definition blend (span s e before v after x : R) : R :=
  let r := Rmin span ((e - s) / 2) in
  v + (before - v) / 2 * Rmax 0 (1 - (x - s) / r) + (after - v) / 2 * Rmax 0 (1 - (e - x) / r).

Definition blended (span : R) (ts ys : list R) (a b : nat) (x : R) : R :=
  blend span (start_of ts a) (end_of ts b) (nth (a - 1) ys 0) (nth a ys 0) (nth (S b) ys 0) x.

Definition strictly (ts : list R) : Prop := StronglySorted Rlt ts.

(** ** One interval *)

Lemma Rmax_pos : forall z, 0 <= z -> Rmax 0 z = z.
Proof. intros. apply Rmax_right. auto. Qed.
Lemma Rmax_neg : forall z, z <= 0 -> Rmax 0 z = 0.
Proof. intros. apply Rmax_left. auto. Qed.

Lemma frac_le : forall p q, 0 < q -> p <= q -> p / q <= 1.
Proof. intros p q Q L. apply Rmult_le_reg_r with q; auto. unfold Rdiv. rewrite Rmult_assoc, Rinv_l by lra. lra. Qed.
Lemma frac_ge : forall p q, 0 < q -> q <= p -> 1 <= p / q.
Proof. intros p q Q L. apply Rmult_le_reg_r with q; auto. unfold Rdiv. rewrite Rmult_assoc, Rinv_l by lra. lra. Qed.

Lemma ev_one : forall w yb lb ub y ya rest x, 0 < w -> lb < ub -> lb <= x <= ub ->
  ev (approx_one w yb ((lb, ub), y) ya ++ rest) x = blend w lb ub yb y ya x.
Proof.
  intros w yb lb ub y ya rest x W L X. unfold approx_one, blend. rewrite !half_R. rnum. cbv zeta.
  destruct (Rltb_spec (ub - lb) (2 * w)) as [C|C]; cbn [app]; rewrite !ev_cons; unfold pub; cbn [fst snd].
  - rewrite Rmin_right by lra. destruct (Rltb_spec ((ub + lb) / 2) x) as [L1|L1].
    + rewrite (Rltb_false ub x) by lra.
      rewrite (Rmax_neg (1 - (x - lb) / _)) by (pose proof (frac_ge (x - lb) ((ub - lb) / 2)); lra).
      rewrite Rmax_pos by (pose proof (frac_le (ub - x) ((ub - lb) / 2)); lra).
      unfold piece_value. rnum. rewrite Reqb_false by lra. field. lra.
    + rewrite Rmax_pos by (pose proof (frac_le (x - lb) ((ub - lb) / 2)); lra).
      rewrite (Rmax_neg (1 - (ub - x) / _)) by (pose proof (frac_ge (ub - x) ((ub - lb) / 2)); lra).
      unfold piece_value. rnum. rewrite Reqb_false by lra. field. lra.
  - rewrite Rmin_left by lra. destruct (Rltb_spec (lb + w) x) as [L1|L1].
    + rewrite (Rmax_neg (1 - (x - lb) / _)) by (pose proof (frac_ge (x - lb) w); lra).
      destruct (Rltb_spec (ub - w) x) as [L2|L2].
      * rewrite (Rltb_false ub x) by lra. rewrite Rmax_pos by (pose proof (frac_le (ub - x) w); lra).
        unfold piece_value. rnum. rewrite Reqb_false by lra. field. lra.
      * rewrite (Rmax_neg (1 - (ub - x) / _)) by (pose proof (frac_ge (ub - x) w); lra).
        rewrite piece_const. ring.
    + rewrite Rmax_pos by (pose proof (frac_le (x - lb) w); lra).
      rewrite (Rmax_neg (1 - (ub - x) / _)) by (pose proof (frac_ge (ub - x) w); lra).
      unfold piece_value. rnum. rewrite Reqb_false by lra. field. lra.
Qed.

(** The value of the next interval. *)
Lemma bounds_head : forall (xs ys : list R) a, length ys = length xs -> (2 <= length xs)%nat ->
  exists p r, interval_bounds a (nth 0 ys 0) xs ys = p :: r /\ snd p = nth 0 ys 0.
Proof.
  induction xs as [|x xs IH]; intros ys a HL H2; [simpl in H2; lia|].
  destruct xs as [|xa xs]; [simpl in H2; lia|].
  destruct ys as [|y [|ya [|yb yr]]]; try discriminate.
  - destruct xs; [|discriminate]. cbn. eauto.
  - cbn [nth]. rewrite bounds_eq. destruct (Reqb_spec y ya) as [->|N].
    + apply (IH (ya :: yb :: yr)); simpl in *; lia.
    + eauto.
Qed.

(** ** All intervals *)

Definition start_from (x_lb : R) (ts : list R) (a : nat) : R := match a with O => x_lb | S k => middle ts k end.
Definition before_from (yb : R) (ys : list R) (a : nat) : R := match a with O => yb | S k => nth k ys 0 end.

Lemma strictly_nth : forall ts i j, strictly ts -> (i < j)%nat -> (j < length ts)%nat -> nth i ts 0 < nth j ts 0.
Proof.
  intros ts i j S. revert i j. induction S as [|t l S IH F]; intros i j L H; [simpl in H; lia|].
  destruct j as [|j]; [lia|]. destruct i as [|i]; cbn [nth].
  - rewrite Forall_forall in F. apply F. apply nth_In. simpl in H. lia.
  - apply IH; simpl in H; lia.
Qed.

Lemma run_tail : forall y ys a b, run (y :: ys) (S a) (S b) -> run ys a b.
Proof.
  intros y ys a b [R1 [R2 [R3 [R4 R5]]]]. cbn [length] in *. split; [lia|]. split; [lia|]. split; [|split].
  - intros k K. apply (R3 (S k)). lia.
  - destruct a as [|a]; [auto|]. right. destruct R4 as [R4|R4]; [lia|]. cbn in *. now rewrite Nat.sub_0_r in *.
  - destruct R5 as [R5|R5]; [left; lia|right; exact R5].
Qed.

Lemma ev_exact : forall w lst xs ys x_lb yb a b x, 0 < w -> length ys = length xs -> (2 <= length xs)%nat ->
  strictly xs -> x_lb <= nth 0 xs 0 -> lst = last ys 0 -> run ys a b ->
  start_from x_lb xs a <= x <= end_of xs b -> (a <> 0%nat -> start_from x_lb xs a < x) ->
  ev (approx_intervals w yb lst (interval_bounds x_lb (nth 0 ys 0) xs ys)) x
  = blend w (start_from x_lb xs a) (end_of xs b) (before_from yb ys a) (nth a ys 0) (nth (S b) ys 0) x.
Proof.
  intros w lst. induction xs as [|x0 xs IH]; intros ys x_lb yb a b x Hw HL H2 HS HB Hlst HR HX HA; [simpl in H2; lia|].
  destruct xs as [|x1 xs]; [simpl in H2; lia|].
  destruct ys as [|y0 [|y1 yr]]; try discriminate. cbn [nth] in HB.
  inversion HS as [|? ? S1 S2]; subst. inversion S2 as [|? ? HS1 S3]; subst.
  pose proof HR as [R1 [R2 [R3 [R4 R5]]]].
  destruct yr as [|y2 yr].
  - destruct xs; [|discriminate]. cbn [length] in R2. assert (a = 0%nat /\ b = 0%nat) as [-> ->] by lia.
    cbn [interval_bounds approx_intervals last nth start_from before_from end_of length Nat.eqb] in *.
    apply ev_one; auto. lra.
  - assert (length (y1 :: y2 :: yr) = length (x1 :: xs)) as HL' by (simpl in *; lia).
    assert (2 <= length (x1 :: xs))%nat as H2' by (simpl in *; lia).
    assert (forall c, end_of (x0 :: x1 :: xs) (S c) = end_of (x1 :: xs) c) as EO by reflexivity.
    assert (forall c, middle (x0 :: x1 :: xs) (S c) = middle (x1 :: xs) c) as MO by reflexivity.
    cbn [nth]. rewrite bounds_eq. destruct (Reqb_spec y0 y1) as [->|NE].
    + destruct b as [|b].
      { exfalso. assert (a = 0%nat) as -> by lia. destruct R5 as [R5|R5]; [cbn [length] in *; lia|]. apply R5. reflexivity. }
      rewrite EO in *.
      destruct a as [|[|a]].
      * assert (run (y1 :: y2 :: yr) 0 b) as HR'.
        { cbn [length] in *. split; [lia|]. split; [cbn [length]; lia|]. split; [|split; auto].
          - intros k K. exact (R3 (S k) ltac:(lia)).
          - destruct R5 as [R5|R5]; [left; cbn [length] in *; lia|right; exact R5]. }
        cbn [start_from before_from] in *.
        apply (IH (y1 :: y2 :: yr) x_lb yb 0%nat b x); auto. cbn [nth]. lra.
      * exfalso. destruct R4 as [R4|R4]; [lia|]. apply R4. reflexivity.
      * apply run_tail in HR. cbn [start_from before_from] in *. rewrite MO in *.
        apply (IH (y1 :: y2 :: yr) x_lb yb (S a) b x); auto; try (cbn [nth]; lra); intros _; apply HA; discriminate.
    + set (m := (x0 + x1) / 2) in *. assert (x0 < m < x1) as M by (unfold m; lra).
      destruct (bounds_head (x1 :: xs) (y1 :: y2 :: yr) m HL' H2') as [p [r [EB EP]]]. cbn [nth] in EB, EP.
      cbn [approx_intervals snd]. rewrite EB, EP, <- EB.
      destruct a as [|a].
      * assert (b = 0%nat) as ->.
        { destruct b as [|b]; auto. exfalso. apply NE. symmetry. apply (R3 1%nat). lia. }
        assert (end_of (x0 :: x1 :: xs) 0 = m) as EM.
        { unfold end_of. destruct xs; [simpl in HL'; lia|reflexivity]. }
        cbn [start_from before_from nth] in *. rewrite EM in *. apply ev_one; auto; lra.
      * destruct b as [|b]; [lia|]. rewrite EO in *. apply run_tail in HR.
        assert (start_from x_lb (x0 :: x1 :: xs) (S a) = start_from m (x1 :: xs) a) as ES by (destruct a; reflexivity).
        assert (before_from yb (y0 :: y1 :: y2 :: yr) (S a) = before_from y0 (y1 :: y2 :: yr) a) as EF by (destruct a; reflexivity).
        rewrite ES, EF in *. specialize (HA ltac:(discriminate)).
        assert (m <= start_from m (x1 :: xs) a) as MS.
        { destruct a as [|a]; cbn [start_from]; [lra|]. unfold middle.
          destruct HR as [Q1 [Q2 _]].
          assert (forall i, (i < length (x1 :: xs))%nat -> x1 <= nth i (x1 :: xs) 0) as G.
          { intros [|i] I; [cbn [nth]; lra|]. left. apply (strictly_nth (x1 :: xs) 0 (S i)); auto. lia. }
          pose proof (G a ltac:(lia)). pose proof (G (S a) ltac:(lia)). lra. }
        rewrite ev_skip by lra.
        change (nth (S a) (y0 :: y1 :: y2 :: yr) 0) with (nth a (y1 :: y2 :: yr) 0).
        change (nth (S (S b)) (y0 :: y1 :: y2 :: yr) 0) with (nth (S b) (y1 :: y2 :: yr) 0).
        apply (IH (y1 :: y2 :: yr) m y0 a b x); auto. cbn [nth]. lra.
Qed.

Lemma strictly_order : forall ts, strictly ts -> in_order ts.
Proof.
  intros ts S. induction S as [|t l S IH F]; constructor; auto. eapply Forall_impl; [|exact F]. intros; lra.
Qed.

Lemma nth_shift : forall (l : list R) t0 k, (k < length l)%nat -> nth k (map (fun t => t - t0) l) 0 = nth k l 0 - t0.
Proof.
  intros l t0 k K. rewrite (nth_indep _ 0 (0 - t0)) by (rewrite map_length; auto). apply (map_nth (fun t => t - t0)).
Qed.

(** C155: for strictly increasing time stamps every smoothed row has the value given by the run it lies in.  The last
    row has the value at the end of the last run. *)
Theorem smooth_exact : forall span times ys, 0 < span -> strictly times -> length ys = length times ->
  (2 <= length times)%nat ->
  exists ys', smooth_field span times ys = Ok ys' /\ length ys' = length ys /\
    forall a b k, run ys a b -> ((a <= k <= b)%nat \/ (S (S b) = length ys /\ k = S b)) ->
      nth k ys' 0 = blended span times ys a b (nth k times 0).
Proof.
  intros span times ys Hw HS HL H2. pose proof (strictly_order _ HS) as HO.
  destruct (smooth_field_pieces span times ys HO HL H2) as [t0 [y0 [tr [yr [p [ps [E1 [E2 [E3 [E4 E5]]]]]]]]]].
  eexists. split; [exact E5|]. split; [rewrite map_length; auto|]. intros a b k HR HK.
  pose proof HR as [R1 [R2 [R3 [R4 R5]]]].
  assert (k < length times)%nat as KL by lia.
  set (g := fun x => match locate (p :: ps) (x - t0) with Some p => piece_value p (x - t0) | None => 0 end).
  rewrite (nth_indep _ 0 (g 0)) by (rewrite map_length; auto). rewrite (map_nth g).
  change (g (nth k times 0)) with (ev (p :: ps) (nth k times 0 - t0)). rewrite <- E3.
  set (xs := map (fun t => t - t0) times). assert (length xs = length times) as LX by apply map_length.
  assert (nth 0 xs 0 = 0) as X0 by (unfold xs; rewrite E1; simpl; lra).
  assert (nth 0 ys 0 = y0) as Y0 by (rewrite E2; auto).
  assert (nth 0 times 0 = t0) as T0 by (rewrite E1; auto).
  assert (strictly xs) as SX.
  { unfold xs. clear - HS. induction HS as [|c l S IH F]; simpl; constructor; auto.
    apply Forall_forall. intros z Z. apply in_map_iff in Z. destruct Z as [u [<- U]].
    rewrite Forall_forall in F. specialize (F u U). lra. }
  assert (forall i, (S i < length times)%nat -> middle xs i = middle times i - t0) as MS.
  { intros i I. unfold middle, xs. rewrite !nth_shift by lia. lra. }
  assert (start_from 0 xs a = start_of times a - t0) as ES.
  { destruct a as [|a]; cbn [start_from start_of]; [lra|]. apply MS. lia. }
  assert (end_of xs b = end_of times b - t0) as EE.
  { unfold end_of. rewrite LX. destruct (Nat.eqb _ _); [apply nth_shift; lia|apply MS; lia]. }
  assert (before_from y0 ys a = nth (a - 1) ys 0) as EF.
  { destruct a as [|a]; cbn [before_from]; [simpl; congruence|]. f_equal. lia. }
  assert (forall i j, (i <= j)%nat -> (j < length times)%nat -> nth i times 0 <= nth j times 0) as MO.
  { intros i j I J. destruct (Nat.eq_dec i j) as [->|N]; [lra|]. left. apply strictly_nth; auto. lia. }
  assert (forall i j, (i < j)%nat -> (j < length times)%nat -> nth i times 0 < nth j times 0) as MT.
  { intros i j I J. apply strictly_nth; auto. }
  assert (start_of times a <= nth k times 0 /\ (a <> 0%nat -> start_of times a < nth k times 0)) as [A1 A2].
  { destruct a as [|a]; cbn [start_of]; [split; [apply MO; lia|congruence]|]. unfold middle.
    pose proof (MT a (S a) ltac:(lia) ltac:(lia)). pose proof (MO (S a) k ltac:(lia) KL). split; intros; lra. }
  assert (nth k times 0 <= end_of times b) as A3.
  { unfold end_of. destruct (Nat.eqb_spec (S (S b)) (length times)); [apply MO; lia|]. unfold middle.
    pose proof (MT b (S b) ltac:(lia) ltac:(lia)). pose proof (MO k b ltac:(lia) ltac:(lia)). lra. }
  pose proof (ev_exact span (last ys y0) xs ys 0 y0 a b (nth k times 0 - t0)) as Q. rewrite Y0 in Q. rewrite Q; auto.
  - rewrite ES, EE, EF. unfold blended, blend. cbv zeta.
    replace (end_of times b - t0 - (start_of times a - t0)) with (end_of times b - start_of times a) by lra.
    replace (nth k times 0 - t0 - (start_of times a - t0)) with (nth k times 0 - start_of times a) by lra.
    replace (end_of times b - t0 - (nth k times 0 - t0)) with (end_of times b - nth k times 0) by lra. reflexivity.
  - lia.
  - lia.
  - lra.
  - rewrite E2. apply last_default.
  - rewrite ES, EE. lra.
  - intros N. rewrite ES. specialize (A2 N). lra.
Qed.
Print Assumptions smooth_exact.

(** Every row but the last lies in a run, so the theorem determines all smoothed values. *)
Theorem rows_in_runs : forall ys k, (S k < length ys)%nat -> exists a b, run ys a b /\ (a <= k <= b)%nat.
Proof.
  intros ys k K.
  assert (exists a, (a <= k)%nat /\ (forall i, (a <= i <= k)%nat -> nth i ys 0 = nth k ys 0) /\
    (a = 0%nat \/ nth (a - 1) ys 0 <> nth k ys 0)) as [a [A1 [A2 A3]]].
  { clear K. induction k as [|k IH].
    - exists 0%nat. split; [lia|]. split; [|auto]. intros i I. f_equal. lia.
    - destruct (Req_EM_T (nth k ys 0) (nth (S k) ys 0)) as [E|E].
      + destruct IH as [a [A1 [A2 A3]]]. exists a. split; [lia|]. split.
        * intros i I. destruct (Nat.eq_dec i (S k)) as [->|N]; auto. rewrite A2 by lia. auto.
        * rewrite <- E. auto.
      + exists (S k). split; [lia|]. split; [intros i I; f_equal; lia|]. right. cbn. rewrite Nat.sub_0_r. auto. }
  assert (forall d, (S k + d <= length ys)%nat -> (1 <= d)%nat -> exists b, (k <= b)%nat /\ (b < k + d)%nat /\
    (forall i, (k <= i <= b)%nat -> nth i ys 0 = nth k ys 0) /\
    (S b = (k + d)%nat \/ nth (S b) ys 0 <> nth k ys 0)) as B.
  { induction d as [|d IH]; intros D1 D2; [lia|]. destruct (Nat.eq_dec d 0) as [->|ND].
    - exists k. split; [lia|]. split; [lia|]. split; [|left; lia]. intros i I. f_equal. lia.
    - destruct IH as [b [B1 [B2 [B3 B4]]]]; [lia|lia|].
      destruct (Req_EM_T (nth (S b) ys 0) (nth k ys 0)) as [E|E].
      + destruct B4 as [B4|B4]; [|congruence]. exists (S b). split; [lia|]. split; [lia|]. split; [|left; lia].
        intros i I. destruct (Nat.eq_dec i (S b)) as [->|N]; auto. apply B3. lia.
      + exists b. split; [lia|]. split; [lia|]. split; auto. }
  destruct (B (length ys - 1 - k)%nat ltac:(lia) ltac:(lia)) as [b [B1 [B2 [B3 B4]]]].
  assert (nth a ys 0 = nth k ys 0) as AK by (apply A2; lia).
  exists a, b. split; [|lia]. unfold run. rewrite AK. split; [lia|]. split; [lia|]. split; [|split]; auto.
  - intros i I. destruct (le_lt_dec i k); [apply A2|apply B3]; lia.
  - destruct B4 as [B4|B4]; [left; lia|auto].
Qed.
Print Assumptions rows_in_runs.

(** Half way between the rows of a jump both runs give the mean of the two values. *)
Theorem blend_meets : forall span s m e before v w after, 0 < span -> s < m -> m < e ->
  blend span s m before v w m = (v + w) / 2 /\ blend span m e v w after m = (v + w) / 2.
Proof.
  intros span s m e before v w after W L1 L2. unfold blend. cbv zeta.
  set (r := Rmin span ((m - s) / 2)). set (q := Rmin span ((e - m) / 2)).
  assert (0 < r <= (m - s) / 2) as RB by (unfold r; split; [apply Rmin_glb_lt; lra|apply Rmin_r]).
  assert (0 < q <= (e - m) / 2) as QB by (unfold q; split; [apply Rmin_glb_lt; lra|apply Rmin_r]).
  replace (m - m) with 0 by lra. replace (0 / r) with 0 by (unfold Rdiv; ring). replace (0 / q) with 0 by (unfold Rdiv; ring). rewrite !(Rmax_pos (1 - 0)) by lra.
  rewrite (Rmax_neg (1 - (m - s) / r)) by (pose proof (frac_ge (m - s) r); lra).
  rewrite (Rmax_neg (1 - (e - m) / q)) by (pose proof (frac_ge (e - m) q); lra). split; lra.
Qed.
Print Assumptions blend_meets.

(** A log with two jumps: rows 0 and 1, rows 2 and 3 (the last row belongs to the end of the second run). *)
Example smooth_exact_meets : strictly [0; 10; 20; 30; 40] /\ run [2; 2; 6; 6; 4] 0 1 /\ run [2; 2; 6; 6; 4] 2 3 /\
  blended 10 [0; 10; 20; 30; 40] [2; 2; 6; 6; 4] 0 1 10 = 8 / 3 /\
  blended 10 [0; 10; 20; 30; 40] [2; 2; 6; 6; 4] 2 3 40 = 5.
Proof.
  split; [repeat constructor; lra|].
  split.
  { split; [lia|]. split; [cbn; lia|]. split; [intros [|[|k]] K; try reflexivity; lia|].
    split; [left; reflexivity|right; cbn; lra]. }
  split.
  { split; [lia|]. split; [cbn; lia|]. split; [intros [|[|[|[|k]]]] K; try reflexivity; lia|].
    split; [right; cbn; lra|left; reflexivity]. }
  unfold blended, blend, start_of, end_of, middle. cbn [nth length Nat.eqb Nat.sub]. split.
  - replace (((10 + 20) / 2 - 0) / 2) with (15 / 2) by lra. rewrite Rmin_right by lra.
    replace ((10 - 0) / (15 / 2)) with (4 / 3) by field. replace (((10 + 20) / 2 - 10) / (15 / 2)) with (2 / 3) by field.
    rewrite (Rmax_neg (1 - 4 / 3)) by lra. rewrite Rmax_pos by lra. lra.
  - replace ((40 - (10 + 20) / 2) / 2) with (25 / 2) by lra. rewrite Rmin_left by lra.
    replace ((40 - (10 + 20) / 2) / 10) with (5 / 2) by field. replace ((40 - 40) / 10) with 0 by field.
    rewrite (Rmax_neg (1 - 5 / 2)) by lra. rewrite Rmax_pos by lra. lra.
Qed.
