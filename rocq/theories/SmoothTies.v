(** * Smoothed values when time stamps are repeated

    SmoothExact.v asks for strictly increasing time stamps.  Here they may be equal. *)

From Coq Require Import List Bool Arith ZArith Reals Lra Lia Sorting.Sorted.
From Verif Require Import Py Num ListX SmoothModel SmoothProps SmoothExact.
Import ListNotations.
Open Scope R_scope.

(** The value at time [x] of a run, which may have no length. *)
Definition blend0 (span s e before v after x : R) : R :=
  if Req_EM_T s e then v else blend span s e before v after x.
Definition blended0 (span : R) (ts ys : list R) (a b : nat) (x : R) : R :=
  blend0 span (start_of ts a) (end_of ts b) (nth (a - 1) ys 0) (nth a ys 0) (nth (S b) ys 0) x.

Lemma ev_one0 : forall w yb lb ub y ya rest x, 0 < w -> lb <= ub -> lb <= x <= ub ->
  ev (approx_one w yb ((lb, ub), y) ya ++ rest) x = blend0 w lb ub yb y ya x.
Proof.
  intros w yb lb ub y ya rest x W L X. unfold blend0. destruct (Req_EM_T lb ub) as [E|N]; [|apply ev_one; lra].
  subst ub. assert (x = lb) as -> by lra. unfold approx_one. rewrite !half_R. rnum.
  rewrite Rltb_true by lra. cbn [app]. rewrite ev_cons. unfold pub. cbn [fst snd].
  rewrite Rltb_false by lra. unfold piece_value. rnum. rewrite Reqb_true by lra. reflexivity.
Qed.

Lemma order_nth : forall ts i j, StronglySorted Rle ts -> (i <= j)%nat -> (j < length ts)%nat -> nth i ts 0 <= nth j ts 0.
Proof.
  intros ts i j S. revert i j. induction S as [|t l S IH F]; intros i j L H; [simpl in H; lia|].
  destruct j as [|j]; [assert (i = 0%nat) as -> by lia; lra|]. destruct i as [|i]; cbn [nth].
  - rewrite Forall_forall in F. apply F. apply nth_In. simpl in H. lia.
  - apply IH; simpl in H; lia.
Qed.

Lemma ev_exact0 : forall w lst xs ys x_lb yb a b x, 0 < w -> length ys = length xs -> (2 <= length xs)%nat ->
  StronglySorted Rle xs -> x_lb <= nth 0 xs 0 -> lst = last ys 0 -> run ys a b ->
  start_from x_lb xs a <= x <= end_of xs b -> (a <> 0%nat -> start_from x_lb xs a < x) ->
  ev (approx_intervals w yb lst (interval_bounds x_lb (nth 0 ys 0) xs ys)) x
  = blend0 w (start_from x_lb xs a) (end_of xs b) (before_from yb ys a) (nth a ys 0) (nth (S b) ys 0) x.
Proof.
  intros w lst. induction xs as [|x0 xs IH]; intros ys x_lb yb a b x Hw HL H2 HS HB Hlst HR HX HA; [simpl in H2; lia|].
  destruct xs as [|x1 xs]; [simpl in H2; lia|].
  destruct ys as [|y0 [|y1 yr]]; try discriminate. cbn [nth] in HB.
  inversion HS as [|? ? S1 S2]; subst. inversion S2 as [|? ? HS1 S3]; subst.
  pose proof HR as [R1 [R2 [R3 [R4 R5]]]].
  destruct yr as [|y2 yr].
  - destruct xs; [|discriminate]. cbn [length] in R2. assert (a = 0%nat /\ b = 0%nat) as [-> ->] by lia.
    cbn [interval_bounds approx_intervals last nth start_from before_from end_of length Nat.eqb] in *.
    apply ev_one0; auto. lra.
  - assert (length (y1 :: y2 :: yr) = length (x1 :: xs)) as HL' by (simpl in *; lia).
    assert (2 <= length (x1 :: xs))%nat as H2' by (simpl in *; lia).
    assert (forall c, end_of (x0 :: x1 :: xs) (S c) = end_of (x1 :: xs) c) as EO by reflexivity.
    assert (forall c, middle (x0 :: x1 :: xs) (S c) = middle (x1 :: xs) c) as MO by reflexivity.
    cbn [nth]. rewrite bounds_eq. destruct (Reqb_spec y0 y1) as [->|NE].
    + destruct b as [|b].
      { exfalso. assert (a = 0%nat) as -> by lia. destruct R5 as [R5|R5]; [cbn [length] in *; lia|]. apply R5. reflexivity. }
      rewrite EO in *.
      destruct a as [|[|a]].
      * assert (run (y1 :: y2 :: yr) 0 b) as HR'.
        { cbn [length] in *. split; [lia|]. split; [cbn [length]; lia|]. split; [|split; auto].
          - intros k K. exact (R3 (S k) ltac:(lia)).
          - destruct R5 as [R5|R5]; [left; cbn [length] in *; lia|right; exact R5]. }
        cbn [start_from before_from] in *.
        apply (IH (y1 :: y2 :: yr) x_lb yb 0%nat b x); auto. cbn [nth]. lra.
      * exfalso. destruct R4 as [R4|R4]; [lia|]. apply R4. reflexivity.
      * apply run_tail in HR. cbn [start_from before_from] in *. rewrite MO in *.
        apply (IH (y1 :: y2 :: yr) x_lb yb (S a) b x); auto; try (cbn [nth]; lra); intros _; apply HA; discriminate.
    + set (m := (x0 + x1) / 2) in *. assert (x0 <= m <= x1) as M by (unfold m; lra).
      destruct (bounds_head (x1 :: xs) (y1 :: y2 :: yr) m HL' H2') as [p [r [EB EP]]]. cbn [nth] in EB, EP.
      cbn [approx_intervals snd]. rewrite EB, EP, <- EB.
      destruct a as [|a].
      * assert (b = 0%nat) as ->.
        { destruct b as [|b]; auto. exfalso. apply NE. symmetry. apply (R3 1%nat). lia. }
        assert (end_of (x0 :: x1 :: xs) 0 = m) as EM.
        { unfold end_of. destruct xs; [simpl in HL'; lia|reflexivity]. }
        cbn [start_from before_from nth] in *. rewrite EM in *. apply ev_one0; auto; lra.
      * destruct b as [|b]; [lia|]. rewrite EO in *. apply run_tail in HR.
        assert (start_from x_lb (x0 :: x1 :: xs) (S a) = start_from m (x1 :: xs) a) as ES by (destruct a; reflexivity).
        assert (before_from yb (y0 :: y1 :: y2 :: yr) (S a) = before_from y0 (y1 :: y2 :: yr) a) as EF by (destruct a; reflexivity).
        rewrite ES, EF in *. specialize (HA ltac:(discriminate)).
        assert (m <= start_from m (x1 :: xs) a) as MS.
        { destruct a as [|a]; cbn [start_from]; [lra|]. unfold middle.
          destruct HR as [Q1 [Q2 _]].
          assert (forall i, (i < length (x1 :: xs))%nat -> x1 <= nth i (x1 :: xs) 0) as G.
          { intros [|i] I; [cbn [nth]; lra|]. apply (order_nth (x1 :: xs) 0 (S i)); auto. lia. }
          pose proof (G a ltac:(lia)). pose proof (G (S a) ltac:(lia)). lra. }
        rewrite ev_skip by lra.
        change (nth (S a) (y0 :: y1 :: y2 :: yr) 0) with (nth a (y1 :: y2 :: yr) 0).
        change (nth (S (S b)) (y0 :: y1 :: y2 :: yr) 0) with (nth (S b) (y1 :: y2 :: yr) 0).
        apply (IH (y1 :: y2 :: yr) m y0 a b x); auto. cbn [nth]. lra.
Qed.


(** For time stamps that do not decrease, rows recorded at the same time get the same value: the one given by the run
    in which the first row of that time lies.  (A run at the beginning of the log may have no length; there nothing
    changes.) *)
Theorem smooth_ties : forall span times ys, 0 < span -> in_order times -> length ys = length times ->
  (2 <= length times)%nat ->
  exists ys', smooth_field span times ys = Ok ys' /\ length ys' = length ys /\
    forall a b i k, run ys a b -> ((a <= i <= b)%nat \/ (S (S b) = length ys /\ i = S b)) ->
      (i <= k < length ys)%nat -> nth k times 0 = nth i times 0 -> (i = 0%nat \/ nth (i - 1) times 0 < nth i times 0) ->
      nth k ys' 0 = blended0 span times ys a b (nth k times 0).
Proof.
  intros span times ys Hw HO HL H2. pose proof HO as HS. unfold in_order in HS.
  destruct (smooth_field_pieces span times ys HO HL H2) as [t0 [y0 [tr [yr [p [ps [E1 [E2 [E3 [E4 E5]]]]]]]]]].
  eexists. split; [exact E5|]. split; [rewrite map_length; auto|]. intros a b i k HR HK IK TE TI.
  pose proof HR as [R1 [R2 [R3 [R4 R5]]]].
  assert (k < length times)%nat as KL by lia.
  set (g := fun x => match locate (p :: ps) (x - t0) with Some p => piece_value p (x - t0) | None => 0 end).
  rewrite (nth_indep _ 0 (g 0)) by (rewrite map_length; auto). rewrite (map_nth g).
  change (g (nth k times 0)) with (ev (p :: ps) (nth k times 0 - t0)). rewrite <- E3.
  set (xs := map (fun t => t - t0) times). assert (length xs = length times) as LX by apply map_length.
  assert (nth 0 xs 0 = 0) as X0 by (unfold xs; rewrite E1; simpl; lra).
  assert (nth 0 ys 0 = y0) as Y0 by (rewrite E2; auto).
  assert (nth 0 times 0 = t0) as T0 by (rewrite E1; auto).
  assert (StronglySorted Rle xs) as SX.
  { unfold xs. clear - HS. induction HS as [|c l S IH F]; simpl; constructor; auto.
    apply Forall_forall. intros z Z. apply in_map_iff in Z. destruct Z as [u [<- U]].
    rewrite Forall_forall in F. specialize (F u U). lra. }
  assert (forall i, (S i < length times)%nat -> middle xs i = middle times i - t0) as MS.
  { intros c I. unfold middle, xs. rewrite !nth_shift by lia. lra. }
  assert (start_from 0 xs a = start_of times a - t0) as ES.
  { destruct a as [|a]; cbn [start_from start_of]; [lra|]. apply MS. lia. }
  assert (end_of xs b = end_of times b - t0) as EE.
  { unfold end_of. rewrite LX. destruct (Nat.eqb _ _); [apply nth_shift; lia|apply MS; lia]. }
  assert (before_from y0 ys a = nth (a - 1) ys 0) as EF.
  { destruct a as [|a]; cbn [before_from]; [simpl; congruence|]. f_equal. lia. }
  assert (forall i j, (i <= j)%nat -> (j < length times)%nat -> nth i times 0 <= nth j times 0) as MO.
  { intros c d I J. apply order_nth; auto. }
  assert (start_of times a <= nth k times 0 /\ (a <> 0%nat -> start_of times a < nth k times 0)) as [A1 A2].
  { destruct a as [|a]; cbn [start_of]; [split; [apply MO; lia|congruence]|]. unfold middle.
    destruct TI as [TI|TI]; [lia|].
    pose proof (MO a (i - 1)%nat ltac:(lia) ltac:(lia)). pose proof (MO (S a) i ltac:(lia) ltac:(lia)). split; intros; lra. }
  assert (nth k times 0 <= end_of times b) as A3.
  { unfold end_of. destruct (Nat.eqb_spec (S (S b)) (length times)); [rewrite TE; apply MO; lia|]. unfold middle.
    pose proof (MO b (S b) ltac:(lia) ltac:(lia)). pose proof (MO i b ltac:(lia) ltac:(lia)). lra. }
  pose proof (ev_exact0 span (last ys y0) xs ys 0 y0 a b (nth k times 0 - t0)) as Q. rewrite Y0 in Q. rewrite Q; auto.
  - rewrite ES, EE, EF. unfold blended0, blend0.
    destruct (Req_EM_T (start_of times a - t0) (end_of times b - t0)) as [E6|E6], (Req_EM_T (start_of times a) (end_of times b)) as [E7|E7]; try lra.
    unfold blend. cbv zeta.
    replace (end_of times b - t0 - (start_of times a - t0)) with (end_of times b - start_of times a) by lra.
    replace (nth k times 0 - t0 - (start_of times a - t0)) with (nth k times 0 - start_of times a) by lra.
    replace (end_of times b - t0 - (nth k times 0 - t0)) with (end_of times b - nth k times 0) by lra. reflexivity.
  - lia.
  - lia.
  - lra.
  - rewrite E2. apply last_default.
  - rewrite ES, EE. lra.
  - intros N. rewrite ES. specialize (A2 N). lra.
Qed.
Print Assumptions smooth_ties.


(** Rows recorded at the same time get the same value, whatever was recorded and whatever the span. *)
Theorem smooth_same_time : forall span times ys, in_order times -> length ys = length times -> (2 <= length times)%nat ->
  exists ys', smooth_field span times ys = Ok ys' /\ length ys' = length ys /\
    forall i k, (i < length ys)%nat -> (k < length ys)%nat -> nth i times 0 = nth k times 0 -> nth i ys' 0 = nth k ys' 0.
Proof.
  intros span times ys HO HL H2.
  destruct (smooth_field_pieces span times ys HO HL H2) as [t0 [y0 [tr [yr [p [ps [E1 [E2 [E3 [E4 E5]]]]]]]]]].
  eexists. split; [exact E5|]. split; [rewrite map_length; auto|]. intros i k I K E.
  set (g := fun x => match locate (p :: ps) (x - t0) with Some p => piece_value p (x - t0) | None => 0 end).
  rewrite (nth_indep _ 0 (g 0)) by (rewrite map_length; lia). rewrite (map_nth g).
  rewrite (nth_indep (map g times) 0 (g 0)) by (rewrite map_length; lia). rewrite (map_nth g). rewrite E. reflexivity.
Qed.
Print Assumptions smooth_same_time.

(** Every row has a first row of its time, and that row lies in a run or is the last row: [smooth_ties] determines all
    smoothed values. *)
Theorem rows_first : forall times ys k, in_order times -> length ys = length times -> (2 <= length times)%nat ->
  (k < length ys)%nat ->
  exists a b i, run ys a b /\ ((a <= i <= b)%nat \/ (S (S b) = length ys /\ i = S b)) /\ (i <= k < length ys)%nat /\
    nth k times 0 = nth i times 0 /\ (i = 0%nat \/ nth (i - 1) times 0 < nth i times 0).
Proof.
  intros times ys k HO HL H2 K.
  assert (exists i, (i <= k)%nat /\ nth k times 0 = nth i times 0 /\ (i = 0%nat \/ nth (i - 1) times 0 < nth i times 0))
    as [i [I1 [I2 I3]]].
  { induction k as [|k IH]; [exists 0%nat; auto|].
    destruct (Req_EM_T (nth k times 0) (nth (S k) times 0)) as [E|E].
    - destruct IH as [i [I1 [I2 I3]]]; [lia|]. exists i. split; [lia|]. split; [lra|auto].
    - exists (S k). split; [lia|]. split; [reflexivity|]. right. cbn [Nat.sub]. rewrite Nat.sub_0_r.
      pose proof (order_nth times k (S k) HO ltac:(lia) ltac:(lia)). lra. }
  destruct (Nat.eq_dec (S i) (length ys)) as [L|L].
  - destruct (rows_in_runs ys (i - 1)) as [a [b [HR AB]]]; [lia|]. exists a, b, i.
    split; [exact HR|]. split; [|split; [lia|auto]]. destruct HR as [R1 [R2 _]]. right. lia.
  - destruct (rows_in_runs ys i) as [a [b [HR AB]]]; [lia|]. exists a, b, i.
    split; [exact HR|]. split; [left; exact AB|]. split; [lia|auto].
Qed.
Print Assumptions rows_first.

(** Two rows at the time of a jump: both get the mean of the values, the one before the jump and the one after it. *)
Example smooth_ties_meets : in_order [0; 10; 10; 20] /\ run [2; 2; 6; 6] 0 1 /\
  blended0 5 [0; 10; 10; 20] [2; 2; 6; 6] 0 1 10 = 4.
Proof.
  split; [repeat constructor; lra|].
  split.
  { split; [lia|]. split; [cbn; lia|]. split; [intros [|[|k]] K; try reflexivity; lia|].
    split; [left; reflexivity|right; cbn; lra]. }
  unfold blended0, blend0, blend, start_of, end_of, middle. cbn [nth length Nat.eqb Nat.sub].
  destruct (Req_EM_T 0 ((10 + 10) / 2)) as [E|_]; [lra|].
  replace (((10 + 10) / 2 - 0) / 2) with 5 by lra. rewrite Rmin_left by lra.
  replace ((10 - 0) / 5) with 2 by field. replace (((10 + 10) / 2 - 10) / 5) with 0 by field.
  rewrite (Rmax_neg (1 - 2)) by lra. rewrite Rmax_pos by lra. lra.
Qed.

(** A run without length at the beginning keeps its value. *)
Example smooth_ties_start : in_order [0; 0; 10] /\ run [2; 6; 6] 0 0 /\
  blended0 5 [0; 0; 10] [2; 6; 6] 0 0 0 = 2.
Proof.
  split; [repeat constructor; lra|].
  split.
  { split; [lia|]. split; [cbn; lia|]. split; [intros [|k] K; try reflexivity; lia|].
    split; [left; reflexivity|right; cbn; lra]. }
  unfold blended0, blend0, start_of, end_of, middle. cbn [nth length Nat.eqb Nat.sub].
  destruct (Req_EM_T 0 ((0 + 0) / 2)) as [E|N]; [reflexivity|lra].
Qed.
