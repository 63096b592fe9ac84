(** * Properties of the pipeline extensions (C66, C92) *)

From Coq Require Import String.
From Coq Require Import List Bool Arith ZArith Reals Lra Lia Permutation.
From Verif Require Import Py Num ListX WPointsModel NhoodModel InterpModel TableModel TableSpec TableProofs TableProps
  CloudModel CurveModel ExtModel.
Import ListNotations.
Open Scope list_scope.
Open Scope R_scope.

(** ** The spec *)

(** The points the neighbourhood of [g] contains, with their weights. *)
Definition selected {A} (l : list A) (m : list bool) : list A := map fst (filter snd (combine l m)).

(** The boat speed at [g]: the interpolation of the points near [g], 0 if there is none. *)
Inductive estimate (nhood : list (R * R) -> result mask) (interp : list (pt3 R) -> list R -> R * R -> result R)
    (pts : list (pt3 R)) (weights : list R) (g : R * R) : R -> Prop :=
| Near : forall m v, nhood (map (fun p => (pws p - fst g, pwa p - snd g)) pts) = Ok (MList m) ->
    In true m -> length m = length pts -> length m = length weights ->
    interp (selected pts m) (selected weights m) g = Ok v -> estimate nhood interp pts weights g v
| Alone : forall m, nhood (map (fun p => (pws p - fst g, pwa p - snd g)) pts) = Ok (MList m) ->
    ~ In true m -> estimate nhood interp pts weights g 0.

Lemma mask_selected : forall A (l : list A) m, mask_list l m = selected l m.
Proof.
  unfold selected. induction l as [|x l IH]; intros [|b m]; cbn; auto. destruct b; cbn; rewrite IH; auto.
Qed.

Lemma interpolate_point_estimate : forall nhood interp pts weights g p,
  interpolate_point nhood interp pts weights g = Ok p <-> exists v, p = (fst g, snd g, v) /\ estimate nhood interp pts weights g v.
Proof.
  intros nhood interp pts weights g p. unfold interpolate_point. rnum.
  destruct (nhood _) as [[|m]|e] eqn:EN; cbn [rbind].
  - split; [discriminate|]. intros [v [_ H]]. inversion H as [m' v'' E1 E2 E3 E4 E5|m' E1 E2]; rewrite EN in E1; discriminate.
  - destruct (existsb (fun b => b) m) eqn:EX.
    + apply existsb_exists in EX. destruct EX as [b [HI ->]].
      unfold np_mask. destruct (Nat.eqb_spec (length pts) (length m)) as [L1|L1]; cbn [rbind].
      * destruct (Nat.eqb_spec (length weights) (length m)) as [L2|L2]; cbn [rbind].
        -- rewrite !mask_selected. destruct (interp _ _ g) as [v|e] eqn:EI; cbn [rbind]; split.
           ++ intros [= <-]. exists v. split; auto. eapply Near; eauto.
           ++ intros [v' [-> H]]. inversion H as [m' v'' E1 E2 E3 E4 E5|m' E1 E2]; subst; assert (m' = m) by (rewrite EN in E1; injection E1; auto); subst; [first [rewrite EI in E5; first [discriminate E5 | injection E5 as <-; reflexivity] | congruence]|contradiction].
           ++ discriminate.
           ++ intros [v' [-> H]]. inversion H as [m' v'' E1 E2 E3 E4 E5|m' E1 E2]; subst; assert (m' = m) by (rewrite EN in E1; injection E1; auto); subst; [first [rewrite EI in E5; first [discriminate E5 | injection E5 as <-; reflexivity] | congruence]|contradiction].
        -- split; [discriminate|]. intros [v' [-> H]]. inversion H as [m' v'' E1 E2 E3 E4 E5|m' E1 E2]; subst; assert (m' = m) by (rewrite EN in E1; injection E1; auto); subst; [first [rewrite EI in E5; first [discriminate E5 | injection E5 as <-; reflexivity] | congruence]|contradiction].
      * split; [discriminate|]. intros [v' [-> H]]. inversion H as [m' v'' E1 E2 E3 E4 E5|m' E1 E2]; subst; assert (m' = m) by (rewrite EN in E1; injection E1; auto); subst; [first [rewrite EI in E5; first [discriminate E5 | injection E5 as <-; reflexivity] | congruence]|contradiction].
    + assert (~ In true m) as NT. { intros HI. rewrite (proj2 (existsb_exists _ _)) in EX; [discriminate|]. exists true. auto. }
      split.
      * intros [= <-]. exists 0. split; auto. eapply Alone; eauto.
      * intros [v' [-> H]]. inversion H as [m' v'' E1 E2 E3 E4 E5|m' E1 E2]; subst; auto. assert (m' = m) by (rewrite EN in E1; injection E1; auto). subst. contradiction.
  - split; [discriminate|]. intros [v [_ H]]. inversion H as [m' v'' E1 E2 E3 E4 E5|m' E1 E2]; rewrite EN in E1; discriminate.
Qed.

(** ** Table entries *)

Lemma reshape_shaped : forall rows cols (l : list R), length l = (rows * cols)%nat -> shaped rows cols (reshape rows cols l).
Proof.
  unfold shaped. induction rows as [|rows IH]; intros cols l L; cbn [reshape]; [split; auto; intros r []|].
  destruct (IH cols (skipn cols l)) as [E1 E2]; [rewrite skipn_length; cbn in L; lia|]. split; [cbn; congruence|].
  intros r [<-|Hr]; auto. apply firstn_length_le. cbn in L. lia.
Qed.

Lemma grid_length : forall (ws wa : list R), length (grid ws wa) = (length wa * length ws)%nat.
Proof. unfold grid. induction wa; cbn; auto. rewrite app_length, map_length. congruence. Qed.

(** The boat speeds of the interpolated grid, row by row. *)
Lemma grid_rows : forall f (ws wa : list R) ps, mapM f (grid ws wa) = Ok ps ->
  forall i j s a, nth_error wa i = Some a -> nth_error ws j = Some s ->
  exists p r, f (s, a) = Ok p /\ nth_error (reshape (length wa) (length ws) (map (@pbs R) ps)) i = Some r /\ nth_error r j = Some (pbs p).
Proof.
  intros f ws wa. induction wa as [|a0 wa IH]; intros ps H i j s a Hi Hj; [destruct i; discriminate|].
  change (grid ws (a0 :: wa)) with (map (fun s => (s, a0)) ws ++ grid ws wa) in H.
  assert (exists p1 p2, mapM f (map (fun s => (s, a0)) ws) = Ok p1 /\ mapM f (grid ws wa) = Ok p2 /\ ps = p1 ++ p2) as [p1 [p2 [E1 [E2 ->]]]].
  { clear -H. revert ps H. induction (map (fun s => (s, a0)) ws) as [|x l IH]; intros ps H; cbn in *; [eauto|].
    destruct (f x) as [y|]; cbn [rbind] in *; [|discriminate]. destruct (mapM f (l ++ grid ws wa)) as [q|] eqn:E; cbn [rbind] in H; [|discriminate].
    injection H as <-. destruct (IH q eq_refl) as [p1 [p2 [-> [-> ->]]]]. cbn. eauto. }
  assert (length (map (@pbs R) p1) = length ws) as L. { apply mapM_length in E1. rewrite map_length in *. auto. }
  cbn [length reshape]. rewrite map_app. rewrite firstn_app, skipn_app, <- L, firstn_all, skipn_all, Nat.sub_diag. cbn [firstn skipn app].
  rewrite app_nil_r. destruct i as [|i]; cbn [nth_error] in *.
  - injection Hi as ->. 
    assert (nth_error (map (fun s => (s, a)) ws) j = Some (s, a)) as N by (rewrite nth_error_map, Hj; auto).
    destruct (mapM_nth _ _ _ _ _ E1 _ _ N) as [p [P2 P1]]. exists p, (map (@pbs R) p1). split; auto. split; auto.
    rewrite nth_error_map, P2. auto.
  - rewrite L. eapply IH; eauto.
Qed.

(** C66: on every grid of distinct winds, however it was determined, the table holds the
    estimates. *)
Theorem table_extension_entries : forall r nhood interp pts weights ws wa t,
  table_size r pts = Ok (ws, wa) -> NoDup ws -> distinct_mod_360 wa ->
  table_process r nhood interp pts weights = Ok t ->
  Permutation ws (t_ws t) /\
  (exists wa', Forall2 reduced wa wa' /\ Permutation wa' (t_wa t)) /\
  forall s a k, In s ws -> In a wa ->
    exists v, estimate nhood interp pts weights (s, a) v /\ getitem t [s] [a + 360 * IZR k] = Ok v.
Proof.
  intros r nhood interp pts weights ws wa t TS ND DA H. unfold table_process in H. rewrite TS in H. cbn [rbind] in H.
  destruct (interpolate_points nhood interp pts weights (grid ws wa)) as [ps|] eqn:EP; cbn [rbind] in H; [|discriminate].
  split; [|split].
  1,2: apply table_given_winds in H; tauto.
  assert (length (map (@pbs R) ps) = (length wa * length ws)%nat) as L.
  { unfold interpolate_points in EP. apply mapM_length in EP. rewrite map_length, EP, grid_length. auto. }
  pose proof (reshape_shaped _ _ _ L) as SH.
  assert (ws <> [] /\ wa <> [] /\ forall s, In s ws -> 0 <= s) as [NW [NA NN]].
  { unfold table_new in H. destruct ws as [|s0 ws']; [discriminate|].
    destruct (build_ws (RIter (s0 :: ws'))) as [ws2|] eqn:EB; cbn [rbind] in H; [|discriminate].
    destruct wa as [|a0 wa']; [discriminate|]. clear H.
    split; [discriminate|]. split; [discriminate|]. intros s Hs. unfold build_ws in EB.
    destruct (existsb (fun x => nltb x (nofZ 0)) (s0 :: ws')) eqn:EX; [discriminate|].
    apply Rnot_lt_le. intros LT. rewrite (proj2 (existsb_exists _ _)) in EX; [discriminate|]. exists s. split; auto. apply Rltb_lt. auto. }
  intros s a k Hs Ha. apply In_nth_error in Hs. destruct Hs as [j Hj]. apply In_nth_error in Ha. destruct Ha as [i Hi].
  destruct (grid_rows _ _ _ _ EP i j s a Hi Hj) as [p [row [P1 [P2 P3]]]].
  apply interpolate_point_estimate in P1. destruct P1 as [v [-> P1]]. cbn [fst snd pbs] in *. exists v. split; auto.
  destruct (table_returns_entries nhood interp ws wa _ NW NA NN ND DA SH) as [t' [E [G _]]].
  assert (t' = t) as -> by congruence. apply (G i j). split; auto. split; auto. exists row. auto.
Qed.
Print Assumptions table_extension_entries.

(** ** Resolutions *)

Lemma py_round_near : forall x : R, Rabs (IZR (py_round x) - x) <= 1 / 2.
Proof.
  intros x. unfold py_round. rnum. pose proof (base_Int_part x) as [B1 B2].
  set (f := Int_part x) in *. destruct (Rltb_spec (2 * (x - IZR f)) 1).
  - apply Rabs_le. lra.
  - destruct (Rltb_spec 1 (2 * (x - IZR f))).
    + rewrite plus_IZR. apply Rabs_le. lra.
    + destruct (Z.even f); [|rewrite plus_IZR]; apply Rabs_le; lra.
Qed.

Lemma py_round_IZR : forall z, py_round (IZR z) = z.
Proof.
  intros z. pose proof (py_round_near (IZR z)) as H. rewrite <- minus_IZR in H.
  set (d := (py_round (IZR z) - z)%Z) in *.
  assert (-1 < d < 1)%Z; [|lia].
  split; apply lt_IZR; unfold Rabs in H; destruct (Rcase_abs (IZR d)); lra.
Qed.

Lemma py_round_mono : forall x y : R, x <= y -> (py_round x <= py_round y)%Z.
Proof.
  intros x y L. unfold py_round. rnum. pose proof (base_Int_part x) as [B1 B2]. pose proof (base_Int_part y) as [C1 C2].
  set (f := Int_part x) in *. set (g := Int_part y) in *.
  assert (f <= g)%Z as FG. { apply Zlt_succ_le. unfold Z.succ. apply lt_IZR. rewrite plus_IZR. lra. }
  destruct (Z.eq_dec f g) as [E|E].
  - rewrite <- E in *. destruct (Rltb_spec (2 * (x - IZR f)) 1); destruct (Rltb_spec (2 * (y - IZR f)) 1);
    destruct (Rltb_spec 1 (2 * (x - IZR f))); destruct (Rltb_spec 1 (2 * (y - IZR f))); destruct (Z.even f); try lia; lra.
  - destruct (Rltb_spec (2 * (x - IZR f)) 1); destruct (Rltb_spec 1 (2 * (x - IZR f))); destruct (Z.even f);
    destruct (Rltb_spec (2 * (y - IZR g)) 1); destruct (Rltb_spec 1 (2 * (y - IZR g))); destruct (Z.even g); lia.
Qed.

Lemma py_range_In : forall a b n x, (0 < n)%Z -> (In x (py_range a b n) <-> exists k, (0 <= k)%Z /\ x = (a + k * n)%Z /\ (x < b)%Z).
Proof.
  intros a b n x Hn. unfold py_range. rewrite in_map_iff. split.
  - intros [k [<- Hk]]. apply in_seq in Hk. exists (Z.of_nat k). split; [lia|]. split; auto.
    assert (Z.of_nat k < (b - a + n - 1) / n)%Z as L by lia.
    assert ((Z.of_nat k + 1) * n <= b - a + n - 1)%Z; [|lia].
    transitivity ((b - a + n - 1) / n * n)%Z; [nia|]. pose proof (Z.mul_div_le (b - a + n - 1) n ltac:(lia)). lia.
  - intros [k [Hk [-> L]]]. exists (Z.to_nat k). rewrite Z2Nat.id by lia. split; auto. apply in_seq. split; [lia|].
    cbn. assert (k < (b - a + n - 1) / n)%Z; [|lia]. apply Z.lt_le_trans with (k + 1)%Z; [lia|]. apply Z.div_le_lower_bound; lia.
Qed.

Lemma py_range_NoDup : forall a b n, (0 < n)%Z -> NoDup (py_range a b n).
Proof.
  intros a b n Hn. unfold py_range. apply FinFun.Injective_map_NoDup; [|apply seq_NoDup].
  intros x y E. nia.
Qed.

(** The least and the largest element. *)
Definition least (l : list R) (m : R) : Prop := In m l /\ forall x, In x l -> m <= x.
Definition largest (l : list R) (m : R) : Prop := In m l /\ forall x, In x l -> x <= m.

Lemma arr_min_least : forall l m, arr_min l = Ok m -> least l m.
Proof.
  intros [|x r] m H; [discriminate|]. injection H as <-. unfold least.
  revert x. induction r as [|y r IH]; intros x; cbn [fold_left]; rnum.
  - split; [left; auto|]. intros z [->|[]]. lra.
  - destruct (Rltb_spec y x) as [L|L]; destruct (IH (if Rltb y x then y else x)) as [I1 I2]; clear IH;
      revert I1 I2; destruct (Rltb_spec y x); try lra; intros I1 I2; (split; [cbn in *; tauto|]); intros z [<-|[<-|Hz]];
      try (apply I2; cbn; auto; fail).
    + apply Rle_trans with y; [apply I2; left; auto|lra].
    + apply Rle_trans with x; [apply I2; left; auto|lra].
Qed.

Lemma arr_max_largest : forall l m, arr_max l = Ok m -> largest l m.
Proof.
  intros [|x r] m H; [discriminate|]. injection H as <-. unfold largest.
  revert x. induction r as [|y r IH]; intros x; cbn [fold_left]; rnum.
  - split; [left; auto|]. intros z [->|[]]. lra.
  - destruct (Rltb_spec x y) as [L|L]; destruct (IH (if Rltb x y then y else x)) as [I1 I2]; clear IH;
      revert I1 I2; destruct (Rltb_spec x y); try lra; intros I1 I2; (split; [cbn in *; tauto|]); intros z [<-|[<-|Hz]];
      try (apply I2; cbn; auto; fail).
    + apply Rle_trans with y; [lra|apply I2; left; auto].
    + apply Rle_trans with x; [lra|apply I2; left; auto].
Qed.

Lemma arr_min_ok : forall l : list R, l <> [] -> exists m, arr_min l = Ok m.
Proof. intros [|x l] H; [congruence|]. cbn. eauto. Qed.
Lemma arr_max_ok : forall l : list R, l <> [] -> exists m, arr_max l = Ok m.
Proof. intros [|x l] H; [congruence|]. cbn. eauto. Qed.

Lemma NoDup_IZR : forall l, NoDup l -> NoDup (map IZR l).
Proof. intros l H. apply FinFun.Injective_map_NoDup; auto. intros x y E. apply eq_IZR. auto. Qed.

Lemma distinct_small : forall l, NoDup l -> (forall x, In x l -> 0 <= x < 360)%Z -> distinct_mod_360 (map IZR l).
Proof.
  intros l ND B i j a b k Hi Hj E. rewrite nth_error_map in Hi, Hj.
  destruct (nth_error l i) as [x|] eqn:Ei; [|discriminate]. destruct (nth_error l j) as [y|] eqn:Ej; [|discriminate].
  injection Hi as <-. injection Hj as <-.
  rewrite <- mult_IZR, <- plus_IZR in E. apply eq_IZR in E.
  pose proof (B x (nth_error_In _ _ Ei)). pose proof (B y (nth_error_In _ _ Ej)).
  assert (x = y) as -> by lia. apply (proj1 (NoDup_nth_error l) ND); [|congruence].
  apply nth_error_Some. congruence.
Qed.

(** C66: the resolution "min_max", the default: the wind speeds are every second integer from the
    rounded least to the rounded largest wind speed, the wind angles 5, 10, ..., 355; the table
    has exactly these winds, each once, and the estimates as entries. *)
Theorem table_min_max : forall nhood interp pts weights,
  pts <> [] -> (forall p, In p pts -> 0 <= pws p) ->
  (forall g, exists v, estimate nhood interp pts weights g v) ->
  exists t lo hi, table_process WMinMax nhood interp pts weights = Ok t /\
    least (map pws pts) lo /\ largest (map pws pts) hi /\ no_duplicates t /\
    (forall s, In s (t_ws t) <-> exists k, (0 <= k)%Z /\ s = IZR (py_round lo + 2 * k) /\ s <= IZR (py_round hi)) /\
    (forall a, In a (t_wa t) <-> exists k, (1 <= k <= 71)%Z /\ a = IZR (5 * k)) /\
    forall s a, In s (t_ws t) -> In a (t_wa t) ->
      exists v, estimate nhood interp pts weights (s, a) v /\ getitem t [s] [a] = Ok v.
Proof.
  intros nhood interp pts weights NE NN EX.
  assert (map pws pts <> []) as NE' by (destruct pts; cbn; congruence).
  destruct (arr_min_ok _ NE') as [lo Elo]. destruct (arr_max_ok _ NE') as [hi Ehi].
  pose proof (arr_min_least _ _ Elo) as Llo. pose proof (arr_max_largest _ _ Ehi) as Lhi.
  set (zs := py_range (py_round lo) (py_round hi + 1) 2). set (za := py_range 5 356 5).
  assert (table_size WMinMax pts = Ok (map IZR zs, map IZR za)) as TS.
  { unfold table_size, min_max_resolution. rewrite Elo, Ehi. reflexivity. }
  assert (lo <= hi) as LH by (apply Lhi; apply Llo).
  assert (0 <= lo) as L0. { destruct Llo as [I _]. apply in_map_iff in I. destruct I as [p [<- I]]. auto. }
  assert (0 <= py_round lo)%Z as R0. { replace 0%Z with (py_round (IZR 0)) by apply py_round_IZR. apply py_round_mono. auto. }
  pose proof (py_round_mono _ _ LH) as RLH.
  assert (NoDup (map IZR zs)) as N1 by (apply NoDup_IZR, py_range_NoDup; lia).
  assert (forall x, In x za -> 5 <= x <= 355)%Z as BA.
  { intros x Hx. apply py_range_In in Hx; [|lia]. destruct Hx as [k Hk]. lia. }
  assert (distinct_mod_360 (map IZR za)) as N2.
  { apply distinct_small; [apply py_range_NoDup; lia|]. intros x Hx. apply BA in Hx. lia. }
  assert (forall z, In z zs -> 0 <= z)%Z as BS. { intros z Hz. apply py_range_In in Hz; [|lia]. destruct Hz as [k Hk]. lia. }
  assert (zs <> []) as NZ.
  { intros E. assert (In (py_round lo) zs) as I by (apply py_range_In; [lia|]; exists 0%Z; lia). rewrite E in I. destruct I. }
  assert (exists t, table_process WMinMax nhood interp pts weights = Ok t) as [t E].
  { unfold table_process. rewrite TS. cbn [rbind].
    assert (exists ps, interpolate_points nhood interp pts weights (grid (map IZR zs) (map IZR za)) = Ok ps) as [ps EP].
    { unfold interpolate_points. generalize (grid (map IZR zs) (map IZR za)). intros l. induction l as [|g l [ps IH]]; [eexists; reflexivity|].
      destruct (EX g) as [v Hv]. cbn [mapM].
      assert (interpolate_point nhood interp pts weights g = Ok (fst g, snd g, v)) as -> by (apply interpolate_point_estimate; eauto).
      rewrite IH. cbn. eauto. }
    rewrite EP. cbn [rbind].
    destruct (table_new_ok (map IZR zs) (map IZR za) (reshape (length (map IZR za)) (length (map IZR zs)) (map (@pbs R) ps))) as [t [E _]].
    - discriminate.
    - destruct zs; cbn; congruence.
    - intros s Hs. apply in_map_iff in Hs. destruct Hs as [z [<- Hz]]. apply IZR_le. auto.
    - apply reshape_shaped. unfold interpolate_points in EP. apply mapM_length in EP. rewrite map_length, EP, grid_length. auto.
    - eauto. }
  exists t, lo, hi. split; auto. split; auto. split; auto.
  destruct (table_extension_entries _ _ _ _ _ _ _ _ TS N1 N2 E) as [P1 [[wa' [F P2]] EN]].
  assert (wa' = map IZR za) as ->.
  { assert (forall x, In x (map IZR za) -> 0 <= x < 360) as B'.
    { intros x Hx. apply in_map_iff in Hx. destruct Hx as [z [<- Hz]]. apply BA in Hz. split; [apply IZR_le|apply IZR_lt]; lia. }
    clear - F B'. induction F as [|x y l l' HR F IH]; auto. f_equal.
    - destruct HR as [H1 [k Hk]]. specialize (B' x (or_introl eq_refl)).
      assert (k = 0)%Z as ->; [|lra]. assert (-1 < k < 1)%Z; [|lia]. split; apply lt_IZR; lra.
    - apply IH. intros z Hz. apply B'. right. auto. }
  split; [|split; [|split]].
  - split; eapply Permutation_NoDup; eauto. apply NoDup_IZR, py_range_NoDup; lia.
  - intros s. transitivity (In s (map IZR zs)).
    { split; apply Permutation_in; auto using Permutation_sym. }
    rewrite in_map_iff. split.
    + intros [z [<- Hz]]. apply py_range_In in Hz; [|lia]. destruct Hz as [k [K1 [-> K2]]]. exists k. split; auto. split; [f_equal; lia|].
      apply IZR_le. lia.
    + intros [k [K1 [-> K2]]]. apply le_IZR in K2. exists (py_round lo + 2 * k)%Z. split; auto. apply py_range_In; [lia|]. exists k. lia.
  - intros a. transitivity (In a (map IZR za)).
    { split; apply Permutation_in; auto using Permutation_sym. }
    rewrite in_map_iff. split.
    + intros [z [<- Hz]]. apply py_range_In in Hz; [|lia]. destruct Hz as [k [K1 [-> K2]]]. exists (k + 1)%Z. split; [lia|]. f_equal. lia.
    + intros [k [K1 ->]]. exists (5 * k)%Z. split; auto. apply py_range_In; [lia|]. exists (k - 1)%Z. lia.
  - intros s a Hs Ha. destruct (EN s a 0%Z) as [v [V1 V2]].
    + eapply Permutation_in; [apply Permutation_sym|]; eauto.
    + eapply Permutation_in; [apply Permutation_sym|]; eauto.
    + exists v. split; auto. rewrite <- V2. f_equal. f_equal. lra.
Qed.
Print Assumptions table_min_max.

(** The winds found by "auto". *)
Lemma extract_wind_parts : forall l n th res, (0 < n)%Z -> extract_wind l n th = Ok res ->
  exists lo hi more, least l lo /\ largest l hi /\ res = py_round hi :: py_round lo :: more /\ NoDup more /\
    (forall w, In w more -> py_round lo < w <= py_round hi /\ (n | w))%Z.
Proof.
  intros l n th res Hn H. unfold extract_wind in H.
  destruct (arr_max l) as [hi|] eqn:E1; cbn [rbind] in H; [|discriminate].
  destruct (arr_min l) as [lo|] eqn:E2; cbn [rbind] in H; [|discriminate].
  injection H as <-. exists lo, hi. eexists. split; [apply arr_min_least; auto|]. split; [apply arr_max_largest; auto|].
  split; [reflexivity|]. split.
  - apply NoDup_filter. apply py_range_NoDup. auto.
  - intros w Hw. apply filter_In in Hw. destruct Hw as [Hw _]. apply py_range_In in Hw; auto.
    destruct Hw as [k [K1 [K2 K3]]].
    pose proof (Z.mul_div_le (py_round hi) n Hn). pose proof (Z.mul_succ_div_gt (py_round lo) n Hn).
    set (a := (py_round lo / n)%Z) in *. set (b := (py_round hi / n)%Z) in *. unfold Z.succ in *.
    assert (w = (a + 1 + k) * n)%Z as -> by lia.
    assert (a + 1 + k < b + 1)%Z as LT by (apply (Z.mul_lt_mono_pos_r n); lia).
    split; [split|exists (a + 1 + k)%Z; lia].
    + apply Z.lt_le_trans with (n * (a + 1))%Z; auto. rewrite (Z.mul_comm n). apply Z.mul_le_mono_nonneg_r; lia.
    + apply Z.le_trans with (n * b)%Z; auto. rewrite (Z.mul_comm n). apply Z.mul_le_mono_nonneg_r; lia.
Qed.

(** C66 (partial: "auto"): the resolution contains the rounded least and largest wind and
    otherwise multiples of the step between them; no wind occurs twice if these two differ and the
    largest is no multiple of the step. *)
Theorem auto_resolution_partial : forall l n th res, (0 < n)%Z -> extract_wind l n th = Ok res ->
  exists lo hi, least l lo /\ largest l hi /\ In (py_round lo) res /\ In (py_round hi) res /\
    (forall w, In w res -> (py_round lo <= w <= py_round hi)%Z) /\
    (py_round lo <> py_round hi -> ~ (n | py_round hi)%Z -> NoDup res).
Proof.
  intros l n th res Hn H. destruct (extract_wind_parts _ _ _ _ Hn H) as [lo [hi [more [L1 [L2 [-> [ND B]]]]]]].
  exists lo, hi. split; auto. split; auto. split; [right; left; auto|]. split; [left; auto|].
  assert (py_round lo <= py_round hi)%Z as LE by (apply py_round_mono, L2, L1).
  split.
  - intros w [<-|[<-|Hw]]; try lia. apply B in Hw. lia.
  - intros NEQ ND2. constructor; [|constructor; auto].
    + intros [E|Hw]; [congruence|]. apply B in Hw. tauto.
    + intros Hw. apply B in Hw. lia.
Qed.
Print Assumptions auto_resolution_partial.

(** The two ends between which "auto" counts the winds for the multiple [w] of [n]: for the first
    multiple above [lo] from [lo] to [w], for another last one up to [hi] from [w] to [hi], else
    the step below [w]. *)
Definition counted (lo hi n w : Z) (a b : Z) : Prop :=
  (w - n <= lo /\ a = lo /\ b = w)%Z \/
  (lo < w - n /\ hi < w + n /\ a = w /\ b = hi)%Z \/
  (lo < w - n /\ w + n <= hi /\ a = w - n /\ b = w)%Z.

Lemma filter_enumerate_length {A} : forall (p : A -> bool) l,
  length (filter (fun q => p (snd q)) (enumerate l)) = length (filter p l).
Proof.
  intros p l. unfold enumerate. generalize 0%nat as k. induction l as [|x l IH]; intros k; simpl; auto.
  destruct (p x); simpl; auto.
Qed.

Lemma filter_enumerate_NoDup {A} : forall (p : A -> bool) l,
  NoDup (map fst (filter (fun q => p (snd q)) (enumerate l))).
Proof.
  intros p l. assert (NoDup (map fst (enumerate l))) as N0.
  { unfold enumerate. generalize 0%nat as k. induction l as [|x l IH]; intros k; simpl; constructor; auto.
    intros I. apply in_map_iff in I. destruct I as [[i y] [E I]]. simpl in E. subst i.
    apply in_combine_l in I. apply in_seq in I. lia. }
  revert N0. induction (enumerate l) as [|q e IH]; simpl; auto. intros N0. inversion N0; subst.
  destruct (p (snd q)); simpl; auto. constructor; auto. intros I. apply H1. apply in_map_iff in I.
  destruct I as [q' [<- I]]. apply filter_In in I. apply in_map. tauto.
Qed.

(** C66: beside the two rounded extremes "auto" takes exactly the multiples of the step that have
    at least the required number of winds between those ends. *)
Theorem auto_resolution_counts : forall l n th res, (0 < n)%Z -> extract_wind l n th = Ok res ->
  exists lo hi more, least l lo /\ largest l hi /\ res = py_round hi :: py_round lo :: more /\
    forall w, In w more <->
      (n | w)%Z /\ (py_round lo < w <= py_round hi)%Z /\
      forall a b, counted (py_round lo) (py_round hi) n w a b ->
        exists xs, NoDup (map fst xs) /\ (forall i x, In (i, x) xs <-> nth_error l i = Some x /\ IZR a <= x <= IZR b) /\
          (th <= length xs)%nat.
Proof.
  intros l n th res Hn H. unfold extract_wind in H.
  destruct (arr_max l) as [hi|] eqn:E1; cbn [rbind] in H; [|discriminate].
  destruct (arr_min l) as [lo|] eqn:E2; cbn [rbind] in H; [|discriminate].
  injection H as <-. exists lo, hi. eexists. split; [apply arr_min_least; auto|]. split; [apply arr_max_largest; auto|].
  split; [reflexivity|]. intros w. rewrite filter_In, py_range_In by auto.
  set (A := py_round lo) in *. set (B := py_round hi) in *.
  pose proof (Z.div_mod A n ltac:(lia)) as DA. pose proof (Z.mod_pos_bound A n Hn) as MA.
  pose proof (Z.div_mod B n ltac:(lia)) as DB. pose proof (Z.mod_pos_bound B n Hn) as MB.
  set (qa := (A / n)%Z) in *. set (qb := (B / n)%Z) in *.
  assert ((exists k, (0 <= k)%Z /\ w = ((qa + 1) * n + k * n)%Z /\ (w < qb * n + n)%Z) <-> (n | w)%Z /\ (A < w <= B)%Z) as RG.
  { split.
    - intros [k [K1 [K2 K3]]]. split; [exists (qa + 1 + k)%Z; lia|].
      assert (qa + 1 + k < qb + 1)%Z by (apply (Z.mul_lt_mono_pos_r n); lia). nia.
    - intros [[k ->] [L1 L2]]. exists (k - (qa + 1))%Z. assert (qa < k)%Z by nia. assert (k <= qb)%Z by nia.
      split; [lia|]. split; [ring|]. nia. }
  rewrite RG. clear RG.
  assert (forall (p : R -> bool) a b, (forall x, p x = true <-> IZR a <= x <= IZR b) ->
    (Nat.leb th (length (filter p l)) = true <->
     exists xs, NoDup (map fst xs) /\ (forall i x, In (i, x) xs <-> nth_error l i = Some x /\ IZR a <= x <= IZR b) /\ (th <= length xs)%nat)) as CNT.
  { intros p a b P. rewrite Nat.leb_le.
    set (ys := filter (fun q => p (snd q)) (enumerate l)).
    assert (length ys = length (filter p l)) as LY by apply filter_enumerate_length.
    assert (NoDup (map fst ys)) as NY by apply filter_enumerate_NoDup.
    assert (forall i x, In (i, x) ys <-> nth_error l i = Some x /\ IZR a <= x <= IZR b) as IY.
    { intros i x. unfold ys. rewrite filter_In, enumerate_In. cbn [snd]. rewrite P. tauto. }
    split.
    - intros T. exists ys. split; auto. split; auto. lia.
    - intros [xs [N [I T]]]. rewrite <- LY.
      assert (length xs <= length ys)%nat; [|lia]. apply NoDup_incl_length; [apply NoDup_map_inv in N; auto|].
      intros [i x] Hx. apply IY, I. auto. }
  split.
  - intros [[D R] F]. split; auto. split; auto. intros a b C. revert F. rnum.
    destruct (Z.eqb_spec w ((qa + 1) * n)) as [W|W]; [|destruct (Z.eqb_spec w (qb * n)) as [W2|W2]]; intros F.
    + assert (a = A /\ b = w) as [-> ->] by (destruct C as [C|[C|C]]; lia).
      eapply CNT; [|exact F]. intros x. rewrite andb_true_iff, !Rleb_le. tauto.
    + assert (a = w /\ b = B) as [-> ->].
      { assert (qa + 1 < qb)%Z as Q.
        { assert (qa < qb)%Z by (apply (Z.mul_lt_mono_pos_r n); lia). assert (qb <> qa + 1)%Z by (intros X; apply W; rewrite W2, X; auto). lia. }
        pose proof (Z.mul_le_mono_nonneg_r (qa + 2) qb n ltac:(lia) ltac:(lia)). destruct C as [C|[C|C]]; lia. }
      eapply CNT; [|exact F]. intros x. rewrite andb_true_iff, !Rleb_le. tauto.
    + assert (a = w - n /\ b = w)%Z as [-> ->].
      { destruct D as [k ->]. assert (qa + 1 <= k)%Z by nia. assert (k <= qb)%Z by nia.
        assert (k <> qa + 1)%Z by (intros ->; apply W; auto). assert (k <> qb)%Z by (intros ->; apply W2; auto).
        pose proof (Z.mul_le_mono_nonneg_r (qa + 2) k n ltac:(lia) ltac:(lia)).
        pose proof (Z.mul_le_mono_nonneg_r (k + 1) qb n ltac:(lia) ltac:(lia)). destruct C as [C|[C|C]]; lia. }
      eapply CNT; [|exact F]. intros x. rewrite andb_true_iff, !Rleb_le. tauto.
  - intros [D [R F]]. split; auto. rnum.
    destruct (Z.eqb_spec w ((qa + 1) * n)) as [W|W]; [|destruct (Z.eqb_spec w (qb * n)) as [W2|W2]].
    + apply (CNT _ A w); [|apply F; left; lia]. intros x. rewrite andb_true_iff, !Rleb_le. tauto.
    + apply (CNT _ w B); [|apply F; right; left].
      * intros x. rewrite andb_true_iff, !Rleb_le. tauto.
      * assert (qa < qb)%Z by (apply (Z.mul_lt_mono_pos_r n); lia).
        assert (qb <> qa + 1)%Z by (intros X; apply W; rewrite W2, X; auto).
        pose proof (Z.mul_le_mono_nonneg_r (qa + 2) qb n ltac:(lia) ltac:(lia)). lia.
    + apply (CNT _ (w - n)%Z w); [|apply F; right; right].
      * intros x. rewrite andb_true_iff, !Rleb_le. tauto.
      * destruct D as [k ->]. assert (qa + 1 <= k)%Z by nia. assert (k <= qb)%Z by nia.
        assert (k <> qa + 1)%Z by (intros ->; apply W; auto). assert (k <> qb)%Z by (intros ->; apply W2; auto).
        pose proof (Z.mul_le_mono_nonneg_r (qa + 2) k n ltac:(lia) ltac:(lia)).
        pose proof (Z.mul_le_mono_nonneg_r (k + 1) qb n ltac:(lia) ltac:(lia)). lia.
Qed.
Print Assumptions auto_resolution_counts.

(** C66: refuted for "auto": whenever the points contain the wind angles 0 and 360, as they do
    after the default [ZeroInjector], the table has the wind angle 0 more than once; and points
    of a single wind speed give this wind speed twice. *)
Theorem auto_resolution_refuted : 
  (forall nhood interp pts weights t, (forall p, In p pts -> 0 <= pwa p <= 360) ->
     In 0 (map pwa pts) -> In 360 (map pwa pts) ->
     table_process WAuto nhood interp pts weights = Ok t -> ~ NoDup (t_wa t)) /\
  (forall nhood interp pts weights t s, (forall p, In p pts -> pws p = s) ->
     table_process WAuto nhood interp pts weights = Ok t -> ~ NoDup (t_ws t)) /\
  (exists t, table_process WAuto (fun l => Ok (MList (map (fun _ => true) l))) (fun _ _ _ => Ok 3) [(8, 0, 0); (8, 360, 0)] [1; 1] = Ok t).
Proof.
  split; [|split].
  - intros nhood interp pts weights t B I0 I360 H ND.
    unfold table_process in H. destruct (table_size WAuto pts) as [[ws wa]|] eqn:TS; cbn [rbind] in H; [|discriminate].
    destruct (interpolate_points _ _ _ _ _); cbn [rbind] in H; [|discriminate].
    apply table_given_winds in H. destruct H as [_ [wa' [F P]]].
    apply Permutation_sym in P. apply (Permutation_NoDup P) in ND. clear P.
    unfold table_size, auto_resolution in TS.
    destruct (extract_wind (map pws pts) 2 100) eqn:E1; cbn [rbind] in TS; [|discriminate].
    destruct (extract_wind (map pwa pts) 5 30) eqn:E2; cbn [rbind] in TS; [|discriminate]. injection TS as <- <-.
    destruct (extract_wind_parts _ 5 _ _ ltac:(lia) E2) as [lo [hi [more [[L1 L2] [[L3 L4] [-> _]]]]]].
    assert (forall x, In x (map pwa pts) -> 0 <= x <= 360) as B'.
    { intros x Hx. apply in_map_iff in Hx. destruct Hx as [p [<- Hp]]. auto. }
    assert (lo = 0) as ->. { pose proof (B' _ L1). pose proof (L2 _ I0). lra. }
    assert (hi = 360) as ->. { pose proof (B' _ L3). pose proof (L4 _ I360). lra. }
    rewrite (py_round_IZR 0), (py_round_IZR 360) in F. cbn [map nofZ RNum] in F.
    inversion F as [|x y l' l2 [R1 [k1 K1]] F2]; subst. inversion F2 as [|x2 y2 l3 l4 [R2 [k2 K2]] F3]; subst.
    assert (y = 0) as ->. { assert (0 < k1 < 2)%Z by (split; apply lt_IZR; lra). assert (k1 = 1)%Z as -> by lia. lra. }
    assert (y2 = 0) as ->. { assert (-1 < k2 < 1)%Z by (split; apply lt_IZR; lra). assert (k2 = 0)%Z as -> by lia. lra. }
    inversion ND as [|? ? NI]; subst. apply NI. left. auto.
  - intros nhood interp pts weights t s B H ND.
    unfold table_process in H. destruct (table_size WAuto pts) as [[ws wa]|] eqn:TS; cbn [rbind] in H; [|discriminate].
    destruct (interpolate_points _ _ _ _ _); cbn [rbind] in H; [|discriminate].
    apply table_given_winds in H. destruct H as [P _].
    apply Permutation_sym in P. apply (Permutation_NoDup P) in ND. clear P.
    unfold table_size, auto_resolution in TS.
    destruct (extract_wind (map pws pts) 2 100) eqn:E1; cbn [rbind] in TS; [|discriminate].
    destruct (extract_wind (map pwa pts) 5 30) eqn:E2; cbn [rbind] in TS; [|discriminate]. injection TS as <- <-.
    destruct (extract_wind_parts _ 2 _ _ ltac:(lia) E1) as [lo [hi [more [[L1 L2] [[L3 L4] [-> _]]]]]].
    assert (forall x, In x (map pws pts) -> x = s) as B'.
    { intros x Hx. apply in_map_iff in Hx. destruct Hx as [p [<- Hp]]. auto. }
    rewrite (B' _ L1), (B' _ L3) in ND. cbn [map] in ND. inversion ND as [|? ? NI]; subst. apply NI. left. auto.
  - assert (exists ws wa, table_size WAuto [(8, 0, 0); (8, 360, 0)] = Ok (map IZR ws, map IZR wa) /\ ws <> [] /\ wa <> [] /\ (forall w, In w ws -> 0 <= w)%Z) as [ws [wa [TS [N1 [N2 BS]]]]].
    { unfold table_size, auto_resolution. cbn [map pws pwa fst snd].
      destruct (extract_wind [8; 8] 2 100) as [ws|] eqn:E1; [|unfold extract_wind in E1; cbn in E1; discriminate].
      destruct (extract_wind [0; 360] 5 30) as [wa|] eqn:E2; [|unfold extract_wind in E2; cbn in E2; discriminate].
      exists ws, wa. split; auto. destruct (extract_wind_parts _ 2 _ _ ltac:(lia) E1) as [lo [hi [more [[L1 L2] [[L3 L4] [-> [_ B]]]]]]].
      destruct (extract_wind_parts _ 5 _ _ ltac:(lia) E2) as [? [? [? [_ [_ [-> _]]]]]].
      split; [discriminate|]. split; [discriminate|].
      assert (lo = 8) as -> by (destruct L1 as [|[|[]]]; lra). assert (hi = 8) as -> by (destruct L3 as [|[|[]]]; lra).
      rewrite (py_round_IZR 8) in *. intros w [<-|[<-|Hw]]; try lia. apply B in Hw. lia. }
    unfold table_process. rewrite TS. cbn [rbind].
    assert (exists ps, interpolate_points (fun l => Ok (MList (map (fun _ => true) l))) (fun _ _ _ => Ok 3) [(8, 0, 0); (8, 360, 0)] [1; 1] (grid (map IZR ws) (map IZR wa)) = Ok ps) as [ps EP].
    { unfold interpolate_points. induction (grid (map IZR ws) (map IZR wa)) as [|g l [ps IH]]; [eexists; reflexivity|].
      cbn [mapM]. unfold interpolate_point at 1. cbn. rewrite IH. cbn. eauto. }
    rewrite EP. cbn [rbind].
    destruct (table_new_ok (map IZR ws) (map IZR wa) (reshape (length (map IZR wa)) (length (map IZR ws)) (map (@pbs R) ps))) as [t [E _]].
    + destruct wa; cbn; congruence.
    + destruct ws; cbn; congruence.
    + intros s Hs. apply in_map_iff in Hs. destruct Hs as [z [<- Hz]]. apply IZR_le. auto.
    + apply reshape_shaped. unfold interpolate_points in EP. apply mapM_length in EP. rewrite map_length, EP, grid_length. auto.
    + eauto.
Qed.
Print Assumptions auto_resolution_refuted.

(** ** Clouds and curves (C92) *)

(** C92: the cloud consists of the sampled winds of non-negative speed with their estimates, in
    order. *)
Theorem cloud_extension_points : forall sample nhood interp pts weights cloud,
  cloud_process sample nhood interp pts weights = Ok cloud ->
  exists gs, sample pts = Ok gs /\ gs <> [] /\
    Forall2 (fun g p => pws p = fst g /\ reduced (snd g) (pwa p) /\ estimate nhood interp pts weights g (pbs p))
      (filter (fun g => Rleb 0 (fst g)) gs) cloud.
Proof.
  intros sample nhood interp pts weights cloud H. unfold cloud_process in H.
  destruct (sample pts) as [gs|] eqn:ES; cbn [rbind] in H; [|discriminate].
  destruct (interpolate_points nhood interp pts weights gs) as [ps|] eqn:EP; cbn [rbind] in H; [|discriminate].
  exists gs. split; auto.
  assert (ps <> [] /\ cloud_new ps = cloud) as [NE <-].
  { unfold cloud_of_list in H. destruct ps; [discriminate|]. injection H as <-. split; auto. discriminate. }
  unfold interpolate_points in EP. split.
  - intros ->. injection EP as <-. auto.
  - clear NE H ES. revert ps EP. induction gs as [|g gs IH]; intros ps EP; cbn [mapM] in EP.
    + injection EP as <-. constructor.
    + destruct (interpolate_point nhood interp pts weights g) as [p|] eqn:E1; cbn [rbind] in EP; [|discriminate].
      destruct (mapM _ gs) as [ps'|]; cbn [rbind] in EP; [|discriminate]. injection EP as <-.
      apply interpolate_point_estimate in E1. destruct E1 as [v [-> E1]].
      cbn [filter]. unfold cloud_new. cbn [filter pws fst snd]. rnum.
      destruct (Rleb 0 (fst g)).
      * cbn [map]. constructor; [|apply IH; auto]. unfold reduce_angle. cbn [pws pwa pbs fst snd]. split; auto. split; auto.
        apply reduced_iff. auto.
      * apply IH. auto.
Qed.
Print Assumptions cloud_extension_points.

(** C92: the curve evaluates the fitted function with the fitted parameters, and at the data
    points with angles in [0, 360) the regressor sees the function exactly as the curve will
    evaluate it; the points' angles are converted if [radians]. *)
Theorem curve_extension : forall f fit radians pts c pts', curve_process f fit radians pts = Ok (c, pts') ->
  c_fun c = f /\ c_rad c = radians /\ fit pts' = Ok (c_params c) /\
  Forall2 (fun p p' => pws p' = pws p /\ pbs p' = pbs p /\ pwa p' = (if radians then pwa p * PI / 180 else pwa p)) pts pts' /\
  forall p', In p' pts' -> 0 <= pws p' -> 0 <= (if radians then pwa p' * 180 / PI else pwa p') < 360 ->
    curve_call c (pws p') (pwa p') = f_call f (pws p') (pwa p') (c_params c).
Proof.
  intros f fit radians pts c pts' H. unfold curve_process in H.
  set (q := if radians then map (fun p => (pws p, deg2rad (pwa p), pbs p)) pts else pts) in *.
  destruct (fit q) as [params|] eqn:EF; cbn [rbind] in H; [|discriminate].
  unfold curve_new in H. destruct (check_enough_params f params) as [[|]|]; cbn [rbind] in H; try discriminate.
  injection H as <- <-. cbn [c_fun c_rad c_params]. split; auto. split; auto. split; auto. split.
  - unfold q. destruct radians.
    + clear. induction pts; cbn [map]; constructor; auto.
    + clear. induction pts; constructor; auto.
  - intros p' Hp' H0 HA. unfold curve_call. cbn [c_fun c_rad c_params]. rnum. rewrite Rltb_false by lra.
    assert (forall x, 0 <= x < 360 -> nmod x 360 = x) as M.
    { intros x Hx. apply nmod_small; lra. }
    destruct radians.
    + unfold rad2deg. rewrite M by auto. unfold deg2rad. f_equal. field. pose proof PI_RGT_0. lra.
    + rewrite M by auto. auto.
Qed.
Print Assumptions curve_extension.

(** ** The hypotheses are met *)

Example table_min_max_meets : let nhood := fun l : list (R * R) => Ok (MList (map (fun d => Rleb (Rabs (fst d)) 1) l)) in
  let interp := fun (ps : list (pt3 R)) (_ : list R) (_ : R * R) => Ok (INR (length ps)) in
  let pts := [(4, 90, 5); (8, 120, 7)] in
  (forall p, In p pts -> 0 <= pws p) /\ (forall g, exists v, estimate nhood interp pts [1; 1] g v) /\
  estimate nhood interp pts [1; 1] (4, 90) 1 /\ estimate nhood interp pts [1; 1] (6, 90) 0.
Proof.
  intros nhood interp pts.
  assert (forall g, exists v, estimate nhood interp pts [1; 1] g v) as EX.
  { intros g. unfold nhood, interp, pts.
    destruct (in_dec bool_dec true (map (fun d : R * R => Rleb (Rabs (fst d)) 1) (map (fun p => (pws p - fst g, pwa p - snd g)) [(4, 90, 5); (8, 120, 7)]))) as [I|N].
    - eexists. eapply Near; [reflexivity|exact I|reflexivity|reflexivity|reflexivity].
    - eexists. eapply Alone; [reflexivity|exact N]. }
  split; [|split; [auto|split]].
  - intros p [<-|[<-|[]]]; cbn; lra.
  - assert (Rleb (Rabs (4 - 4)) 1 = true) as E1 by (apply Rleb_le; rewrite Rminus_diag_eq, Rabs_R0; lra).
    assert (Rleb (Rabs (8 - 4)) 1 = false) as E2 by (apply Rleb_false; rewrite Rabs_right; lra).
    eapply (Near _ _ _ _ _ [true; false]); unfold nhood, interp, pts; cbn; rewrite ?E1, ?E2; auto.
  - assert (Rleb (Rabs (4 - 6)) 1 = false) as E1 by (apply Rleb_false; rewrite Rabs_left; lra).
    assert (Rleb (Rabs (8 - 6)) 1 = false) as E2 by (apply Rleb_false; rewrite Rabs_right; lra).
    eapply (Alone _ _ _ _ _ [false; false]); unfold nhood, pts; cbn; rewrite ?E1, ?E2; auto. intuition discriminate.
Qed.

Example auto_resolution_meets : exists res, @extract_wind R _ [3; 9; 4] 2 1 = Ok res /\ (py_round 3%R <> py_round 9%R)%Z /\ ~ (2 | py_round 9%R)%Z.
Proof.
  eexists. split; [cbn; reflexivity|]. rewrite (py_round_IZR 3), (py_round_IZR 9). split; [lia|]. intros [k Hk]. lia.
Qed.

Example auto_resolution_counts_meets : @extract_wind R _ [3; 9; 4] 2 2 = Ok [9; 3; 4]%Z.
Proof.
  unfold extract_wind, arr_max, arr_min. cbn [fold_left rbind map]. rnum.
  repeat match goal with |- context [Rltb ?a ?b] => first [rewrite (Rltb_true a b) by lra | rewrite (Rltb_false a b) by lra] end.
  repeat match goal with |- context [Rleb ?a ?b] => first [rewrite (Rleb_true a b) by lra | rewrite (Rleb_false a b) by lra] end.
  rewrite !py_round_IZR. change (py_range _ _ _) with [4; 6; 8]%Z. cbn -[Rleb IZR]. rnum.
  repeat (match goal with |- context [Rleb ?a ?b] => first [rewrite (Rleb_true a b) by lra | rewrite (Rleb_false a b) by lra] end; cbn -[Rleb IZR]).
  reflexivity.
Qed.

Example cloud_extension_meets : cloud_process (fun _ => Ok [(4, 370); (-1, 20)]) (fun l => Ok (MList (map (fun _ => true) l)))
  (fun _ _ _ => Ok 3) [(4, 90, 5)] [1] = Ok [(4, nmod 370 360, 3)].
Proof.
  cbn. rewrite Rleb_true by lra. rewrite Rleb_false by lra. reflexivity.
Qed.

Example curve_extension_meets : exists c pts', curve_process (mkFun "f"%string (fun s a ps => Ok (s * a))) (fun _ => Ok []) true [(4, 90, 5)] = Ok (c, pts').
Proof. eexists. eexists. reflexivity. Qed.
