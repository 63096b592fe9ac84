(** * Properties of the smoothers (C54) *)

From Coq Require Import String.
From Coq Require Import List Bool Arith ZArith Reals Lra Lia Sorted.
From Verif Require Import Py Num ListX DataModel SmoothModel.
Import ListNotations.
Open Scope string_scope.
Open Scope list_scope.
Open Scope R_scope.

(** Time stamps in order. *)
Definition in_order (ts : list R) : Prop := StronglySorted Rle ts.

(** A table whose columns all have as many entries as there are time stamps. *)
Definition sm_rect (d : smdata (T := R)) : Prop :=
  forall k c, In (k, c) (sm_cols d) -> smcol_len c = length (sm_time d).

(** Some row jumps between the rows [k] and [k + 1]; the middle of the two stamps. *)
Definition jump (ts ys : list R) (k : nat) (m : R) : Prop :=
  exists t t' y y', nth_error ts k = Some t /\ nth_error ts (S k) = Some t' /\
    nth_error ys k = Some y /\ nth_error ys (S k) = Some y' /\ y <> y' /\ m = (t + t') / 2.

(* ------------------------------------------------------------------ *)

Notation piece := ((R * R) * (R * R))%type.
Definition plb (p : piece) := fst (fst p).
Definition pub (p : piece) := snd (fst p).

Fixpoint locate (ps : list piece) (x : R) : option piece :=
  match ps with
  | [] => None
  | p :: r => if Rltb (pub p) x then locate r x else Some p
  end.

Lemma half_R : forall x : R, sm_half x = x / 2.
Proof. intros. unfold sm_half. rnum. field. Qed.

Lemma advance_locate : forall rest cur x,
  match advance x cur rest with
  | None => locate (cur :: rest) x = None
  | Some (c, r) => locate (cur :: rest) x = Some c /\
      (forall x', x <= x' -> locate (c :: r) x' = locate (cur :: rest) x')
  end.
Proof.
  assert (forall p ps x, locate (p :: ps) x = if Rltb (pub p) x then locate ps x else Some p) as LC by reflexivity.
  induction rest as [|p rest IH]; intros cur x; cbn [advance]; rnum; fold (pub cur).
  - destruct (Rltb_spec (pub cur) x).
    + rewrite LC, Rltb_true by auto. auto.
    + rewrite LC, Rltb_false by lra. auto.
  - destruct (Rltb_spec (pub cur) x) as [L|L].
    + specialize (IH p x). rewrite LC, Rltb_true by auto. destruct (advance x p rest) as [[c r]|]; [|exact IH].
      destruct IH as [I1 I2]. split; [exact I1|]. intros x' Hx'. rewrite I2 by auto.
      rewrite (LC cur). rewrite (Rltb_true (pub cur) x') by lra. auto.
    + rewrite LC, Rltb_false by lra. split; auto.
Qed.

Lemma smooth_points_map : forall xs cur rest ys, length ys = length xs -> StronglySorted Rle xs ->
  (forall x, In x xs -> locate (cur :: rest) x <> None) ->
  smooth_points cur rest xs ys =
  map (fun x => match locate (cur :: rest) x with Some p => piece_value p x | None => 0 end) xs.
Proof.
  induction xs as [|x xs IH]; intros cur rest [|y ys] HL HS HN; try discriminate; auto.
  cbn [smooth_points map]. pose proof (advance_locate rest cur x) as A.
  destruct (advance x cur rest) as [[c r]|].
  - destruct A as [A1 A2]. rewrite A1. f_equal. inversion HS as [|? ? S1 S2]; subst.
    rewrite Forall_forall in S2.
    rewrite IH; auto.
    + apply map_ext_in. intros x' Hx'. rewrite A2 by auto. auto.
    + intros x' Hx'. rewrite A2 by auto. apply HN. simpl; auto.
  - exfalso. apply (HN x); simpl; auto.
Qed.

(** The pieces are contiguous from [a] to [b]. *)
Fixpoint chain (a b : R) (ps : list piece) : Prop :=
  match ps with
  | [] => a = b
  | p :: r => plb p = a /\ chain (pub p) b r
  end.

Lemma chain_app : forall p q a b c, chain a b p -> chain b c q -> chain a c (p ++ q).
Proof.
  induction p as [|x p IH]; intros q a b c H1 H2; simpl in *.
  - subst. auto.
  - destruct H1. split; auto. eapply IH; eauto.
Qed.

Lemma approx_one_chain : forall span yb x_lb x_ub y ya,
  chain x_lb x_ub (approx_one span yb ((x_lb, x_ub), y) ya).
Proof.
  intros. unfold approx_one. rnum. destruct (Rltb _ _); simpl; auto.
Qed.

Fixpoint bchain (a b : R) (bs : list ((R * R) * R)) : Prop :=
  match bs with
  | [] => a = b
  | p :: r => fst (fst p) = a /\ bchain (snd (fst p)) b r
  end.

Lemma approx_chain : forall span bs yb lst a b, bchain a b bs -> chain a b (approx_intervals span yb lst bs).
Proof.
  intros span. induction bs as [|[[lb ub] y] bs IH]; intros yb lst a b H; cbn [approx_intervals].
  - exact H.
  - simpl in H. destruct H as [-> H]. eapply chain_app; [apply approx_one_chain|]. apply IH. auto.
Qed.

Lemma bounds_eq : forall (a b x xa : R) xs y ya yb yr,
  interval_bounds a b (x :: xa :: xs) (y :: ya :: yb :: yr) =
  if Reqb y ya then interval_bounds a b (xa :: xs) (ya :: yb :: yr)
  else ((a, (x + xa) / 2), b) :: interval_bounds ((x + xa) / 2) ya (xa :: xs) (ya :: yb :: yr).
Proof. intros. rewrite <- (half_R (x + xa)). reflexivity. Qed.

Lemma bounds_chain : forall xs ys x_lb y_lb, length ys = length xs -> (2 <= length xs)%nat ->
  bchain x_lb (last xs 0) (interval_bounds x_lb y_lb xs ys).
Proof.
  induction xs as [|x xs IH]; intros ys x_lb y_lb HL H2; [simpl in H2; lia|].
  destruct xs as [|xa xs]; [simpl in H2; lia|].
  destruct ys as [|y [|ya yr]]; try discriminate.
  destruct yr as [|yb yr].
  - destruct xs; [|discriminate]. simpl. auto.
  - assert (2 <= length (xa :: xs))%nat by (simpl in *; lia).
    rewrite bounds_eq. destruct (Reqb_spec y ya).
    + change (last (x :: xa :: xs) 0) with (last (xa :: xs) 0). apply IH; auto.
    + split; [reflexivity|]. change (last (x :: xa :: xs) 0) with (last (xa :: xs) 0). apply IH; auto.
Qed.

Lemma chain_locate : forall ps a b x, chain a b ps -> ps <> [] -> a <= x <= b ->
  exists p, locate ps x = Some p /\ plb p <= x <= pub p.
Proof.
  induction ps as [|p ps IH]; intros a b x H HN Hx; [congruence|].
  simpl in H. destruct H as [H1 H2]. cbn [locate]. destruct (Rltb_spec (pub p) x) as [L|L].
  - destruct ps as [|q ps].
    + simpl in H2. lra.
    + apply (IH (pub p) b); auto; [discriminate|lra].
  - exists p. split; auto. lra.
Qed.

Lemma locate_In : forall ps x p, locate ps x = Some p -> In p ps.
Proof.
  induction ps as [|q ps IH]; intros x p H; cbn [locate] in H; [discriminate|].
  destruct (Rltb (pub q) x); [right; eauto|]. left. congruence.
Qed.

(** All values of the pieces lie in a range. *)
Lemma approx_range : forall span m M bs yb lst,
  m <= yb <= M -> m <= lst <= M -> (forall b, In b bs -> m <= snd b <= M) ->
  forall p, In p (approx_intervals span yb lst bs) -> m <= fst (snd p) <= M /\ m <= snd (snd p) <= M.
Proof.
  intros span m M. induction bs as [|[[lb ub] y] bs IH]; intros yb lst H1 H2 H3 p Hp; cbn [approx_intervals] in Hp.
  - contradiction.
  - apply in_app_or in Hp. pose proof (H3 _ (or_introl eq_refl)) as Hy. cbn [snd] in Hy.
    destruct Hp as [Hp|Hp].
    + set (ya := match bs with [] => lst | b' :: _ => snd b' end) in *.
      assert (m <= ya <= M) as Ha.
      { unfold ya. destruct bs as [|b' bs]; auto. apply H3. simpl; auto. }
      unfold approx_one in Hp. destruct (_ <? _)%num; simpl in Hp;
        repeat (destruct Hp as [<-|Hp]); try contradiction; cbn [fst snd]; rewrite ?half_R; rnum; lra.
    + apply (IH y lst); auto. intros b Hb. apply H3. simpl; auto.
Qed.

Lemma bounds_values : forall xs ys x_lb y_lb b, In y_lb ys -> In b (interval_bounds x_lb y_lb xs ys) -> In (snd b) ys.
Proof.
  induction xs as [|x xs IH]; intros ys x_lb y_lb b HI Hb; [destruct ys; contradiction|].
  destruct xs as [|xa xs]; [destruct ys as [|? [|? ?]]; contradiction|].
  destruct ys as [|y [|ya yr]]; try contradiction.
  destruct yr as [|yb yr].
  - destruct Hb as [<-|[]]. simpl. auto.
  - rewrite bounds_eq in Hb. destruct (Reqb_spec y ya) as [->|NE].
    + right. apply (IH (ya :: yb :: yr) x_lb y_lb b); auto.
      destruct HI as [->|HI]; simpl; auto.
    + destruct Hb as [<-|Hb]; [exact HI|]. right. eapply IH; [|exact Hb]. simpl; auto.
Qed.

Lemma piece_value_range : forall p x m M, plb p <= x <= pub p ->
  m <= fst (snd p) <= M -> m <= snd (snd p) <= M -> m <= piece_value p x <= M.
Proof.
  intros [[lb ub] [y1 y2]] x m M Hx H1 H2. unfold plb, pub in Hx. cbn [fst snd] in *. unfold piece_value. rnum.
  destruct (Reqb_spec (ub - lb) 0); auto.
  assert (0 < ub - lb) as HP by lra.
  assert (0 <= (x - lb) / (ub - lb) <= 1) as [B1 B2].
  { split; [apply Rmult_le_pos; [lra|apply Rlt_le, Rinv_0_lt_compat; auto]|].
    apply (Rmult_le_reg_r (ub - lb)); auto. unfold Rdiv. rewrite Rmult_assoc, Rinv_l by lra. lra. }
  set (mu := (x - lb) / (ub - lb)) in *. clearbody mu. nra.
Qed.

Lemma approx_nonempty : forall span yb lst b bs, approx_intervals (T := R) span yb lst (b :: bs) <> [].
Proof.
  intros span yb lst [[lb ub] y] bs. cbn [approx_intervals]. unfold approx_one.
  destruct (_ <? _)%num; discriminate.
Qed.

Lemma bounds_nonempty : forall (xs ys : list R) a b, length ys = length xs -> (2 <= length xs)%nat ->
  interval_bounds a b xs ys <> [].
Proof.
  induction xs as [|x xs IH]; intros ys a b HL H2; [simpl in H2; lia|].
  destruct xs as [|xa xs]; [simpl in H2; lia|].
  destruct ys as [|y [|ya [|yb yr]]]; try discriminate. try discriminate. rewrite bounds_eq.
  destruct (Reqb _ _); [|discriminate]. apply IH; simpl in *; lia.
Qed.

(** The function drawn by the smoother. *)
Lemma smooth_field_pieces : forall span times ys, in_order times -> length ys = length times ->
  (2 <= length times)%nat ->
  exists t0 y0 trest yrest p ps, times = t0 :: trest /\ ys = y0 :: yrest /\
    approx_intervals span y0 (last ys y0)
      (interval_bounds 0 y0 (map (fun t => t - t0) times) ys) = p :: ps /\
    (forall x, In x times -> exists q, locate (p :: ps) (x - t0) = Some q /\ plb q <= x - t0 <= pub q) /\
    smooth_field span times ys =
      Ok (map (fun x => match locate (p :: ps) (x - t0) with Some p => piece_value p (x - t0) | None => 0 end) times).
Proof.
  intros span times ys HO HL H2. destruct times as [|t0 trest]; [simpl in H2; lia|].
  destruct ys as [|y0 yrest]; [discriminate|].
  set (times := t0 :: trest) in *. set (ys := y0 :: yrest) in *.
  set (xs := map (fun t => t - t0) times).
  assert (length xs = length times) as Lx by apply map_length.
  assert (nth 0 xs 0 = 0) as X0. { unfold xs, times. simpl. lra. }
  destruct (approx_intervals span y0 (last ys y0) (interval_bounds 0 y0 xs ys)) as [|p ps] eqn:EA.
  { exfalso. destruct (interval_bounds 0 y0 xs ys) as [|b bs] eqn:EB.
    - apply (bounds_nonempty xs ys 0 y0); auto; lia.
    - apply (approx_nonempty span y0 (last ys y0) b bs). auto. }
  exists t0, y0, trest, yrest, p, ps. split; auto. split; auto. split; auto.
  assert (chain 0 (last xs 0) (p :: ps)) as CH.
  { rewrite <- EA. apply approx_chain. apply bounds_chain; lia. }
  assert (StronglySorted Rle xs) as SX.
  { unfold xs. clear - HO. unfold in_order in HO. induction HO as [|a l S IH FA]; simpl; constructor; auto.
    apply Forall_forall. intros z Hz. apply in_map_iff in Hz. destruct Hz as [w [<- Hw]].
    rewrite Forall_forall in FA. specialize (FA w Hw). lra. }
  assert (forall x, In x xs -> 0 <= x <= last xs 0) as RX.
  { intros x Hx. split.
    - destruct xs as [|x0 xs']; [contradiction|]. simpl in X0. subst x0.
      destruct Hx as [<-|Hx]; [lra|]. inversion SX as [|? ? _ FA]; subst. rewrite Forall_forall in FA. auto.
    - clear - SX Hx. clearbody xs. revert x Hx. induction SX as [|a l S IH FA]; intros x Hx; [contradiction|].
      destruct l as [|b l].
      + destruct Hx as [<-|[]]. simpl. lra.
      + change (last (a :: b :: l) 0) with (last (b :: l) 0).
        destruct Hx as [<-|Hx]; [|auto]. rewrite Forall_forall in FA.
        apply Rle_trans with b; [apply FA; simpl; auto|]. apply IH. simpl; auto. }
  assert (forall x, In x xs -> exists q, locate (p :: ps) x = Some q /\ plb q <= x <= pub q) as LX.
  { intros x Hx. apply (chain_locate (p :: ps) 0 (last xs 0)); auto. discriminate. }
  split.
  { intros x Hx. apply LX. apply in_map_iff. eauto. }
  unfold smooth_field. unfold times at 1, ys at 1. fold times. 
  change (fun t : R => (t - t0)%num) with (fun t : R => t - t0). fold xs.
  change (nofZ 0) with 0. rewrite X0. fold ys. rewrite EA. f_equal.
  rewrite smooth_points_map; auto; try lia.
  - unfold xs. rewrite map_map. auto.
  - intros x Hx. destruct (LX x Hx) as [q [Q _]]. congruence.
Qed.

Lemma last_in_cons : forall A (l : list A) a d, In (last (a :: l) d) (a :: l).
Proof.
  intros A. induction l as [|b l IH]; intros a d; [simpl; auto|].
  change (last (a :: b :: l) d) with (last (b :: l) d). right. apply IH.
Qed.

Lemma last_default : forall A (l : list A) a d d', last (a :: l) d = last (a :: l) d'.
Proof.
  intros A. induction l as [|b l IH]; intros a d d'; auto.
  change (last (a :: b :: l) d) with (last (b :: l) d). change (last (a :: b :: l) d') with (last (b :: l) d').
  apply IH.
Qed.

Lemma smooth_field_range : forall span times ys m M, in_order times -> length ys = length times ->
  (2 <= length times)%nat -> (forall y, In y ys -> m <= y <= M) ->
  exists ys', smooth_field span times ys = Ok ys' /\ length ys' = length ys /\ forall y, In y ys' -> m <= y <= M.
Proof.
  intros span times ys m M HO HL H2 HR.
  destruct (smooth_field_pieces span times ys HO HL H2) as [t0 [y0 [tr [yr [p [ps [E1 [E2 [E3 [E4 E5]]]]]]]]]].
  eexists. split; [exact E5|]. split; [rewrite map_length; auto|].
  intros y Hy. apply in_map_iff in Hy. destruct Hy as [x [<- Hx]].
  destruct (E4 x Hx) as [q [Q1 Q2]]. rewrite Q1.
  assert (In y0 ys) as I0 by (rewrite E2; simpl; auto).
  assert (m <= fst (snd q) <= M /\ m <= snd (snd q) <= M) as [R1 R2].
  { apply locate_In in Q1. rewrite <- E3 in Q1.
    eapply approx_range; [| | |exact Q1].
    - apply HR. auto.
    - apply HR. rewrite E2. apply last_in_cons.
    - intros b Hb. apply HR. eapply bounds_values; eauto. }
  apply piece_value_range; auto.
Qed.

(* ------------------------------------------------------------------ *)

Definition ev (ps : list piece) (x : R) : R :=
  match locate ps x with Some p => piece_value p x | None => 0 end.

Lemma piece_const : forall a b y x, piece_value ((a, b), (y, y)) x = y.
Proof. intros. unfold piece_value. rnum. destruct (Reqb_spec (b - a) 0); lra. Qed.

Lemma ev_cons : forall p ps x, ev (p :: ps) x = if Rltb (pub p) x then ev ps x else piece_value p x.
Proof. intros. unfold ev. cbn [locate]. destruct (Rltb (pub p) x); auto. Qed.

Lemma ev_inside : forall w yb lb ub y ya rest x, 0 <= w -> lb <= x <= ub ->
  (yb <> y -> lb + w <= x) -> (ya <> y -> x <= ub - w) ->
  ev (approx_one w yb ((lb, ub), y) ya ++ rest) x = y.
Proof.
  intros w yb lb ub y ya rest x Hw Hx H1 H2. unfold approx_one. rewrite !half_R. rnum.
  assert (yb = y \/ yb <> y) as CB by (destruct (Req_EM_T yb y); auto).
  assert (ya = y \/ ya <> y) as CA by (destruct (Req_EM_T ya y); auto).
  assert ((y + y) / 2 = y) as HY by lra.
  destruct (Rltb_spec (ub - lb) (2 * w)) as [L|L]; cbn [app]; rewrite !ev_cons; unfold pub; cbn [fst snd].
  - destruct (Rltb_spec ((ub + lb) / 2) x) as [L1|L1].
    + rewrite (Rltb_false ub x) by lra. destruct CA as [->|CA]; [|specialize (H2 CA); lra].
      rewrite ?HY. apply piece_const.
    + destruct CB as [->|CB]; [|specialize (H1 CB); lra]. rewrite ?HY. apply piece_const.
  - destruct (Rltb_spec (lb + w) x) as [L1|L1].
    + destruct (Rltb_spec (ub - w) x) as [L2|L2].
      * rewrite (Rltb_false ub x) by lra. destruct CA as [->|CA]; [|specialize (H2 CA); lra].
        rewrite ?HY. apply piece_const.
      * apply piece_const.
    + destruct CB as [->|CB].
      * rewrite ?HY. apply piece_const.
      * specialize (H1 CB). assert (x = lb + w) as -> by lra. unfold piece_value. rnum.
        destruct (Reqb_spec (lb + w - lb) 0); auto. field. lra.
Qed.

Lemma ev_skip : forall w yb lb ub y ya rest x, 0 <= w -> lb <= ub -> ub < x ->
  ev (approx_one w yb ((lb, ub), y) ya ++ rest) x = ev rest x.
Proof.
  intros w yb lb ub y ya rest x Hw Hl Hx. unfold approx_one. rewrite !half_R. rnum.
  destruct (Rltb_spec (ub - lb) (2 * w)) as [L|L]; cbn [app]; rewrite !ev_cons; unfold pub; cbn [fst snd];
    rewrite !Rltb_true by lra; auto.
Qed.

Lemma ev_far : forall w lst xs ys x_lb yb x v, 0 < w -> length ys = length xs -> (2 <= length xs)%nat ->
  StronglySorted Rle xs -> x_lb <= nth 0 xs 0 -> x_lb <= x ->
  (x <= nth 0 xs 0 /\ v = nth 0 ys 0) \/ (exists i, nth_error xs i = Some x /\ nth_error ys i = Some v) ->
  lst = last ys 0 -> (yb <> nth 0 ys 0 -> x_lb + w <= x) ->
  (forall k m, (S (S k) < length xs)%nat -> jump xs ys k m -> w <= Rabs (x - m)) ->
  (forall k m, S (S k) = length xs -> jump xs ys k m -> x + w <= last xs 0) ->
  ev (approx_intervals w yb lst (interval_bounds x_lb (nth 0 ys 0) xs ys)) x = v.
Proof.
  intros w lst. induction xs as [|x0 xs IH]; intros ys x_lb yb x v Hw HL H2 HS HB HX HV Hlst HY HJ HE.
  { simpl in H2. lia. }
  destruct xs as [|x1 xs]; [simpl in H2; lia|].
  destruct ys as [|y0 [|y1 yr]]; try discriminate. cbn [nth] in *.
  inversion HS as [|? ? S1 S2]; subst. inversion S2 as [|? ? HS1 S3]; subst.
  destruct yr as [|y2 yr].
  - (* two rows left *)
    destruct xs; [|discriminate]. cbn [interval_bounds approx_intervals last snd].
    assert (y0 <> y1 -> x + w <= x1) as HE'.
    { intros NE. apply (HE 0%nat ((x0 + x1) / 2) eq_refl). exists x0, x1, y0, y1. simpl. repeat split; auto. }
    assert (x <= x1 /\ v = y0) as [HX1 ->].
    { destruct HV as [[V1 ->]|[i [I1 I2]]]; [split; auto; lra|].
      destruct i as [|[|i]]; simpl in I1, I2; try (destruct i; discriminate).
      - injection I1 as ->. injection I2 as ->. split; auto.
      - injection I1 as ->. injection I2 as ->. split; [lra|].
        destruct (Req_EM_T y0 v) as [|NE]; auto. specialize (HE' NE). lra. }
    apply ev_inside; auto; try lra; intros NE; assert (y0 <> y1) as NE' by congruence; specialize (HE' NE'); lra.
  - rewrite bounds_eq.
    assert (forall k m, (S (S k) < length (x1 :: xs))%nat -> jump (x1 :: xs) (y1 :: y2 :: yr) k m -> w <= Rabs (x - m)) as HJ'.
    { intros k m Hk [t [t' [y [y' J]]]]. apply (HJ (S k) m); [simpl in *; lia|]. exists t, t', y, y'. exact J. }
    assert (forall k m, S (S k) = length (x1 :: xs) -> jump (x1 :: xs) (y1 :: y2 :: yr) k m -> x + w <= last (x1 :: xs) 0) as HE'.
    { intros k m Hk [t [t' [y [y' J]]]]. apply (HE (S k) m); [simpl in *; lia|]. exists t, t', y, y'. exact J. }
    assert (length (y1 :: y2 :: yr) = length (x1 :: xs)) as HL' by (simpl in *; lia).
    assert (2 <= length (x1 :: xs))%nat as H2' by (simpl in *; lia).
    destruct (Reqb_spec y0 y1) as [->|NE].
    + apply (IH (y1 :: y2 :: yr)); auto.
      * cbn [nth]. lra.
      * cbn [nth]. destruct HV as [[V1 ->]|[i [I1 I2]]]; [left; split; auto; lra|].
        destruct i as [|i].
        -- simpl in I1, I2. injection I1 as ->. injection I2 as ->. left. split; auto.
        -- right. exists i. auto.
    + set (m := (x0 + x1) / 2).
      assert (w <= Rabs (x - m)) as HM.
      { apply (HJ 0%nat m); [simpl in *; lia|]. exists x0, x1, y0, y1. simpl. repeat split; auto. }
      cbn [approx_intervals snd].
      assert (m <= x1 /\ x0 <= m) as [M1 M2] by (unfold m; lra).
      destruct (Rlt_le_dec x m) as [C|C].
      * rewrite Rabs_left in HM by lra.
        assert (v = y0) as ->.
        { destruct HV as [[_ ->]|[[|i] [I1 I2]]]; auto.
          - simpl in I2. congruence.
          - exfalso. simpl in I1. assert (x1 <= x); [|lra]. destruct i as [|i]; [simpl in I1; injection I1 as ->; lra|].
            inversion S1 as [|? ? _ S4]; subst. rewrite Forall_forall in S4. apply S4.
            apply (nth_error_In xs i). exact I1. }
        apply ev_inside; auto; lra.
      * rewrite Rabs_right in HM by lra. rewrite ev_skip by lra.
        apply (IH (y1 :: y2 :: yr)); auto; cbn [nth]; try lra.
        destruct HV as [[V1 ->]|[[|i] [I1 I2]]].
        -- exfalso. lra.
        -- exfalso. simpl in I1. injection I1 as ->. lra.
        -- right. exists i. auto.
Qed.

Lemma jump_shift : forall xs ys k m t0, jump (map (fun t => t - t0) xs) ys k m <-> jump xs ys k (m + t0).
Proof.
  intros xs ys k m t0. unfold jump. split.
  - intros [t [t' [y [y' [J1 [J2 J]]]]]]. rewrite nth_error_map in J1, J2.
    destruct (nth_error xs k) as [u|]; [|discriminate]. destruct (nth_error xs (S k)) as [u'|]; [|discriminate].
    simpl in J1, J2. injection J1 as <-. injection J2 as <-. exists u, u', y, y'. intuition lra.
  - intros [t [t' [y [y' [J1 [J2 J]]]]]]. exists (t - t0), (t' - t0), y, y'. rewrite !nth_error_map, J1, J2. simpl.
    intuition lra.
Qed.

Lemma last_map_sub : forall l (t0 : R), l <> [] -> last (map (fun t => t - t0) l) 0 = last l 0 - t0.
Proof.
  induction l as [|a l IH]; intros t0 H; [congruence|]. destruct l as [|b l]; auto.
  change (last (map (fun t => t - t0) (a :: b :: l)) 0) with (last (map (fun t => t - t0) (b :: l)) 0).
  change (last (a :: b :: l) 0) with (last (b :: l) 0). apply IH. discriminate.
Qed.

(** C54: smoothing keeps the values that are far from the jumps: if row [i] is at least
    the time span away from the middle of each jump, its value is kept.  The last jump
    counts from the last row (see [smooth_end_refuted]). *)
Theorem smooth_far_partial : forall span times ys i t v, 0 < span -> in_order times ->
  length ys = length times -> (2 <= length times)%nat ->
  nth_error times i = Some t -> nth_error ys i = Some v ->
  (forall k m, (S (S k) < length times)%nat -> jump times ys k m -> span <= Rabs (t - m)) ->
  (forall k m, S (S k) = length times -> jump times ys k m -> t + span <= last times 0) ->
  exists ys', smooth_field span times ys = Ok ys' /\ nth_error ys' i = Some v.
Proof.
  intros span times ys i t v Hw HO HL H2 Ht Hv HJ HE.
  destruct (smooth_field_pieces span times ys HO HL H2) as [t0 [y0 [tr [yr [p [ps [E1 [E2 [E3 [E4 E5]]]]]]]]]].
  eexists. split; [exact E5|]. rewrite nth_error_map, Ht. cbn [option_map]. f_equal.
  fold (ev (p :: ps) (t - t0)). rewrite <- E3.
  set (xs := map (fun t => t - t0) times).
  assert (nth 0 xs 0 = 0) as X0 by (unfold xs; rewrite E1; simpl; lra).
  assert (nth 0 ys 0 = y0) as Y0 by (rewrite E2; auto).
  assert (last ys y0 = last ys 0) as LY.
  { rewrite E2. apply last_default. }
  pose proof (ev_far span (last ys y0) xs ys 0 y0 (t - t0) v) as Q. rewrite Y0 in Q.
  apply Q; auto; try (unfold xs; rewrite map_length; auto; fail).
  - unfold xs. unfold in_order in HO. clear - HO. induction HO as [|a l S IH FA]; simpl; constructor; auto.
    apply Forall_forall. intros z Hz. apply in_map_iff in Hz. destruct Hz as [u [<- Hu]].
    rewrite Forall_forall in FA. specialize (FA u Hu). lra.
  - lra.
  - assert (t0 <= t); [|lra]. rewrite E1 in HO, Ht. destruct i as [|i]; [simpl in Ht; injection Ht as ->; lra|].
    simpl in Ht. inversion HO as [|? ? _ FA]; subst. rewrite Forall_forall in FA. apply FA. eapply nth_error_In; eauto.
  - right. exists i. unfold xs. rewrite nth_error_map, Ht. auto.
  - congruence.
  - intros k m Hk J. unfold xs in J. apply jump_shift in J. unfold xs in Hk. rewrite map_length in Hk.
    replace (t - t0 - m) with (t - (m + t0)) by lra. apply (HJ k); auto.
  - intros k m Hk J. unfold xs in J, Hk |- *. apply jump_shift in J. rewrite map_length in Hk.
    rewrite last_map_sub by (rewrite E1; discriminate). specialize (HE k _ Hk J). lra.
Qed.
Print Assumptions smooth_far_partial.

(** C54: for time stamps in order smoothing succeeds; it changes only the float columns,
    keeps the number of rows, and keeps every range the column lies in. *)
Theorem smooth_table : forall span d, in_order (sm_time d) -> (2 <= length (sm_time d))%nat -> sm_rect d ->
  exists d', affine_smooth span d = Ok d' /\ sm_time d' = sm_time d /\
    map fst (sm_cols d') = map fst (sm_cols d) /\
    (forall i k l, nth_error (sm_cols d) i = Some (k, OtherCol l) -> nth_error (sm_cols d') i = Some (k, OtherCol l)) /\
    (forall i k l, nth_error (sm_cols d) i = Some (k, FloatCol l) ->
       exists l', nth_error (sm_cols d') i = Some (k, FloatCol l') /\ length l' = length l /\
         smooth_field span (sm_time d) l = Ok l' /\
         forall m M, (forall y, In y l -> m <= y <= M) -> forall y, In y l' -> m <= y <= M).
Proof.
  intros span d HO H2 HR. unfold affine_smooth.
  assert ((match sm_time d with [] => false | t0 :: _ => existsb (fun t => (t <? t0)%num) (sm_time d) end) = false) as ->.
  { destruct (sm_time d) as [|t0 ts]; auto. destruct (existsb _ _) eqn:E; auto. exfalso.
    apply existsb_exists in E. destruct E as [t [Ht1 Ht2]]. rnum. destruct (Rltb_spec t t0); [|discriminate].
    destruct Ht1 as [<-|Ht1]; [lra|]. inversion HO as [|? ? _ FA]; subst. rewrite Forall_forall in FA.
    specialize (FA t Ht1). lra. }
  set (f := fun kc : string * smcol => match snd kc with
              | FloatCol l => do l' <- smooth_field span (sm_time d) l; Ok (fst kc, FloatCol l')
              | OtherCol _ => Ok kc end).
  assert (forall cs, (forall k c, In (k, c) cs -> smcol_len c = length (sm_time d)) ->
    exists cs', mapM f cs = Ok cs' /\ map fst cs' = map fst cs /\
      (forall i k l, nth_error cs i = Some (k, OtherCol l) -> nth_error cs' i = Some (k, OtherCol l)) /\
      (forall i k l, nth_error cs i = Some (k, FloatCol l) -> exists l', nth_error cs' i = Some (k, FloatCol l') /\
         length l' = length l /\ smooth_field span (sm_time d) l = Ok l' /\
         forall m M, (forall y, In y l -> m <= y <= M) -> forall y, In y l' -> m <= y <= M)) as G.
  { induction cs as [|[k c] cs IH]; intros HC.
    - exists []. split; auto. split; auto. split; intros i k l H; destruct i; discriminate.
    - destruct IH as [cs' [I1 [I2 [I3 I4]]]]. { intros. apply (HC k0). simpl; auto. }
      assert (smcol_len c = length (sm_time d)) as LC by (apply (HC k); simpl; auto).
      cbn [mapM]. destruct c as [l|l].
      + destruct (smooth_field_range span (sm_time d) l (- (Rsum (map Rabs l))) (Rsum (map Rabs l)) HO LC H2) as [l' [L1 [L2 _]]].
        { assert (forall q : list R, 0 <= Rsum (map Rabs q)) as P.
          { induction q as [|a q IHq]; simpl; [lra|]. pose proof (Rabs_pos a). lra. }
          clear - P. induction l as [|a l IHl]; intros y Hy; [contradiction|]. simpl.
          pose proof (Rabs_pos a). specialize (P l). destruct Hy as [->|Hy].
          - unfold Rabs in *. destruct (Rcase_abs y); lra.
          - specialize (IHl y Hy). lra. }
        unfold f at 1. cbn [fst snd]. rewrite L1. cbn [rbind]. rewrite I1. cbn [rbind].
        exists ((k, FloatCol l') :: cs'). split; auto. split; [simpl; congruence|]. split.
        * intros [|i] k0 l0 Hi; [discriminate|]. apply I3. exact Hi.
        * intros [|i] k0 l0 Hi; [|apply I4; exact Hi]. simpl in Hi. injection Hi as <- <-.
          exists l'. split; auto. split; auto. split; auto. intros m M Hm y Hy.
          destruct (smooth_field_range span (sm_time d) l m M HO LC H2 Hm) as [l'' [Q1 [_ Q2]]].
          rewrite L1 in Q1. injection Q1 as <-. auto.
      + unfold f at 1. cbn [snd rbind]. rewrite I1. cbn [rbind]. exists ((k, OtherCol l) :: cs').
        split; auto. split; [simpl; congruence|]. split.
        * intros [|i] k0 l0 Hi; [exact Hi|]. apply I3. exact Hi.
        * intros [|i] k0 l0 Hi; [discriminate|]. apply I4. exact Hi. }
  destruct (G (sm_cols d) HR) as [cs' [G1 [G2 [G3 G4]]]]. rewrite G1. cbn [rbind].
  exists (mkSm (sm_time d) cs'). split; auto.
Qed.
Print Assumptions smooth_table.

(** C54: a constant column is unchanged. *)
Theorem smooth_constant : forall span times n y, in_order times -> length times = n -> (2 <= n)%nat ->
  smooth_field span times (repeat y n) = Ok (repeat y n).
Proof.
  intros span times n y HO HL H2.
  destruct (smooth_field_range span times (repeat y n) y y HO) as [l' [L1 [L2 L3]]].
  - rewrite repeat_length. auto.
  - lia.
  - intros z Hz. apply repeat_spec in Hz. lra.
  - rewrite L1. f_equal. rewrite repeat_length in L2. clear - L2 L3. revert n L2.
    induction l' as [|a l' IH]; intros [|n] H; try discriminate; auto. simpl. f_equal.
    + specialize (L3 a (or_introl eq_refl)). lra.
    + apply IH; auto. intros z Hz. apply L3. simpl; auto.
Qed.
Print Assumptions smooth_constant.

(** C54: a time stamp before the first one is refused. *)
Theorem smooth_rejects : forall span d t0 ts t, sm_time d = t0 :: ts -> In t ts -> t < t0 ->
  affine_smooth span d = Raise ValueError.
Proof.
  intros span d t0 ts t E HI L. unfold affine_smooth. rewrite E.
  assert (existsb (fun t => (t <? t0)%num) (t0 :: ts) = true) as ->; auto.
  apply existsb_exists. exists t. split; [simpl; auto|]. apply Rltb_true. auto.
Qed.
Print Assumptions smooth_rejects.

Lemma smooth_points_length : forall xs cur rest (ys : list R),
  length (smooth_points cur rest xs ys) = length ys.
Proof.
  induction xs as [|x xs IH]; intros cur rest [|y ys]; auto. cbn [smooth_points].
  destruct (advance x cur rest) as [[c r]|]; auto. simpl. rewrite IH. reflexivity.
Qed.

(** C54: whatever the order of the time stamps, a smoothing that succeeds keeps the
    time stamps, the columns and the number of entries of every column, and changes
    float columns only. *)
Theorem smooth_keeps_rows : forall span (d d' : smdata (T := R)), affine_smooth span d = Ok d' ->
  sm_time d' = sm_time d /\
  Forall2 (fun c c' => fst c' = fst c /\ smcol_len (snd c') = smcol_len (snd c) /\
             forall l, snd c = OtherCol l -> c' = c) (sm_cols d) (sm_cols d').
Proof.
  intros span d d' H. unfold affine_smooth in H.
  destruct (match sm_time d with [] => false | t0 :: _ => existsb (fun t => (t <? t0)%num) (sm_time d) end);
    [discriminate|].
  destruct (mapM _ (sm_cols d)) as [cs|] eqn:E; [|discriminate]. cbn [rbind] in H. injection H as <-.
  cbn [sm_time sm_cols]. split; auto. revert cs E.
  induction (sm_cols d) as [|[k c] r IH]; intros cs E; cbn [mapM] in E.
  - injection E as <-. constructor.
  - cbn [fst snd] in E. destruct c as [l|l].
    + destruct (smooth_field span (sm_time d) l) as [l'|] eqn:F; [|discriminate]. cbn [rbind] in E.
      destruct (mapM _ r) as [r'|] eqn:G; [|discriminate]. cbn [rbind] in E. injection E as <-.
      constructor; [|apply IH; auto]. cbn [fst snd smcol_len]. split; auto. split; [|discriminate].
      unfold smooth_field in F. destruct (sm_time d) as [|t0 ts]; [discriminate|].
      destruct l as [|y0 ys]; [discriminate|].
      destruct (approx_intervals _ _ _ _) as [|p ps]; [discriminate|]. injection F as <-.
      exact (smooth_points_length (map (fun t => t - t0) (t0 :: ts)) p ps (y0 :: ys)).
    + cbn [rbind] in E. destruct (mapM _ r) as [r'|] eqn:G; [|discriminate]. cbn [rbind] in E. injection E as <-.
      constructor; [|apply IH; auto]. auto.
Qed.
Print Assumptions smooth_keeps_rows.

(** The lazy smoother changes nothing. *)
Theorem smooth_lazy : forall d : smdata (T := R), lazy_smooth d = d.
Proof. reflexivity. Qed.
Print Assumptions smooth_lazy.

Ltac rcompute := repeat (first
  [ rewrite Rltb_true by lra | rewrite Rltb_false by lra
  | rewrite Reqb_true by lra | rewrite Reqb_false by lra ]; cbn beta iota).

(** A log of four rows with one jump. *)
Definition log_times : list R := [0; 100; 200; 300].
Definition log_values : list R := [2; 2; 4; 4].
Lemma log_in_order : in_order log_times.
Proof. unfold log_times. repeat constructor; lra. Qed.

Example smooth_table_meets : in_order log_times /\
  sm_rect (mkSm log_times [("bsp", FloatCol log_values); ("name", OtherCol [VInt 1; VInt 2; VInt 3; VInt 4])]).
Proof.
  split; [apply log_in_order|]. intros k c [E|[E|[]]]; injection E as <- <-; reflexivity.
Qed.

Example smooth_far_meets : 0 < 30 /\ nth_error log_times 1 = Some 100 /\ nth_error log_values 1 = Some 2 /\
  (forall k m, (S (S k) < length log_times)%nat -> jump log_times log_values k m -> 30 <= Rabs (100 - m)) /\
  (forall k m, S (S k) = length log_times -> jump log_times log_values k m -> 100 + 30 <= last log_times 0).
Proof.
  split; [lra|]. split; auto. split; auto. split.
  - intros k m Hk [t [t' [y [y' [J1 [J2 [J3 [J4 [J5 ->]]]]]]]]].
    destruct k as [|[|[|k]]]; simpl in *; try lia; injection J1 as <-; injection J2 as <-;
      injection J3 as <-; injection J4 as <-; try lra. rewrite Rabs_left by lra. lra.
  - intros k m Hk _. simpl. lra.
Qed.

(** C54, refuted part: data that is not chronological is accepted, and values outside of
    the range of the column arise. *)
Theorem smooth_unordered_refuted : exists span times ys ys' y,
  ~ in_order times /\ affine_smooth span (mkSm times [("bsp", FloatCol ys)]) = Ok (mkSm times [("bsp", FloatCol ys')]) /\
  In y ys' /\ forall z, In z ys -> z < y.
Proof.
  exists 200, [0; 200; 100; 300], [1; 1; 1; 0], [1; 5 / 6; 7 / 6; 1 / 2], (7 / 6).
  split. { intros HO. unfold in_order in HO. inversion HO as [|? ? S _]; subst. inversion S as [|? ? _ FA]; subst.
           rewrite Forall_forall in FA. specialize (FA 100). simpl in FA. specialize (FA ltac:(auto)). lra. }
  split.
  - unfold affine_smooth. cbn [sm_time sm_cols existsb mapM fst snd]. rnum. rcompute. cbn [orb].
    unfold smooth_field. cbn [map nth interval_bounds last]. rnum. rcompute.
    cbn [interval_bounds]. rnum. rcompute.
    cbn [approx_intervals]. unfold approx_one. cbn [snd app]. rewrite !half_R. rnum. rcompute. cbn [app].
    do 6 (cbn [smooth_points advance fst snd]; rnum; rcompute).
    unfold piece_value. rnum. rcompute. cbn [rbind]. do 2 f_equal.
    apply (f_equal2 (@cons _)); [|reflexivity]. do 2 f_equal.
    repeat apply (f_equal2 (@cons R)); try reflexivity; field.
  - split; [simpl; auto|]. intros z Hz. simpl in Hz. destruct Hz as [<-|[<-|[<-|[<-|[]]]]]; lra.
Qed.
Print Assumptions smooth_unordered_refuted.

(** C54, refuted part: the last jump is smeared up to the end of the data, so that the
    last value changes even if it is far from every jump. *)
Theorem smooth_end_refuted : exists span times ys i t v ys',
  0 < span /\ in_order times /\ nth_error times i = Some t /\ nth_error ys i = Some v /\
  (forall k m, jump times ys k m -> span <= Rabs (t - m)) /\
  smooth_field span times ys = Ok ys' /\ nth_error ys' i <> Some v.
Proof.
  exists 30, [0; 100; 200; 300], [2; 2; 2; 4], 3%nat, 300, 4, [2; 2; 2; 3].
  split; [lra|]. split; [apply log_in_order|]. split; auto. split; auto. split; [|split].
  - intros k m [t [t' [y [y' [J1 [J2 [J3 [J4 [J5 ->]]]]]]]]].
    destruct k as [|[|[|[|k]]]]; simpl in *; try discriminate; try (destruct k; discriminate);
      injection J1 as <-; injection J2 as <-; injection J3 as <-; injection J4 as <-; try lra.
    rewrite Rabs_right by lra. lra.
  - unfold smooth_field. cbn [map nth interval_bounds last]. rnum. rcompute.
    cbn [interval_bounds]. rnum. rcompute. cbn [interval_bounds]. rnum. rcompute.
    cbn [approx_intervals]. unfold approx_one. cbn [snd app]. rewrite !half_R. rnum. rcompute. cbn [app].
    do 6 (cbn [smooth_points advance fst snd]; rnum; rcompute).
    unfold piece_value. rnum. rcompute. f_equal.
    repeat apply (f_equal2 (@cons R)); try reflexivity; field.
  - simpl. intros H. injection H as H. lra.
Qed.
Print Assumptions smooth_end_refuted.

(** C54, refuted part: a single row raises IndexError. *)
Theorem smooth_single_refuted : forall span t y k,
  affine_smooth span (mkSm [t] [(k, FloatCol [y])]) = Raise IndexError.
Proof.
  intros. unfold affine_smooth. cbn [sm_time sm_cols existsb mapM fst snd]. rnum.
  rewrite Rltb_false by lra. reflexivity.
Qed.
Print Assumptions smooth_single_refuted.

Example smooth_constant_meets : in_order log_times /\ length log_times = 4%nat.
Proof. split; [apply log_in_order|auto]. Qed.
