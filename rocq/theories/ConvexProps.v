(** * Properties C75 and C99: [convex_direction] *)

From Coq Require Import String List Bool Arith ZArith Reals Lra Lia Psatz Sorted Permutation.
From Verif Require Import Py Num Trig PySort ListX InterpModel GlobeModel GlobeProofs CruiseModel CruiseSpec ConvexProofs.
Import ListNotations.
Open Scope R_scope.

(** ** The list of corners *)

Lemma sorted_corners : forall vs, NoDup vs -> StronglySorted lt (py_sorted Nat.leb vs).
Proof.
  intros vs ND.
  assert (StronglySorted (leP Nat.leb) (py_sorted Nat.leb vs)) as S.
  { apply py_sorted_sorted.
    - intros x y. destruct (Nat.leb_spec x y); auto. right. apply Nat.leb_le. lia.
    - intros x y z X Y. apply Nat.leb_le in X. apply Nat.leb_le in Y. apply Nat.leb_le. lia. }
  assert (NoDup (py_sorted Nat.leb vs)) as N.
  { eapply Permutation_NoDup; [symmetry; apply py_sorted_perm|auto]. }
  revert S N. generalize (py_sorted Nat.leb vs). intros l S. induction S as [|x l S IH F]; intros N; constructor.
  - apply IH. inversion N; auto.
  - rewrite Forall_forall in *. intros y Y. specialize (F y Y). unfold leP in F. apply Nat.leb_le in F.
    inversion N; subst. assert (x <> y) by congruence. lia.
Qed.

Lemma find_pair_some : forall wa dir vert l r, find_pair wa dir vert = Some (l, r) ->
  (exists pre post, vert = pre ++ l :: r :: post) /\ nth l wa 0 <= dir <= nth r wa 0.
Proof.
  intros wa dir. induction vert as [|x vert IH]; intros l r E; [discriminate|].
  destruct vert as [|y vert]; [discriminate|]. cbn [find_pair] in E.
  destruct (Rleb_spec (nth x wa 0) dir) as [A|A]; [destruct (Rleb_spec dir (nth y wa 0)) as [B|B]|]; cbn [andb] in E.
  - injection E as <- <-. split; auto. exists [], vert. reflexivity.
  - destruct (IH _ _ E) as [[pre [post ->]] K]. split; auto. exists (x :: pre), post. reflexivity.
  - destruct (IH _ _ E) as [[pre [post ->]] K]. split; auto. exists (x :: pre), post. reflexivity.
Qed.

Lemma find_pair_none : forall wa dir vert x l, find_pair wa dir (x :: vert ++ [l]) = None ->
  nth x wa 0 <= dir -> nth l wa 0 < dir.
Proof.
  intros wa dir. induction vert as [|y vert IH]; intros x l E H; cbn [app find_pair] in E.
  - rewrite Rleb_true in E by auto. destruct (Rleb_spec dir (nth l wa 0)); [discriminate|lra].
  - rewrite Rleb_true in E by auto. destruct (Rleb_spec dir (nth y wa 0)) as [B|B]; [discriminate|].
    cbn [andb] in E. apply (IH y l); auto. lra.
Qed.

Definition polar_pts (wa bsp : list R) : list vec := map (fun p => polar_pt (fst p) (snd p)) (combine wa bsp).

Lemma polar_pts_nth : forall wa bsp i, length bsp = length wa -> (i < length wa)%nat ->
  nth_error (polar_pts wa bsp) i = Some (velocity (nth i wa 0) (nth i bsp 0)).
Proof.
  intros wa bsp i L I. unfold polar_pts. rewrite nth_error_map.
  rewrite (nth_error_nth' _ _ i (0, 0)) by (rewrite combine_length; lia). cbn [option_map].
  rewrite combine_nth by auto. reflexivity.
Qed.

Lemma sorted_nth_lt : forall wa i j, StronglySorted Rlt wa -> (i < j)%nat -> (j < length wa)%nat ->
  nth i wa 0 < nth j wa 0.
Proof.
  intros wa i j S L B. apply (StronglySorted_nth _ _ _ S i j); auto; apply nth_error_nth'; lia.
Qed.
Lemma sorted_nth_le : forall wa i j, StronglySorted Rlt wa -> (i <= j)%nat -> (j < length wa)%nat ->
  nth i wa 0 <= nth j wa 0.
Proof.
  intros wa i j S L B. destruct (Nat.eq_dec i j) as [->|]; [lra|]. left. apply sorted_nth_lt; auto. lia.
Qed.

Lemma all_round_other : forall pts p, all_round pts -> exists q, In q pts /\ q <> p.
Proof.
  intros pts [x y] A.
  assert (exists u, u <> (0, 0) /\ vdot u (x, y) <= 0) as [u [U1 U2]].
  { destruct (Req_dec x 0) as [->|X]; [destruct (Req_dec y 0) as [->|Y]|].
    - exists (1, 0). split; [intros E; injection E; lra|]. unfold vdot. cbn. lra.
    - exists (0, - y). split; [intros E; injection E; lra|]. unfold vdot. cbn. nra.
    - exists (- x, - y). split; [intros E; injection E; lra|]. unfold vdot. cbn. nra. }
  destruct (A u U1) as [q [Q1 Q2]]. exists q. split; auto. intros ->. lra.
Qed.

Lemma first_proportion_swap : forall p1 p2 dir lam, vdet p1 p2 <> 0 ->
  first_proportion p1 p2 dir = Ok (Some lam) -> first_proportion p2 p1 dir = Ok (Some (1 - lam)).
Proof.
  intros p1 p2 dir lam D E. rewrite first_proportion_det in E by auto.
  assert (vdet p2 p1 = - vdet p1 p2) as S by (unfold vdet; ring).
  rewrite first_proportion_det by lra. set (u := heading_vec dir) in *.
  assert (vdet u p1 / vdet p2 p1 = vdet p1 u / vdet p1 p2) as E1.
  { rewrite S. replace (vdet u p1) with (- vdet p1 u) by (unfold vdet; ring). field. auto. }
  assert (vdet p2 u / vdet p2 p1 = vdet u p2 / vdet p1 p2) as E2.
  { rewrite S. replace (vdet p2 u) with (- vdet u p2) by (unfold vdet; ring). field. auto. }
  rewrite E1, E2. destruct (Reqb_spec (vdet u p2 / vdet p1 p2 + vdet p1 u / vdet p1 p2) 0) as [|N]; [discriminate|].
  injection E as <-. rewrite Rplus_comm. rewrite Reqb_false by auto. f_equal. f_equal. field.
  split; auto. intros Z. apply N.
  replace (vdet u p2 / vdet p1 p2 + vdet p1 u / vdet p1 p2) with ((vdet p1 u + vdet u p2) / vdet p1 p2) by (field; auto).
  replace (vdet p1 u + vdet u p2) with 0 by lra. unfold Rdiv. ring.
Qed.

(** ** The assumptions on the slice *)

(** Wind angles strictly increasing in [0, 360), no negative speeds, and the boat
    can make way in every direction. *)
Definition good_slice (wa bsp : list R) : Prop :=
  length bsp = length wa /\ StronglySorted Rlt wa /\ Forall (fun a => 0 <= a < 360) wa /\
  Forall (fun b => 0 <= b) bsp /\ all_round (polar_pts wa bsp).

Section Good.
  Variables (wa bsp : list R) (vs : list nat).
  Hypothesis GOOD : good_slice wa bsp.
  Hypothesis HULL : hull_of (polar_pts wa bsp) vs.

  Let pts := polar_pts wa bsp.
  Let corners := map (fun i => nth i pts (0, 0)) vs.

  Lemma corner_index : forall i, In i vs -> (i < length wa)%nat /\
    nth i pts (0, 0) = velocity (nth i wa 0) (nth i bsp 0) /\ In (nth i pts (0, 0)) pts /\ 0 < nth i bsp 0 /\
    exists n, forall q, In q pts -> q <> nth i pts (0, 0) -> vdot n q < vdot n (nth i pts (0, 0)).
  Proof.
    intros i I. destruct GOOD as [L [S [B [P A]]]]. destruct HULL as [ND [EX CO]].
    destruct (EX i I) as [p [n [N X]]]. fold pts in N, X.
    assert (i < length wa)%nat as IL.
    { assert (i < length pts)%nat as K by (apply nth_error_Some; congruence).
      unfold pts, polar_pts in K. rewrite map_length, combine_length in K. lia. }
    pose proof (polar_pts_nth wa bsp i L IL) as E. fold pts in E.
    rewrite (nth_error_nth _ _ _ N). assert (p = velocity (nth i wa 0) (nth i bsp 0)) as -> by congruence.
    split; auto. split; auto. split; [eapply nth_error_In; eauto|]. split; [|exists n; auto].
    assert (0 < vdot n (velocity (nth i wa 0) (nth i bsp 0))) as C.
    { eapply corner_positive; eauto. apply all_round_other. auto. }
    assert (0 <= nth i bsp 0) as NN.
    { rewrite Forall_forall in P. apply P. apply nth_In. lia. }
    destruct (Req_dec (nth i bsp 0) 0) as [Z|]; [|lra]. exfalso. rewrite Z in C.
    unfold velocity in C. rewrite vdot_scale_r in C. lra.
  Qed.

  Lemma corners_in : forall q, In q corners -> In q pts.
  Proof. intros q I. apply in_map_iff in I. destruct I as [i [<- I]]. apply corner_index. auto. Qed.

  Lemma index_range : forall i, In i vs -> 0 <= nth i wa 0 < 360.
  Proof.
    intros i I. destruct GOOD as [L [S [B [P A]]]]. rewrite Forall_forall in B. apply B. apply nth_In.
    apply corner_index. auto.
  Qed.

  (** What neighbouring corners with the direction in between give. *)
  Lemma edge_best : forall i1 i2 t1 t2 dir dir', In i1 vs -> In i2 vs ->
    nth i1 pts (0, 0) = velocity t1 (nth i1 bsp 0) -> nth i2 pts (0, 0) = velocity t2 (nth i2 bsp 0) ->
    neighbours corners t1 t2 -> t1 <= dir' <= t2 -> heading_vec dir' = heading_vec dir ->
    t2 - t1 < 180 /\
    exists lam c, vdet (nth i1 pts (0, 0)) (nth i2 pts (0, 0)) <> 0 /\
      first_proportion (nth i1 pts (0, 0)) (nth i2 pts (0, 0)) dir = Ok (Some lam) /\ 0 <= lam <= 1 /\ 0 < c /\
      vadd2 (vscale lam (nth i1 pts (0, 0))) (vscale (1 - lam) (nth i2 pts (0, 0))) = velocity dir c /\
      best pts dir c.
  Proof.
    intros i1 i2 t1 t2 dir dir' J1 J2 E1 E2 NB HD HV.
    pose proof GOOD as [L [S [B [P A]]]]. pose proof HULL as [ND [EX CO]].
    pose proof (neighbours_gap pts corners t1 t2 A CO NB) as G. split; auto.
    destruct (corner_index i1 J1) as [IL1 [_ [IN1 [P1 [n1 X1]]]]].
    destruct (corner_index i2 J2) as [IL2 [_ [IN2 [P2 [n2 X2]]]]].
    rewrite E1, E2 in *.
    destruct (neighbours_support pts corners t1 t2 _ _ n1 n2 A CO NB P1 P2 corners_in IN1 IN2 X1 X2) as [D [n [N1 [N2 SUP]]]].
    destruct (cone_proportion (velocity t1 (nth i1 bsp 0)) (velocity t2 (nth i2 bsp 0)) dir' D) as [lam [c [F [HL [HC W]]]]].
    - replace (heading_vec dir') with (velocity dir' 1) by (unfold velocity, vscale; destruct (heading_vec dir'); cbn; f_equal; ring).
      rewrite velocity_det. assert (0 <= sin (deg2rad (t2 - dir'))) by (apply sin_deg_nonneg; lra). nra.
    - replace (heading_vec dir') with (velocity dir' 1) by (unfold velocity, vscale; destruct (heading_vec dir'); cbn; f_equal; ring).
      rewrite velocity_det. assert (0 <= sin (deg2rad (dir' - t1))) by (apply sin_deg_nonneg; lra). nra.
    - exists lam, c. split; [lra|].
      assert (velocity dir' c = velocity dir c) as V by (unfold velocity; rewrite HV; reflexivity).
      assert (first_proportion (velocity t1 (nth i1 bsp 0)) (velocity t2 (nth i2 bsp 0)) dir = Ok (Some lam)) as F'.
      { rewrite first_proportion_det in F |- * by lra. rewrite HV in F. exact F. }
      split; auto. split; auto. split; auto. rewrite <- V. split; auto.
      eapply (support_best pts _ _ n lam dir c IN1 IN2 HL HC N1 N2 SUP). rewrite <- V. exact W.
  Qed.

  (** The search for the edge succeeds and finds neighbouring corners around the
      direction. *)
  Lemma find_edge_good : forall dir, 0 <= dir < 360 ->
    exists i1 i2, find_edge wa dir vs = Ok (i1, i2) /\ In i1 vs /\ In i2 vs /\
    exists lam c,
      first_proportion (nth i1 pts (0, 0)) (nth i2 pts (0, 0)) dir = Ok (Some lam) /\ 0 <= lam <= 1 /\ 0 < c /\
      vadd2 (vscale lam (nth i1 pts (0, 0))) (vscale (1 - lam) (nth i2 pts (0, 0))) = velocity dir c /\
      best pts dir c.
  Proof.
    intros dir HD. pose proof GOOD as [L [S [B [P A]]]]. pose proof HULL as [ND [EX CO]]. fold pts in CO, A. fold corners in CO.
    unfold find_edge. set (vert := py_sorted Nat.leb vs).
    pose proof (sorted_corners vs ND) as SV. fold vert in SV.
    assert (forall i, In i vert <-> In i vs) as IV by (intros; apply py_sorted_In).
    assert (forall pre l r post, vert = pre ++ l :: r :: post -> forall i, In i vs -> (i <= l)%nat \/ (r <= i)%nat) as GAP.
    { intros pre l r post E i I. apply IV in I. rewrite E in I, SV. apply in_app_or in I.
      assert (forall (l1 l2 : list nat), StronglySorted lt (l1 ++ l2) -> (forall x y, In x l1 -> In y l2 -> (x < y)%nat) /\ StronglySorted lt l2) as AP.
      { induction l1 as [|z l1 IH]; intros l2 Z; [split; auto; intros ? ? []|]. cbn in Z. inversion Z as [|? ? Z1 Z2]; subst.
        destruct (IH l2 Z1) as [Q1 Q2]. split; auto. intros x y [<-|X] Y; auto. rewrite Forall_forall in Z2. apply Z2. apply in_or_app. auto. }
      destruct (AP _ _ SV) as [A1 A2]. destruct I as [I|[<-|[<-|I]]]; auto.
      - left. assert (i < l)%nat; [apply A1; cbn; auto|lia].
      - right. inversion A2 as [|? ? A3 _]; subst. inversion A3 as [|? ? _ A4]; subst. rewrite Forall_forall in A4. apply A4 in I. lia. }
    destruct (find_pair wa dir vert) as [[i1 i2]|] eqn:FP.
    - destruct (find_pair_some _ _ _ _ _ FP) as [[pre [post E]] R].
      assert (In i1 vs) as J1 by (apply IV; rewrite E; apply in_or_app; cbn; auto).
      assert (In i2 vs) as J2 by (apply IV; rewrite E; apply in_or_app; cbn; auto).
      assert (i1 < i2)%nat as LT.
      { rewrite E in SV. clear - SV. induction pre as [|x pre IH]; cbn in SV; inversion SV as [|? ? Z1 Z2]; subst; auto.
        inversion Z2; auto. }
      destruct (corner_index i1 J1) as [IL1 [E1 _]]. destruct (corner_index i2 J2) as [IL2 [E2 _]].
      exists i1, i2. split; auto. split; auto. split; auto.
      destruct (edge_best i1 i2 (nth i1 wa 0) (nth i2 wa 0) dir dir) as [_ [lam [c [_ H]]]]; auto.
      + pose proof (index_range i1 J1) as B1. pose proof (index_range i2 J2) as B2.
        pose proof (sorted_nth_lt wa i1 i2 S LT IL2). split; [lra|]. intros v V. apply in_map_iff in V. destruct V as [i [<- I]].
        destruct (corner_index i I) as [IL [EI [_ [PI _]]]]. pose proof (index_range i I) as BI.
        rewrite EI. destruct (GAP _ _ _ _ E i I) as [K|K].
        * exists (nth i bsp 0), (nth i wa 0 + 360 * IZR 1). rewrite velocity_period. split; [lra|]. split; auto.
          pose proof (sorted_nth_le wa i i1 S K IL1). rewrite Rmult_1_r. lra.
        * exists (nth i bsp 0), (nth i wa 0). split; [lra|]. split; auto.
          pose proof (sorted_nth_le wa i2 i S K IL). lra.
      + exists lam, c. exact H.
    - (* the pair around north *)
      destruct vert as [|i1 vert'] eqn:EV.
      { exfalso. destruct (all_round_other pts (0, 0) A) as [q [Q _]]. destruct (CO q Q) as [w [W1 [_ [W2 _]]]].
        unfold corners in W1. assert (vs = []) as ->.
        { destruct vs as [|x r]; auto. exfalso. assert (In x []) as []. apply IV. left. reflexivity. }
        destruct w; [cbn in W2; lra|discriminate]. }
      assert (exists mid i2, vert' = mid ++ [i2]) as [mid [i2 ->]].
      { destruct vert' as [|x r] using rev_ind; [|eauto]. exfalso.
        assert (forall q, In q pts -> q = nth i1 pts (0, 0)) as ONE.
        { intros q Q. destruct (CO q Q) as [w [W1 [W2 [W3 W4]]]]. unfold corners in *.
          assert (vs = [i1]) as EVS.
          { assert (Permutation [i1] vs) as PM by (rewrite <- EV; apply py_sorted_perm).
            apply Permutation_length_1_inv in PM. auto. }
          rewrite EVS in *. destruct w as [|x [|y w]]; try discriminate. cbn in W3, W4. rewrite <- W4.
          unfold vadd2, vscale. assert (x = 1) as -> by lra. destruct (nth i1 pts (0, 0)). cbn. f_equal; ring. }
        destruct (all_round_other pts (nth i1 pts (0, 0)) A) as [q [Q NE]]. auto. }
      assert (In i1 vs) as J1 by (apply IV; left; auto).
      assert (In i2 vs) as J2 by (apply IV; right; apply in_or_app; cbn; auto).
      inversion SV as [|? ? SV' F1]; subst.
      assert (i1 < i2)%nat as LT by (rewrite Forall_forall in F1; apply F1; apply in_or_app; cbn; auto).
      destruct (corner_index i1 J1) as [IL1 [E1 _]]. destruct (corner_index i2 J2) as [IL2 [E2 _]].
      pose proof (index_range i1 J1) as B1. pose proof (index_range i2 J2) as B2.
      pose proof (sorted_nth_lt wa i1 i2 S LT IL2) as LT'.
      assert (exists dir', (nth i2 wa 0 <= dir' <= nth i1 wa 0 + 360) /\ heading_vec dir' = heading_vec dir) as [dir' [D1 D2]].
      { destruct (Rle_dec (nth i1 wa 0) dir) as [Q|Q].
        - exists dir. split; auto. pose proof (find_pair_none wa dir mid i1 i2 FP Q). lra.
        - exists (dir + 360 * IZR 1). rewrite Rmult_1_r. split; [lra|].
          pose proof (velocity_period dir 1 1) as VP. rewrite Rmult_1_r in VP. unfold velocity, vscale in VP.
          destruct (heading_vec (dir + 360)), (heading_vec dir). cbn in VP. injection VP as V1 V2. f_equal; lra. }
      destruct (edge_best i2 i1 (nth i2 wa 0) (nth i1 wa 0 + 360) dir dir') as [G [lam [c [DET [F [HL [HC [W BE]]]]]]]]; auto.
      { rewrite E1. pose proof (velocity_period (nth i1 wa 0) (nth i1 bsp 0) 1) as VP. rewrite Rmult_1_r in VP. auto. }
      { split; [lra|]. intros v V. apply in_map_iff in V. destruct V as [i [<- I]].
        destruct (corner_index i I) as [IL [EI [_ [PI _]]]]. rewrite EI.
        exists (nth i bsp 0), (nth i wa 0 + 360 * IZR 1). rewrite velocity_period. split; [lra|]. split; auto.
        apply IV in I. rewrite Rmult_1_r.
        assert (i1 <= i)%nat as K1.
        { destruct I as [<-|I]; [lia|]. rewrite Forall_forall in F1. apply F1 in I. lia. }
        assert (i <= i2)%nat as K2.
        { destruct I as [<-|I]; [lia|]. apply in_app_or in I. destruct I as [I|[<-|[]]]; [|lia].
          clear - SV' I. induction mid as [|x mid IH]; [destruct I|]. cbn in SV'. inversion SV' as [|? ? Z1 Z2]; subst.
          destruct I as [<-|I]; [|auto]. rewrite Forall_forall in Z2. assert (x < i2)%nat; [apply Z2; apply in_or_app; cbn; auto|lia]. }
        pose proof (sorted_nth_le wa i1 i S K1 IL). pose proof (sorted_nth_le wa i i2 S K2 IL2). lra. }
      exists i1, i2. unfold py_nth, py_last. cbn [nth_error rbind]. rewrite app_comm_cons, rev_app_distr. cbn [rev app rbind].
      rewrite Rltb_false. 2: { rewrite Rabs_left by lra. lra. }
      split; auto. split; auto. split; auto. exists (1 - lam), c.
      split; [apply first_proportion_swap; auto|]. split; [lra|]. split; auto. split; auto.
      rewrite <- W. unfold vadd2. f_equal; unfold vscale; cbn [fst snd]; ring.
  Qed.
End Good.

(** ** The theorems *)

(** The sail names fit the slice (no information at all is fine). *)
Definition info_fits (info : option (list (list string))) (n : nat) : Prop :=
  match info with Some (l :: _) => length l = n | _ => True end.

(** The recorded boat speed at a wind angle of the slice. *)
Definition recorded (wa bsp : list R) (a b : R) : Prop := In (a, b) (combine wa bsp).

(** C75/C99.  For a slice in which the boat can make way in every direction, and
    a hull algorithm that keeps its contract, [convex_direction] succeeds for every
    direction in [0, 360).  If it returns two directions, their proportions are in
    [0, 1] and sum to 1, sailing them gives progress in the requested direction,
    and no other way of splitting the time makes good more speed in this direction.
    If it returns one direction, the requested direction lies on an edge between
    two neighbouring points ([_partial]: C75 wants the boat to sail in the
    requested direction, see [convex_direction_single_refuted]). *)
Theorem convex_direction_partial : forall hull wa bsp info dir vs,
  good_slice wa bsp -> hull (polar_pts wa bsp) = Ok vs -> hull_of (polar_pts wa bsp) vs ->
  0 <= dir < 360 -> info_fits info (length wa) ->
  exists ds, convex_dir hull wa bsp info dir = Ok ds /\
   ((exists d1 d2 b1 b2 c, ds = [d1; d2] /\
      0 <= d_prop d1 <= 1 /\ 0 <= d_prop d2 <= 1 /\ d_prop d1 + d_prop d2 = 1 /\
      recorded wa bsp (d_angle d1) b1 /\ recorded wa bsp (d_angle d2) b2 /\ 0 < c /\
      vadd2 (vscale (d_prop d1) (velocity (d_angle d1) b1)) (vscale (d_prop d2) (velocity (d_angle d2) b2)) =
        velocity dir c /\
      best (polar_pts wa bsp) dir c) \/
    (exists d i j lam c, ds = [d] /\ d_prop d = 1 /\ d_angle d = nth i wa 0 /\ (i < length wa)%nat /\ (j < length wa)%nat /\
      (j = S i \/ i = S j) /\ 0 < nth i bsp 0 /\ 0 <= lam <= 1 /\ 0 < c /\
      vadd2 (vscale lam (velocity (nth i wa 0) (nth i bsp 0)))
            (vscale (1 - lam) (velocity (nth j wa 0) (nth j bsp 0))) = velocity dir c /\
      best (polar_pts wa bsp) dir c)).
Proof.
  intros hull wa bsp info dir vs GOOD HV HULL HD INFO.
  destruct (find_edge_good wa bsp vs GOOD HULL dir HD) as [i1 [i2 [FE [J1 [J2 [lam [c [FPR [HL [HC [W BE]]]]]]]]]]].
  destruct (corner_index wa bsp vs GOOD HULL i1 J1) as [IL1 [E1 [_ [PB _]]]].
  destruct (corner_index wa bsp vs GOOD HULL i2 J2) as [IL2 [E2 _]].
  pose proof GOOD as [L _].
  assert (exists sl, edge_sails info i1 i2 = Ok sl) as [sl ES].
  { unfold edge_sails. destruct info as [[|l r]|]; eauto. cbn in INFO. unfold py_nth.
    rewrite (nth_error_nth' _ l i1 EmptyString), (nth_error_nth' _ l i2 EmptyString) by lia. cbn [rbind]. eauto. }
  unfold convex_dir, broadcast. rewrite L, Nat.eqb_refl. cbn [rbind]. fold (polar_pts wa bsp).
  rewrite HV. cbn [rbind]. rewrite FE. cbn [rbind]. rewrite ES. cbn [rbind].
  assert (forall i, (i < length wa)%nat -> recorded wa bsp (nth i wa 0) (nth i bsp 0)) as REC.
  { intros i I. unfold recorded. rewrite <- combine_nth by auto. apply nth_In. rewrite combine_length. lia. }
  destruct (Nat.eqb_spec (i1 - i2 + (i2 - i1)) 1) as [ADJ|NADJ]; [destruct (sails_eqb (fst sl) (snd sl))|]; cbn [andb].
  1: { eexists. split; [reflexivity|]. right.
       exists (mkDir (nth i1 wa 0) 1 (fst sl)), i1, i2, lam, c. cbn. rewrite <- E1, <- E2.
       repeat split; auto; try lra; try lia; apply BE. }
  all: match goal with |- context [first_proportion ?a ?b ?d] => replace (first_proportion a b d) with (@Ok (option R) (Some lam)) by (symmetry; exact FPR) end; cbn [rbind];
    rewrite (Rltb_false 1 lam) by lra; rewrite (Rltb_false lam 0) by lra; cbn [orb rbind];
    eexists; (split; [reflexivity|]); left;
    exists (mkDir (nth i1 wa 0) lam (fst sl)), (mkDir (nth i2 wa 0) (1 - lam) (snd sl)), (nth i1 bsp 0), (nth i2 bsp 0), c;
    cbn; rewrite <- E1, <- E2; (split; [reflexivity|]); (split; [lra|]); (split; [lra|]); (split; [lra|]);
    (split; [apply REC; auto|]); (split; [apply REC; auto|]); auto.
Qed.
Print Assumptions convex_direction_partial.

(** ** A concrete slice *)

(** Wind angles and boat speeds of a boat that is slow downwind: the velocities
    are (1,1), (-1,1), (-1/10,0), (-1,-1), (1,-1). *)
Definition wa5 : list R := [45; 135; 180; 225; 315].
Definition bsp5 : list R := [sqrt 2; sqrt 2; 1 / 10; sqrt 2; sqrt 2].
Definition square5 : list vec := [(1, 1); (-1, 1); (-1 / 10, 0); (-1, -1); (1, -1)].

Lemma sqrt2_root : sqrt 2 * (1 / sqrt 2) = 1.
Proof. field. apply Rgt_not_eq. apply sqrt_lt_R0. lra. Qed.

Lemma square5_polar : polar_pts wa5 bsp5 = square5.
Proof.
  pose proof sqrt2_root as Q.
  assert (forall a x y, cos (deg2rad a) = x / sqrt 2 -> sin (deg2rad a) = y / sqrt 2 -> polar_pt a (sqrt 2) = (x, y)) as P.
  { intros a x y E1 E2. unfold polar_pt. rewrite E1, E2.
    replace (sqrt 2 * (x / sqrt 2)) with (x * (sqrt 2 * (1 / sqrt 2))) by (unfold Rdiv; ring).
    replace (sqrt 2 * (y / sqrt 2)) with (y * (sqrt 2 * (1 / sqrt 2))) by (unfold Rdiv; ring). rewrite Q, !Rmult_1_r. reflexivity. }
  assert (polar_pt 180 (1 / 10) = (-1 / 10, 0)) as P180.
  { unfold polar_pt. replace (deg2rad 180) with PI by (unfold deg2rad; field). rewrite cos_PI, sin_PI. f_equal; lra. }
  unfold polar_pts, wa5, bsp5, square5. cbn [combine map fst snd]. rewrite P180.
  rewrite (P 45 1 1), (P 135 (-1) 1), (P 225 (-1) (-1)), (P 315 1 (-1)); auto.
  - replace (deg2rad 315) with (- (PI / 4) + 2 * PI) by (unfold deg2rad; field). rewrite cos_plus, cos_2PI, sin_2PI, cos_neg, cos_PI4. lra.
  - replace (deg2rad 315) with (- (PI / 4) + 2 * PI) by (unfold deg2rad; field). rewrite sin_plus, cos_2PI, sin_2PI, sin_neg, sin_PI4. lra.
  - replace (deg2rad 225) with (PI / 4 + PI) by (unfold deg2rad; field). rewrite neg_cos, cos_PI4. lra.
  - replace (deg2rad 225) with (PI / 4 + PI) by (unfold deg2rad; field). rewrite neg_sin, sin_PI4. lra.
  - replace (deg2rad 135) with (- (PI / 4) + PI) by (unfold deg2rad; field). rewrite neg_cos, cos_neg, cos_PI4. lra.
  - replace (deg2rad 135) with (- (PI / 4) + PI) by (unfold deg2rad; field). rewrite neg_sin, sin_neg, sin_PI4. lra.
  - replace (deg2rad 45) with (PI / 4) by (unfold deg2rad; field). apply cos_PI4.
  - replace (deg2rad 45) with (PI / 4) by (unfold deg2rad; field). apply sin_PI4.
Qed.

Lemma good5 : good_slice wa5 bsp5.
Proof.
  split; [reflexivity|]. split; [unfold wa5; repeat constructor; lra|]. split; [unfold wa5; repeat constructor; lra|].
  assert (0 <= sqrt 2) by apply sqrt_pos. split; [unfold bsp5; repeat (apply Forall_cons; [lra|]); apply Forall_nil|].
  rewrite square5_polar. intros [x y] U.
  destruct (Rlt_dec 0 (x + y)); [exists (1, 1); split; [cbn; auto|unfold vdot; cbn; lra]|].
  destruct (Rlt_dec (x + y) 0); [exists (-1, -1); split; [cbn; auto|unfold vdot; cbn; lra]|].
  destruct (Rlt_dec 0 (x - y)); [exists (1, -1); split; [cbn; auto 6|unfold vdot; cbn; lra]|].
  destruct (Rlt_dec (x - y) 0); [exists (-1, 1); split; [cbn; auto|unfold vdot; cbn; lra]|].
  exfalso. apply U. f_equal; lra.
Qed.

Ltac pts_cases Q := cbn in Q; repeat (destruct Q as [<-|Q]); [..|destruct Q].

Lemma hull5 : hull_of (polar_pts wa5 bsp5) [1; 0; 4; 3]%nat.
Proof.
  rewrite square5_polar. split; [repeat constructor; cbn; intuition lia|]. split.
  - intros i I. exists (nth i square5 (0, 0)), (nth i square5 (0, 0)). cbn in I.
    destruct I as [<-|[<-|[<-|[<-|[]]]]]; cbn [nth square5]; (split; [reflexivity|]); intros q Q NE; pts_cases Q; unfold vdot; cbn;
      try lra; exfalso; auto.
  - intros q Q. cbn [map nth square5]. pts_cases Q; [exists [0; 1; 0; 0]|exists [1; 0; 0; 0]|exists [11/40; 9/40; 9/40; 11/40]|
      exists [0; 0; 0; 1]|exists [0; 0; 1; 0]]; (split; [reflexivity|]); (split; [repeat (apply Forall_cons; [lra|]); apply Forall_nil|]);
      (split; [cbn; lra|]); unfold weighted, vadd2, vscale; cbn; f_equal; lra.
Qed.

(** The theorem applies to this slice for every hull algorithm that returns these
    corners, and every direction. *)
Example convex_direction_example : forall dir, 0 <= dir < 360 ->
  exists ds, convex_dir (fun _ => Ok [1; 0; 4; 3]%nat) wa5 bsp5 None dir = Ok ds /\ ds <> [].
Proof.
  intros dir D. destruct (convex_direction_partial (fun _ => Ok [1; 0; 4; 3]%nat) wa5 bsp5 None dir _ good5 eq_refl hull5 D I)
    as [ds [E [[d1 [d2 [b1 [b2 [c [-> _]]]]]]|[d [i [j [l [c [-> _]]]]]]]]]; eexists; split; eauto; discriminate.
Qed.

(** Downwind (180), the boat gybes between 135 and 225, half of the time each. *)
Lemma edge5_180 : find_edge wa5 180 [1; 0; 4; 3]%nat = Ok (1, 3)%nat.
Proof.
  unfold find_edge. change (py_sorted Nat.leb [1; 0; 4; 3]%nat) with [0; 1; 3; 4]%nat. unfold wa5. cbn [find_pair nth].
  rewrite (Rleb_true 45 180), (Rleb_false 180 135), (Rleb_true 135 180), (Rleb_true 180 225) by lra. reflexivity.
Qed.

Lemma proportion5_180 : first_proportion (-1, 1) (-1, -1) 180 = Ok (Some (1 / 2)).
Proof.
  unfold first_proportion. replace (deg2rad 180) with PI by (unfold deg2rad; field). rewrite cos_PI, sin_PI. cbn [fst snd].
  rewrite Reqb_false by lra. rewrite Reqb_false by lra. f_equal. f_equal. field.
Qed.

Lemma convex5_180 : convex_dir (fun _ => Ok [1; 0; 4; 3]%nat) wa5 bsp5 None 180 =
  Ok [mkDir 135 (1 / 2) None; mkDir 225 (1 - 1 / 2) None].
Proof.
  unfold convex_dir. change (broadcast bsp5 (length wa5)) with (Ok bsp5). cbn [rbind].
  fold (polar_pts wa5 bsp5). rewrite square5_polar, edge5_180. cbn [rbind edge_sails fst snd sails_eqb Nat.sub Nat.add Nat.eqb andb].
  cbn [nth square5 wa5]. rewrite proportion5_180. cbn [rbind]. rewrite Rltb_false by lra. rewrite Rltb_false by lra. reflexivity.
Qed.

(** ** Where C75 fails *)

(** All points on the hull. *)
Lemma all_corners : forall pts vs, hull_of pts vs ->
  (forall i p, nth_error pts i = Some p -> exists n, forall j q, nth_error pts j = Some q -> j <> i -> vdot n q < vdot n p) ->
  py_sorted Nat.leb vs = seq 0 (length pts).
Proof.
  intros pts vs H X. apply (sorted_same_elements nat lt); try (intros; lia).
  - apply sorted_corners. apply H.
  - apply seq_sorted.
  - intros i. rewrite py_sorted_In, in_seq. split.
    + intros I. destruct H as [_ [EX _]]. destruct (EX i I) as [p [n [N _]]].
      assert (i < length pts)%nat by (apply nth_error_Some; congruence). lia.
    + intros [_ L]. cbn in L. destruct (nth_error pts i) as [p|] eqn:N.
      * destruct (X i p N) as [n XN]. eapply exposed_corner; eauto.
      * apply nth_error_None in N. lia.
Qed.

(** Four headings with the same speed, the boat is asked to sail at 90, which is one
    of them and as fast as possible: it gets the single direction 0, whatever hull
    algorithm is used. *)
Definition wa4 : list R := [0; 90; 180; 270].
Definition bsp4 : list R := [1; 1; 1; 1].

Lemma square4_polar : polar_pts wa4 bsp4 = [(1, 0); (0, 1); (-1, 0); (0, -1)].
Proof.
  unfold polar_pts, wa4, bsp4, polar_pt. cbn [combine map fst snd].
  replace (deg2rad 0) with 0 by (unfold deg2rad; field). replace (deg2rad 90) with (PI / 2) by (unfold deg2rad; field).
  replace (deg2rad 180) with PI by (unfold deg2rad; field). replace (deg2rad 270) with (3 * (PI / 2)) by (unfold deg2rad; field).
  rewrite cos_0, sin_0, cos_PI2, sin_PI2, cos_PI, sin_PI, cos_3PI2, sin_3PI2. repeat f_equal; ring.
Qed.

Theorem convex_direction_single_refuted : exists wa bsp, good_slice wa bsp /\
  forall hull vs, hull (polar_pts wa bsp) = Ok vs -> hull_of (polar_pts wa bsp) vs ->
  convex_dir hull wa bsp None 90 = Ok [mkDir 0 1 None] /\
  In (90, 1) (combine wa bsp) /\ best (polar_pts wa bsp) 90 1 /\
  forall c b, In (0, b) (combine wa bsp) -> velocity 0 b <> velocity 90 c.
Proof.
  exists wa4, bsp4. split.
  - split; [reflexivity|]. split; [unfold wa4; repeat constructor; lra|]. split; [unfold wa4; repeat constructor; lra|].
    split; [unfold bsp4; repeat (apply Forall_cons; [lra|]); apply Forall_nil|]. rewrite square4_polar. intros [x y] U.
    destruct (Rlt_dec 0 x); [exists (1, 0); split; [cbn; auto|unfold vdot; cbn; lra]|].
    destruct (Rlt_dec x 0); [exists (-1, 0); split; [cbn; auto|unfold vdot; cbn; lra]|].
    destruct (Rlt_dec 0 y); [exists (0, 1); split; [cbn; auto|unfold vdot; cbn; lra]|].
    destruct (Rlt_dec y 0); [exists (0, -1); split; [cbn; auto 6|unfold vdot; cbn; lra]|].
    exfalso. apply U. f_equal; lra.
  - intros hull vs HV HULL. assert (velocity 90 1 = (0, 1)) as V90.
    { unfold velocity, heading_vec, vscale. cbn. replace (deg2rad 90) with (PI / 2) by (unfold deg2rad; field).
      rewrite cos_PI2, sin_PI2. f_equal; ring. }
    split; [|split; [|split]].
    + assert (py_sorted Nat.leb vs = [0; 1; 2; 3]%nat) as SV.
      { rewrite (all_corners _ vs HULL); rewrite square4_polar; [reflexivity|].
        intros i p N. exists p. intros j q M NE. destruct i as [|[|[|[|[|i]]]]]; try discriminate;
          destruct j as [|[|[|[|[|j]]]]]; try discriminate; try congruence; injection N as <-; injection M as <-; unfold vdot; cbn; lra. }
      unfold convex_dir. change (broadcast bsp4 (length wa4)) with (Ok bsp4). cbn [rbind]. fold (polar_pts wa4 bsp4). rewrite HV. cbn [rbind].
      unfold find_edge. rewrite SV. unfold wa4 at 1. cbn [find_pair nth]. rewrite !Rleb_true by lra. reflexivity.
    + cbn. auto.
    + split.
      * rewrite V90. rewrite square4_polar. apply reachable_point. cbn. auto.
      * intros c' RC. rewrite square4_polar in RC.
        assert (vdot (0, 1) (velocity 90 c') <= 1) as K.
        { eapply reachable_dot; eauto. intros p Q. pts_cases Q; unfold vdot; cbn; lra. }
        unfold vdot, velocity, heading_vec, vscale in K. cbn in K.
        replace (deg2rad 90) with (PI / 2) in K by (unfold deg2rad; field). rewrite cos_PI2, sin_PI2 in K. lra.
    + intros c b I E. assert (b = 1) as ->.
      { cbn in I. destruct I as [I|[I|[I|[I|[]]]]]; injection I; intros; lra. }
      apply (f_equal fst) in E. unfold velocity, heading_vec, vscale in E. cbn in E.
      replace (deg2rad 90) with (PI / 2) in E by (unfold deg2rad; field). replace (deg2rad 0) with 0 in E by (unfold deg2rad; field).
      rewrite cos_PI2, cos_0 in E. lra.
Qed.
Print Assumptions convex_direction_single_refuted.

(** Where the hull does not surround the origin, the function neither raises nor
    gives a sensible answer: three headings with two sails. *)
Definition wa3 : list R := [10; 200; 210].
Definition bsp3 : list R := [1; 1; 1].
Definition sails3 : option (list (list string)) := Some [["main"; "genoa"; "genoa"]%string].

Lemma unit_corners : forall wa bsp, bsp = repeat 1 (length wa) ->
  StronglySorted Rlt wa -> Forall (fun a => 0 <= a < 360) wa ->
  forall vs, hull_of (polar_pts wa bsp) vs -> py_sorted Nat.leb vs = seq 0 (length wa).
Proof.
  intros wa bsp -> S B vs HULL. set (bsp := repeat 1 (length wa)) in *.
  assert (length bsp = length wa) as L by apply repeat_length.
  assert (length (polar_pts wa bsp) = length wa) as LP by (unfold polar_pts; rewrite map_length, combine_length; lia).
  rewrite <- LP. apply all_corners; auto. intros i p N. exists p. intros j q M NE.
  assert (i < length wa)%nat as IL by (rewrite <- LP; apply nth_error_Some; congruence).
  assert (j < length wa)%nat as JL by (rewrite <- LP; apply nth_error_Some; congruence).
  rewrite (polar_pts_nth wa bsp i L IL) in N. rewrite (polar_pts_nth wa bsp j L JL) in M.
  injection N as <-. injection M as <-.
  assert (forall k, (k < length wa)%nat -> nth k bsp 0 = 1) as ONE.
  { intros k K. unfold bsp. apply (nth_error_nth _ _ 0). apply nth_error_repeat. auto. }
  rewrite !ONE by auto. rewrite !velocity_dot. replace (nth i wa 0 - nth i wa 0) with 0 by ring.
  replace (deg2rad 0) with 0 by (unfold deg2rad; field). rewrite cos_0.
  assert (0 < Rabs (nth i wa 0 - nth j wa 0) < 360) as D.
  { rewrite Forall_forall in B. assert (0 <= nth i wa 0 < 360) by (apply B; apply nth_In; auto).
    assert (0 <= nth j wa 0 < 360) by (apply B; apply nth_In; auto).
    destruct (Nat.lt_ge_cases i j).
    - pose proof (sorted_nth_lt wa i j S H1 JL). rewrite Rabs_left by lra. lra.
    - assert (j < i)%nat as LT by lia. pose proof (sorted_nth_lt wa j i S LT IL). rewrite Rabs_right by lra. lra. }
  assert (cos (deg2rad (nth i wa 0 - nth j wa 0)) < 1) as C; [|lra].
  replace (cos (deg2rad (nth i wa 0 - nth j wa 0))) with (cos (deg2rad (Rabs (nth i wa 0 - nth j wa 0)))).
  2: { unfold Rabs. destruct (Rcase_abs _); auto. replace (deg2rad (- (nth i wa 0 - nth j wa 0))) with (- deg2rad (nth i wa 0 - nth j wa 0)) by (unfold deg2rad; field). apply cos_neg. }
  set (a := Rabs _) in *. clearbody a.
  assert (0 < sin (deg2rad (a / 2))) as SP by (apply sin_deg_pos; lra).
  replace (deg2rad a) with (2 * deg2rad (a / 2)) by (unfold deg2rad; field). rewrite cos_2a_sin. nra.
Qed.

Lemma div_gt_1 : forall x y, 0 < y -> y < x -> 1 < x / y.
Proof. intros x y Y H. apply (Rmult_lt_reg_r y); auto. replace (x / y * y) with x by (field; lra). lra. Qed.
Lemma div_le_1 : forall x y, 0 < y -> x <= y -> x / y <= 1.
Proof. intros x y Y H. apply (Rmult_le_reg_r y); auto. replace (x / y * y) with x by (field; lra). lra. Qed.

Lemma sin_deg_reflect : forall x, sin (deg2rad (180 - x)) = sin (deg2rad x).
Proof. intros x. replace (deg2rad (180 - x)) with (PI - deg2rad x) by (unfold deg2rad; field). apply sin_PI_x. Qed.
Lemma sin_deg_half : forall x, sin (deg2rad (x + 180)) = - sin (deg2rad x).
Proof. intros x. replace (deg2rad (x + 180)) with (deg2rad x + PI) by (unfold deg2rad; field). apply neg_sin. Qed.

(** Asked for direction 12, the boat gets a proportion of 172/170 and a negative
    one. *)
Theorem convex_direction_proportion_refuted : forall hull vs,
  hull (polar_pts wa3 bsp3) = Ok vs -> hull_of (polar_pts wa3 bsp3) vs ->
  convex_dir hull wa3 bsp3 sails3 12 =
    Ok [mkDir 10 (172 / 170) (Some "main"%string); mkDir 200 (1 - 172 / 170) (Some "genoa"%string)].
Proof.
  intros hull vs HV HULL.
  assert (py_sorted Nat.leb vs = [0; 1; 2]%nat) as SV.
  { apply (unit_corners wa3 bsp3); auto; unfold wa3; repeat constructor; lra. }
  unfold convex_dir. change (broadcast bsp3 (length wa3)) with (Ok bsp3). cbn [rbind]. fold (polar_pts wa3 bsp3). rewrite HV. cbn [rbind].
  unfold find_edge. rewrite SV. unfold wa3 at 1. cbn [find_pair nth]. rewrite !Rleb_true by lra. cbn [andb rbind].
  cbn [edge_sails sails3 py_nth nth_error rbind fst snd sails_eqb Nat.sub Nat.add Nat.eqb].
  replace (String.eqb "main" "genoa") with false by reflexivity. cbn [andb nth wa3 bsp3 polar_pts combine map fst snd].
  rewrite (polar_velocity 10), (polar_velocity 200).
  assert (0 < sin (deg2rad 2)) as S2 by (apply sin_deg_pos; lra).
  assert (0 < sin (deg2rad 10)) as S10 by (apply sin_deg_pos; lra).
  assert (sin (deg2rad 2) < sin (deg2rad 8)) as S8.
  { pose proof PI_RGT_0. apply sin_increasing_1; unfold deg2rad; lra. }
  assert (vdet (velocity 10 1) (velocity 200 1) = - sin (deg2rad 10)) as D.
  { rewrite velocity_det. replace (200 - 10) with (10 + 180) by lra. rewrite sin_deg_half. ring. }
  rewrite first_proportion_det by (rewrite D; lra). rewrite D.
  replace (heading_vec 12) with (velocity 12 1) by (unfold velocity, vscale; destruct (heading_vec 12); cbn; f_equal; ring).
  rewrite !velocity_det. replace (200 - 12) with (8 + 180) by lra. replace (12 - 10) with 2 by lra. rewrite sin_deg_half.
  set (a := sin (deg2rad 2)) in *. set (b := sin (deg2rad 8)) in *. set (s := sin (deg2rad 10)) in *.
  replace (1 * 1 * - b / - s) with (b / s) by (field; lra). replace (1 * 1 * a / - s) with (- (a / s)) by (field; lra).
  assert (0 < / s) by (apply Rinv_0_lt_compat; auto).
  assert (a / s < b / s) by (unfold Rdiv; apply Rmult_lt_compat_r; auto).
  assert (0 < a / s) by (unfold Rdiv; apply Rmult_lt_0_compat; auto).
  rewrite Reqb_false by lra. cbn [rbind].
  rewrite (Rltb_true 1) by (apply div_gt_1; lra).
  cbn [orb]. rewrite np_div_ok by lra. cbn [rbind]. replace ((12 + 360 - 200) / (10 + 360 - 200)) with (172 / 170) by field. reflexivity.
Qed.
Print Assumptions convex_direction_proportion_refuted.

(** Asked for direction 100, the boat makes way in the opposite direction. *)
Theorem convex_direction_opposite_refuted : forall hull vs,
  hull (polar_pts wa3 bsp3) = Ok vs -> hull_of (polar_pts wa3 bsp3) vs ->
  exists lam c, convex_dir hull wa3 bsp3 sails3 100 =
      Ok [mkDir 10 lam (Some "main"%string); mkDir 200 (1 - lam) (Some "genoa"%string)] /\
    vadd2 (vscale lam (velocity 10 1)) (vscale (1 - lam) (velocity 200 1)) = velocity 100 c /\ c < 0.
Proof.
  intros hull vs HV HULL.
  assert (py_sorted Nat.leb vs = [0; 1; 2]%nat) as SV.
  { apply (unit_corners wa3 bsp3); auto; unfold wa3; repeat constructor; lra. }
  assert (0 < sin (deg2rad 80)) as S80 by (apply sin_deg_pos; lra).
  assert (0 < sin (deg2rad 10)) as S10 by (apply sin_deg_pos; lra).
  assert (0 < sin (deg2rad 90)) as S90 by (apply sin_deg_pos; lra).
  exists (sin (deg2rad 80) / (sin (deg2rad 80) + sin (deg2rad 90))), (- sin (deg2rad 10) / (sin (deg2rad 80) + sin (deg2rad 90))).
  assert (vdet (velocity 10 1) (velocity 200 1) = - sin (deg2rad 10)) as D.
  { rewrite velocity_det. replace (200 - 10) with (10 + 180) by lra. rewrite sin_deg_half. ring. }
  split; [|split].
  - unfold convex_dir. change (broadcast bsp3 (length wa3)) with (Ok bsp3). cbn [rbind]. fold (polar_pts wa3 bsp3). rewrite HV. cbn [rbind].
    unfold find_edge. rewrite SV. unfold wa3 at 1. cbn [find_pair nth]. rewrite !Rleb_true by lra. cbn [andb rbind].
    cbn [edge_sails sails3 py_nth nth_error rbind fst snd sails_eqb Nat.sub Nat.add Nat.eqb].
    replace (String.eqb "main" "genoa") with false by reflexivity. cbn [andb nth wa3 bsp3 polar_pts combine map fst snd].
    rewrite (polar_velocity 10), (polar_velocity 200). rewrite first_proportion_det by (rewrite D; lra). rewrite D.
    replace (heading_vec 100) with (velocity 100 1) by (unfold velocity, vscale; destruct (heading_vec 100); cbn; f_equal; ring).
    rewrite !velocity_det. replace (200 - 100) with (180 - 80) by lra. replace (100 - 10) with 90 by lra. rewrite sin_deg_reflect.
    set (a := sin (deg2rad 80)) in *. set (b := sin (deg2rad 90)) in *. set (s := sin (deg2rad 10)) in *.
    assert (0 < / s) by (apply Rinv_0_lt_compat; auto).
    replace (1 * 1 * a / - s) with (- (a * / s)) by (field; lra). replace (1 * 1 * b / - s) with (- (b * / s)) by (field; lra).
    rewrite Reqb_false by nra. cbn [rbind].
    replace (- (a * / s) / (- (a * / s) + - (b * / s))) with (a / (a + b)) by (field; repeat split; lra).
    assert (0 < / (a + b)) by (apply Rinv_0_lt_compat; lra).
    rewrite (Rltb_false 1) by (apply div_le_1; lra).
    rewrite (Rltb_false _ 0) by (unfold Rdiv; nra). reflexivity.
  - unfold velocity, heading_vec, vadd2, vscale. cbn [fst snd].
    replace (deg2rad 200) with (deg2rad 20 + PI) by (unfold deg2rad; field). rewrite neg_sin, neg_cos.
    replace (deg2rad 100) with (deg2rad 10 + PI / 2) by (unfold deg2rad; field).
    replace (deg2rad 80) with (PI / 2 - deg2rad 10) by (unfold deg2rad; field).
    replace (deg2rad 90) with (PI / 2) by (unfold deg2rad; field).
    replace (deg2rad 20) with (2 * deg2rad 10) by (unfold deg2rad; field).
    rewrite sin_PI2, sin_shift, cos_plus, sin_plus, cos_PI2, sin_PI2, cos_2a, sin_2a.
    assert (0 < cos (deg2rad 10)) by (apply cos_deg_pos; lra). pose proof (sin2_cos2 (deg2rad 10)) as SC. unfold Rsqr in SC.
    set (s := sin (deg2rad 10)) in *. set (c := cos (deg2rad 10)) in *.
    assert (c + 1 <> 0) by lra.
    f_equal; (apply (Rmult_eq_reg_r (c + 1)); [|auto]); field_simplify; auto; nra.
  - assert (0 < / (sin (deg2rad 80) + sin (deg2rad 90))) by (apply Rinv_0_lt_compat; lra). unfold Rdiv. nra.
Qed.
Print Assumptions convex_direction_opposite_refuted.

(** ** C108: the error *)

Lemma cone_separation : forall t1 t2 dir, 0 <= t1 <= t2 -> t2 < 360 -> t2 - t1 < 180 -> 0 <= dir < 360 ->
  dir < t1 \/ t2 < dir ->
  exists n, (forall a r, t1 <= a <= t2 -> 0 <= r -> vdot n (velocity a r) <= 0) /\ 0 < vdot n (heading_vec dir).
Proof.
  intros t1 t2 dir T1 T2 G D O.
  assert (forall b a r, vdot (velocity b (-1)) (velocity a r) = - r * cos (deg2rad (b - a))) as V.
  { intros. rewrite velocity_dot. ring. }
  assert (forall b, vdot (velocity b (-1)) (heading_vec dir) = - cos (deg2rad (b - dir))) as H.
  { intros. replace (heading_vec dir) with (velocity dir 1) by (unfold velocity, vscale; destruct (heading_vec dir); cbn; f_equal; ring).
    rewrite velocity_dot. ring. }
  assert (forall x, cos (deg2rad (x + 90)) = - sin (deg2rad x)) as C1.
  { intros. replace (deg2rad (x + 90)) with (deg2rad x + PI / 2) by (unfold deg2rad; field). rewrite cos_plus, cos_PI2, sin_PI2. ring. }
  assert (forall x, cos (deg2rad (x - 90)) = sin (deg2rad x)) as C2.
  { intros. replace (deg2rad (x - 90)) with (deg2rad x - PI / 2) by (unfold deg2rad; field). rewrite cos_minus, cos_PI2, sin_PI2. ring. }
  assert (forall x, sin (deg2rad (- x)) = - sin (deg2rad x)) as SN.
  { intros. replace (deg2rad (- x)) with (- deg2rad x) by (unfold deg2rad; field). apply sin_neg. }
  assert (-360 < dir - t1 < -180 \/ dir - t1 = -180 \/ -180 < dir - t1 < 180 \/ dir - t1 = 180 \/ 180 < dir - t1 < 360) as K by lra.
  assert (sin (deg2rad (dir - t1)) < 0 ->
    exists n, (forall a r, t1 <= a <= t2 -> 0 <= r -> vdot n (velocity a r) <= 0) /\ 0 < vdot n (heading_vec dir)) as N1.
  { intros S. exists (velocity (t1 + 90) (-1)). split.
    - intros a r A R. rewrite V. replace (t1 + 90 - a) with (- (a - t1) + 90) by ring. rewrite C1, SN.
      assert (0 <= sin (deg2rad (a - t1))) by (apply sin_deg_nonneg; lra). nra.
    - rewrite H. replace (t1 + 90 - dir) with (- (dir - t1) + 90) by ring. rewrite C1, SN. lra. }
  assert (sin (deg2rad (t2 - dir)) < 0 ->
    exists n, (forall a r, t1 <= a <= t2 -> 0 <= r -> vdot n (velocity a r) <= 0) /\ 0 < vdot n (heading_vec dir)) as N2.
  { intros S. exists (velocity (t2 - 90) (-1)). split.
    - intros a r A R. rewrite V. replace (t2 - 90 - a) with (t2 - a - 90) by ring. rewrite C2.
      assert (0 <= sin (deg2rad (t2 - a))) by (apply sin_deg_nonneg; lra). nra.
    - rewrite H. replace (t2 - 90 - dir) with (t2 - dir - 90) by ring. rewrite C2. lra. }
  assert (t1 = t2 -> cos (deg2rad (t1 - dir)) = -1 ->
    exists n, (forall a r, t1 <= a <= t2 -> 0 <= r -> vdot n (velocity a r) <= 0) /\ 0 < vdot n (heading_vec dir)) as N3.
  { intros E C. exists (velocity t1 (-1)). split.
    - intros a r A R. rewrite V. replace (t1 - a) with 0 by lra. rewrite deg2rad_0, cos_0. lra.
    - rewrite H, C. lra. }
  assert (forall x, -180 < x < 0 -> sin (deg2rad x) < 0) as NEG.
  { intros x X. replace x with (- - x) by ring. rewrite SN. assert (0 < sin (deg2rad (- x))) by (apply sin_deg_pos; lra). lra. }
  destruct O as [O|O].
  - destruct (Rlt_dec (-180) (dir - t1)) as [L|L].
    + apply N1. apply NEG. lra.
    + destruct (Req_dec (t2 - dir) 180) as [E|E].
      * assert (t1 = t2) by lra. apply N3; auto. replace (t1 - dir) with 180 by lra. rewrite deg2rad_180. apply cos_PI.
      * apply N2. apply sin_deg_neg. lra.
  - destruct (Rlt_dec (dir - t2) 180) as [L|L].
    + apply N2. apply NEG. lra.
    + destruct (Req_dec (dir - t1) 180) as [E|E].
      * assert (t1 = t2) by lra. apply N3; auto. replace (t1 - dir) with (- (180)) by lra.
        replace (deg2rad (- (180))) with (- PI) by (unfold deg2rad; field). rewrite cos_neg. apply cos_PI.
      * apply N1. apply sin_deg_neg. lra.
Qed.

(** C108.  If the function raises the error for an unsupported direction, then the
    boat really cannot make way in this direction ([_partial]: it does not always
    raise it, see [convex_direction_opposite_refuted]). *)
Theorem convex_direction_error_partial : forall hull wa bsp info dir vs,
  length bsp = length wa -> StronglySorted Rlt wa -> Forall (fun a => 0 <= a < 360) wa -> Forall (fun b => 0 <= b) bsp ->
  wa <> [] ->
  hull (polar_pts wa bsp) = Ok vs -> hull_of (polar_pts wa bsp) vs -> (2 <= length vs)%nat -> 0 <= dir < 360 ->
  convex_dir hull wa bsp info dir = Raise ValueError ->
  forall c, 0 < c -> ~ reachable (polar_pts wa bsp) (velocity dir c).
Proof.
  intros hull wa bsp info dir vs L S B P NE HV HULL LV D E c C RC.
  pose proof HULL as [ND [EX CO]].
  unfold convex_dir, broadcast in E. rewrite L, Nat.eqb_refl in E. cbn [rbind] in E. fold (polar_pts wa bsp) in E.
  rewrite HV in E. cbn [rbind] in E.
  destruct (find_edge wa dir vs) as [[i1 i2]|e] eqn:FE.
  { exfalso. cbn [rbind] in E. unfold edge_sails in E.
    assert (forall (x : result (option string * option string)) (k : option string * option string -> result (list direction)),
      (forall e, x = Raise e -> e = IndexError) -> (forall y, k y <> Raise ValueError) -> rbind x k <> Raise ValueError) as RB.
    { intros [y|e0] k X K; cbn; auto. intros Z. injection Z as ->. discriminate (X _ eq_refl). }
    revert E. apply RB.
    - intros e0 X. destruct info as [[|l r]|]; try discriminate. unfold py_nth in X.
      destruct (nth_error l i1), (nth_error l i2); cbn in X; congruence.
    - intros y. destruct (_ && _)%bool; [discriminate|]. unfold first_proportion. destruct (Reqb _ 0); [discriminate|].
      assert (forall q, (do lam' <- np_div (dir + 360 - nth i2 wa 0) (nth i1 wa 0 + 360 - nth i2 wa 0);
                         Ok [mkDir (nth i1 wa 0) lam' (fst q); mkDir (nth i2 wa 0) (1 - lam') (snd q)]) <> Raise ValueError) as ND'.
      { intros q. unfold np_div. destruct (neqb _ _); discriminate. }
      destruct (Reqb _ 0); cbn [rbind]; [apply ND'|]. destruct (_ || _)%bool; [apply ND'|discriminate]. }
  unfold find_edge in FE. set (vert := py_sorted Nat.leb vs) in *.
  pose proof (sorted_corners vs ND) as SV. fold vert in SV.
  assert (forall i, In i vert <-> In i vs) as IV by (intros; apply py_sorted_In).
  assert (forall i, In i vs -> (i < length wa)%nat /\ nth i (polar_pts wa bsp) (0, 0) = velocity (nth i wa 0) (nth i bsp 0) /\ 0 <= nth i bsp 0) as CI.
  { intros i I. destruct (EX i I) as [p [n [N _]]]. assert (i < length wa)%nat as IL.
    { assert (i < length (polar_pts wa bsp))%nat as K by (apply nth_error_Some; congruence).
      unfold polar_pts in K. rewrite map_length, combine_length in K. lia. }
    split; auto. split; [apply nth_error_nth; apply polar_pts_nth; auto|]. rewrite Forall_forall in P. apply P. apply nth_In. lia. }
  destruct (find_pair wa dir vert) as [q|] eqn:FP; [discriminate|].
  destruct vert as [|i1 rest] eqn:EV.
  { (* no corners: no points *)
    destruct wa as [|w wa]; [auto|]. destruct bsp as [|b bsp]; [discriminate|].
    destruct (CO (polar_pt w b)) as [wt [W1 [_ [W3 _]]]]; [left; reflexivity|].
    destruct vs as [|v vs]; [|assert (In v []) as [] by (apply IV; left; auto)].
    destruct wt; [cbn in W3; lra|discriminate]. }
  cbn [py_nth nth_error rbind] in FE.
  assert (exists i2, py_last (i1 :: rest) = Ok i2 /\ In i2 vs /\ (forall i, In i vs -> (i1 <= i <= i2)%nat) /\
    (dir < nth i1 wa 0 \/ nth i2 wa 0 < dir \/ i1 = i2)) as [i2 [L2 [J2 [RG OUT]]]].
  { destruct rest as [|x r] using rev_ind.
    - exists i1. split; [reflexivity|]. split; [apply IV; left; auto|]. split; auto. intros i I. apply IV in I. destruct I as [<-|[]]. lia.
    - clear IHr. exists x. split; [unfold py_last; rewrite app_comm_cons, rev_app_distr; reflexivity|].
      split; [apply IV; right; apply in_or_app; cbn; auto|]. inversion SV as [|? ? SV' F1]; subst. rewrite Forall_forall in F1. split.
      + intros i I. apply IV in I. destruct I as [<-|I].
        * split; [lia|]. assert (i1 < x)%nat by (apply F1; apply in_or_app; cbn; auto). lia.
        * split; [apply F1 in I; lia|]. apply in_app_or in I. destruct I as [I|[<-|[]]]; [|lia].
          clear - SV' I. induction r as [|y r IH]; [destruct I|]. cbn in SV'. inversion SV' as [|? ? Z1 Z2]; subst.
          destruct I as [<-|I]; [|auto]. rewrite Forall_forall in Z2. assert (y < x)%nat; [apply Z2; apply in_or_app; cbn; auto|lia].
      + destruct (Rlt_dec dir (nth i1 wa 0)) as [|Q]; [left; auto|]. right. left. apply (find_pair_none wa dir r i1 x FP). lra. }
  rewrite L2 in FE. cbn [rbind] in FE.
  destruct (Rltb_spec (Rabs (nth i1 wa 0 - nth i2 wa 0)) 180) as [GAP|GAP]; [|discriminate].
  assert (In i1 vs) as J1 by (apply IV; left; auto).
  destruct (CI i1 J1) as [IL1 _]. destruct (CI i2 J2) as [IL2 _].
  assert (0 <= nth i1 wa 0 < 360) as B1 by (rewrite Forall_forall in B; apply B; apply nth_In; auto).
  assert (0 <= nth i2 wa 0 < 360) as B2 by (rewrite Forall_forall in B; apply B; apply nth_In; auto).
  assert (i1 <= i2)%nat as LE by (apply (RG i2 J2)).
  pose proof (sorted_nth_le wa i1 i2 S LE IL2) as LE'.
  assert (exists n, (forall i, In i vs -> vdot n (velocity (nth i wa 0) (nth i bsp 0)) <= 0) /\ 0 < vdot n (heading_vec dir) \/
                    (i1 = i2 /\ nth i1 wa 0 = dir)) as [n CASE].
  { destruct OUT as [O|[O|O]].
    1, 2: destruct (cone_separation (nth i1 wa 0) (nth i2 wa 0) dir) as [n [N1 N2]]; try lra; auto;
      try (rewrite Rabs_left1 in GAP by lra; lra);
      exists n; left; split; auto; intros i I; destruct (CI i I) as [IL [_ PI]]; apply N1; auto;
      destruct (RG i I) as [R1 R2]; split; apply sorted_nth_le; auto.
    destruct (Req_dec (nth i1 wa 0) dir) as [Q|Q]; [exists (0, 0); right; auto|].
    destruct (cone_separation (nth i1 wa 0) (nth i2 wa 0) dir) as [n [N1 N2]]; try lra.
    { rewrite Rabs_left1 in GAP by lra; lra. }
    { rewrite <- O. lra. }
    exists n. left. split; auto. intros i I; destruct (CI i I) as [IL [_ PI]]; apply N1; auto;
      destruct (RG i I) as [R1 R2]; split; apply sorted_nth_le; auto. }
  destruct CASE as [[N1 N2]|[Q1 Q2]].
  - assert (vdot n (velocity dir c) <= 0) as K.
    { apply (reachable_dot n 0 (polar_pts wa bsp)); auto. intros q IQ. apply (reachable_dot n 0 _ q (CO q IQ)).
      intros p I. apply in_map_iff in I. destruct I as [i [<- I]]. destruct (CI i I) as [_ [E1 _]]. rewrite E1. auto. }
    unfold velocity in K. rewrite vdot_scale_r in K. nra.
  - subst i2. destruct vs as [|a [|b r]]; cbn in LV; try lia.
    assert (a = i1 /\ b = i1) as [-> ->] by (split; [destruct (RG a)|destruct (RG b)]; cbn; auto; lia).
    inversion ND as [|? ? NI _]; subst. apply NI. left; auto.
Qed.
Print Assumptions convex_direction_error_partial.

(** The velocities are (0,1), (-1,1), (-1,0); no way can be made towards 300. *)
Definition wa_e : list R := [90; 135; 180].
Definition bsp_e : list R := [1; sqrt 2; 1].
Definition corner_e : list vec := [(0, 1); (-1, 1); (-1, 0)].

Lemma corner_e_polar : polar_pts wa_e bsp_e = corner_e.
Proof.
  pose proof sqrt2_root as Q. unfold polar_pts, wa_e, bsp_e, corner_e, polar_pt. cbn [combine map fst snd].
  replace (deg2rad 90) with (PI / 2) by (unfold deg2rad; field). rewrite cos_PI2, sin_PI2.
  replace (deg2rad 180) with PI by (unfold deg2rad; field). rewrite cos_PI, sin_PI.
  replace (deg2rad 135) with (- (PI / 4) + PI) by (unfold deg2rad; field).
  rewrite neg_cos, cos_neg, cos_PI4, neg_sin, sin_neg, sin_PI4.
  repeat (f_equal; try lra).
Qed.

Lemma hull_e : hull_of (polar_pts wa_e bsp_e) [2; 0; 1]%nat.
Proof.
  rewrite corner_e_polar. split; [repeat constructor; cbn; intuition lia|]. split.
  - intros i I. cbn in I. destruct I as [<-|[<-|[<-|[]]]]; [exists (-1, 0), (-1, -2)|exists (0, 1), (2, 1)|exists (-1, 1), (-1, 1)];
      (split; [reflexivity|]); intros q Q NE; pts_cases Q; unfold vdot; cbn; try lra; exfalso; auto.
  - intros q Q. cbn [map nth corner_e]. pts_cases Q; [exists [0; 1; 0]|exists [0; 0; 1]|exists [1; 0; 0]];
      (split; [reflexivity|]); (split; [repeat (apply Forall_cons; [lra|]); apply Forall_nil|]);
      (split; [cbn; lra|]); unfold weighted, vadd2, vscale; cbn; f_equal; lra.
Qed.

Example convex_direction_error_example :
  convex_dir (fun _ => Ok [2; 0; 1]%nat) wa_e bsp_e None 300 = Raise ValueError /\
  forall c, 0 < c -> ~ reachable (polar_pts wa_e bsp_e) (velocity 300 c).
Proof.
  assert (convex_dir (fun _ => Ok [2; 0; 1]%nat) wa_e bsp_e None 300 = Raise ValueError) as E.
  { unfold convex_dir. change (broadcast bsp_e (length wa_e)) with (Ok bsp_e). cbn [rbind]. unfold find_edge.
    change (py_sorted Nat.leb [2; 0; 1]%nat) with [0; 1; 2]%nat. unfold wa_e. cbn [find_pair nth].
    rewrite (Rleb_true 90 300), (Rleb_false 300 135), (Rleb_true 135 300), (Rleb_false 300 180) by lra.
    cbn. rewrite Rltb_true by (rewrite Rabs_left by lra; lra). reflexivity. }
  split; auto. intros c C. assert (0 <= sqrt 2) by apply sqrt_pos.
  apply (convex_direction_error_partial (fun _ => Ok [2; 0; 1]%nat) wa_e bsp_e None 300 [2; 0; 1]%nat); auto using hull_e; try lra.
  - unfold wa_e; repeat constructor; lra.
  - unfold wa_e; repeat constructor; lra.
  - unfold bsp_e; repeat (apply Forall_cons; [lra|]); apply Forall_nil.
  - discriminate.
  - cbn; lia.
Qed.

(** C99.  Two directions in the answer: they are sailed for complementary parts of
    the time at recorded speeds, and no other way to split the time among all
    recorded headings makes good more speed in the direction asked for. *)
Theorem convex_direction_optimal : forall hull wa bsp info dir vs d1 d2,
  good_slice wa bsp -> hull (polar_pts wa bsp) = Ok vs -> hull_of (polar_pts wa bsp) vs ->
  0 <= dir < 360 -> info_fits info (length wa) ->
  convex_dir hull wa bsp info dir = Ok [d1; d2] ->
  exists b1 b2 c, 0 <= d_prop d1 <= 1 /\ 0 <= d_prop d2 <= 1 /\ d_prop d1 + d_prop d2 = 1 /\
    recorded wa bsp (d_angle d1) b1 /\ recorded wa bsp (d_angle d2) b2 /\ 0 < c /\
    vadd2 (vscale (d_prop d1) (velocity (d_angle d1) b1)) (vscale (d_prop d2) (velocity (d_angle d2) b2)) = velocity dir c /\
    forall c', reachable (polar_pts wa bsp) (velocity dir c') -> c' <= c.
Proof.
  intros hull wa bsp info dir vs d1 d2 G HV HU D INF E.
  destruct (convex_direction_partial hull wa bsp info dir vs G HV HU D INF) as
    [ds [E' [[e1 [e2 [b1 [b2 [c [-> [P1 [P2 [P3 [R1 [R2 [C [W [_ B]]]]]]]]]]]]]]|[d [i [j [l [c [-> _]]]]]]]]]; rewrite E in E'; [|discriminate].
  injection E' as -> ->. exists b1, b2, c. auto 10.
Qed.
Print Assumptions convex_direction_optimal.

(** Towards 180, the boat of the first example makes good the speed 1 and no more,
    although it sails at 1/10 on this heading. *)
Example convex_direction_optimal_example : forall c',
  reachable (polar_pts wa5 bsp5) (velocity 180 c') -> c' <= 1.
Proof.
  intros c' RC. destruct (convex_direction_optimal (fun _ => Ok [1; 0; 4; 3]%nat) wa5 bsp5 None 180 _ _ _ good5 eq_refl hull5
    ltac:(lra) I convex5_180) as [b1 [b2 [c [_ [_ [_ [R1 [R2 [C [W B]]]]]]]]]].
  apply B in RC. enough (c = 1) by lra.
  unfold recorded, wa5, bsp5 in R1, R2. cbn [combine d_angle] in R1, R2.
  assert (forall b x, In (x, b) (combine wa5 bsp5) -> x <> 180 -> b = sqrt 2) as RB.
  { intros b x I NE. cbn in I. destruct I as [I|[I|[I|[I|[I|[]]]]]]; injection I as I1 I2; auto. exfalso; auto. }
  apply RB in R1; [|lra]. apply RB in R2; [|lra]. subst b1 b2.
  apply (f_equal fst) in W. unfold vadd2, vscale, velocity, heading_vec in W. cbn in W.
  replace (deg2rad 180) with PI in W by (unfold deg2rad; field). rewrite cos_PI in W.
  replace (deg2rad 225) with (PI / 4 + PI) in W by (unfold deg2rad; field). rewrite neg_cos, cos_PI4 in W.
  replace (deg2rad 135) with (- (PI / 4) + PI) in W by (unfold deg2rad; field). rewrite neg_cos, cos_neg, cos_PI4 in W.
  pose proof sqrt2_root. nra.
Qed.
