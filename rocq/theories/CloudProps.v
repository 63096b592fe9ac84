(** * Properties of point clouds (C24-C28, C86) *)

From Coq Require Import String.
From Coq Require Import List Bool Arith ZArith QArith Reals Lra Lia Permutation Sorted.
From Verif Require Import Py PySort Num ListX WPointsModel NhoodModel NhoodSpec NhoodProofs InterpModel
  InterpSpec InterpProofs TableModel TableSpec TableProofs TableProofs3 TableProofs4 CsvModel CsvSpec CsvProofs CsvProps CloudModel.
Import ListNotations.
Open Scope string_scope.
Open Scope list_scope.
Open Scope R_scope.

(* ------------------------------------------------------------------ *)
(** ** C24 *)

(** Points with negative wind speed are dropped, the others are kept in order with
    their angle reduced. *)
Theorem cloud_keeps_points : forall pts : list (pt3 R),
  exists kept, kept = filter (fun p => Rleb 0 (pws p)) pts /\
    Forall2 (fun p q => pws q = pws p /\ reduced (pwa p) (pwa q) /\ pbs q = pbs p) kept (cloud_new pts).
Proof.
  intros pts. eexists. split; [reflexivity|]. unfold cloud_new. rnum.
  induction (filter (fun p => Rleb 0 (pws p)) pts) as [|p l IH]; simpl; constructor; auto.
  unfold reduce_angle, pws, pwa, pbs. simpl. split; auto. split; auto. apply reduced_iff. auto.
Qed.
Print Assumptions cloud_keeps_points.

Lemma cloud_angles : forall (pts : list (pt3 R)) p, In p (cloud_new pts) -> 0 <= pws p /\ 0 <= pwa p < 360.
Proof.
  intros pts p H. unfold cloud_new in H. apply in_map_iff in H. destruct H as [q [<- H]].
  apply filter_In in H. destruct H as [_ H]. rnum. unfold reduce_angle, pws, pwa in *. simpl.
  split; [apply Rleb_le; auto|]. apply nmod_range. rnum. lra.
Qed.

(** The call returns the boat speed of the first given point with this wind. *)
Theorem cloud_returns_points : forall nhood interp (pts l1 l2 : list (pt3 R)) p a k,
  pts = l1 ++ p :: l2 -> 0 < pws p -> a = pwa p + 360 * IZR k ->
  (forall q, In q l1 -> pws q = pws p -> forall m, pwa q <> pwa p + 360 * IZR m) ->
  cloud_call nhood interp (cloud_new pts) (pws p) a = Ok (pbs p).
Proof.
  intros nhood interp pts l1 l2 p a k -> P -> F. unfold cloud_call. rnum.
  rewrite Rleb_false by lra. rewrite nmod_shift.
  assert (forall l, filter (fun q => Reqb (pws q) (pws p) && Reqb (pwa q) (nmod (pwa p) 360)) (cloud_new l) =
            map reduce_angle (filter (fun q => Reqb (pws q) (pws p) && Reqb (nmod (pwa q) 360) (nmod (pwa p) 360)) l)) as E.
  { intros l. unfold cloud_new. induction l as [|q l IH]; auto. simpl. rnum.
    destruct (Rleb_spec 0 (pws q)) as [L|L]; simpl.
    - unfold reduce_angle at 1 2, pws at 1, pwa at 1. simpl. rnum.
      destruct (Reqb (pws q) (pws p) && Reqb (nmod (pwa q) 360) (nmod (pwa p) 360)) eqn:B;
        unfold pws, pwa in *; simpl in *; rewrite B; simpl; rewrite IH; auto.
    - rewrite IH. rewrite (Reqb_false (pws q)) by lra. simpl. auto. }
  rewrite E, filter_app. rewrite filter_nil.
  - simpl. rewrite !Reqb_refl. simpl. reflexivity.
  - intros q Hq. apply andb_false_iff. destruct (Reqb_spec (pws q) (pws p)) as [Es|Ns]; auto. right.
    apply Reqb_false. intros Em. destruct (nmod_cong (pwa q) 360) as [k1 H1].
    destruct (nmod_cong (pwa p) 360) as [k2 H2]. apply (F q Hq Es (k1 - k2)%Z).
    rewrite minus_IZR. lra.
Qed.
Print Assumptions cloud_returns_points.

Definition ex_cloud : list (pt3 R) := [(10, 90, 6); (-1, 40, 2); (12, -30, 4); (10, 450, 7)].

Example cloud_returns_points_case : forall nhood interp,
  cloud_call nhood interp (cloud_new ex_cloud) 12 330 = Ok 4 /\
  cloud_call nhood interp (cloud_new ex_cloud) 10 450 = Ok 6.
Proof.
  intros. split.
  - apply (cloud_returns_points nhood interp ex_cloud [(10, 90, 6); (-1, 40, 2)] [(10, 450, 7)] (12, -30, 4) 330 1);
      unfold pws, pwa; simpl; auto; try lra.
    intros q [<-|[<-|[]]]; simpl; intros; lra.
  - apply (cloud_returns_points nhood interp ex_cloud [] (tl ex_cloud) (10, 90, 6) 450 1);
      unfold pws, pwa; simpl; auto; lra.
Qed.

(** A wind speed that is not positive raises ValueError, although points with wind
    speed zero are kept. *)
Theorem cloud_nonpositive : forall nhood interp (cloud : list (pt3 R)) s a, s <= 0 ->
  cloud_call nhood interp cloud s a = Raise ValueError.
Proof. intros. unfold cloud_call. rnum. rewrite Rleb_true by auto. reflexivity. Qed.
Print Assumptions cloud_nonpositive.

Theorem cloud_zero_wind_refuted : exists pts p, In p (cloud_new pts) /\
  forall nhood interp, cloud_call nhood interp (cloud_new pts) (pws p) (pwa p) = Raise ValueError.
Proof.
  exists [(0, 90, 1)], (0, 90, 1). split.
  - unfold cloud_new. simpl. rnum. rewrite Rleb_true by (unfold pws; simpl; lra). left.
    unfold reduce_angle, pws, pwa, pbs. simpl. rewrite nmod_small by lra. auto.
  - intros. apply cloud_nonpositive. unfold pws. simpl. lra.
Qed.
Print Assumptions cloud_zero_wind_refuted.

(** Calls are 360 degree periodic. *)
Theorem cloud_periodic : forall nhood interp (cloud : list (pt3 R)) s a k,
  cloud_call nhood interp cloud s (a + 360 * IZR k) = cloud_call nhood interp cloud s a.
Proof. intros. unfold cloud_call. rnum. rewrite nmod_shift. reflexivity. Qed.
Print Assumptions cloud_periodic.

(* ------------------------------------------------------------------ *)
(** ** C25 *)

Theorem add_points_appends : forall cloud new : list (pt3 R),
  (forall p, In p new -> 0 < pws p) ->
  exists new' caller, cloud_add cloud new = Ok (cloud ++ new', caller) /\
    Forall2 (fun p q => pws q = pws p /\ reduced (pwa p) (pwa q) /\ pbs q = pbs p) new new'.
Proof.
  intros cloud new P. unfold cloud_add.
  destruct (existsb _ new) eqn:E.
  - apply existsb_exists in E. destruct E as [p [I L]]. rnum. apply Rleb_le in L. specialize (P p I). lra.
  - do 2 eexists. split; [reflexivity|]. clear. induction new as [|p l IH]; simpl; constructor; auto.
    unfold reduce_angle, pws, pwa, pbs. simpl. split; auto. split; auto. apply reduced_iff. auto.
Qed.
Print Assumptions add_points_appends.

Theorem add_points_rejects : forall (cloud new : list (pt3 R)) p, In p new -> pws p <= 0 ->
  cloud_add cloud new = Raise ValueError.
Proof.
  intros cloud new p I L. unfold cloud_add.
  assert (existsb (fun p => nleb (pws p) (nofZ 0)) new = true) as ->; auto.
  apply existsb_exists. exists p. split; auto. rnum. apply Rleb_true. auto.
Qed.
Print Assumptions add_points_rejects.

Example add_points_case :
  cloud_add (T:=Q) [(10, 90, 6)]%Q [(12, -30, 4)]%Q = Ok ([(10, 90, 6); (12, 330, 4)], [(12, 330, 4)])%Q.
Proof. reflexivity. Qed.

(** The array handed to [add_points] is changed. *)
Theorem add_points_changes_argument_refuted : exists cloud new caller c' : list (pt3 Q),
  cloud_add cloud new = Ok (c', caller) /\ caller <> new.
Proof.
  exists [], [(12, -30, 4)]%Q, [(12, 330, 4)]%Q, [(12, 330, 4)]%Q.
  split; [reflexivity|]. discriminate.
Qed.
Print Assumptions add_points_changes_argument_refuted.

(* ------------------------------------------------------------------ *)
(** ** C26 *)

Definition is_mirror (p q : pt3 R) : Prop := pws q = pws p /\ reduced (360 - pwa p) (pwa q) /\ pbs q = pbs p.

Theorem symmetrize_mirrors : forall pts : list (pt3 R),
  let cloud := cloud_new pts in
  exists mirrored, cloud_symmetrize cloud = cloud ++ mirrored /\ Forall2 is_mirror cloud mirrored /\
    forall p, In p (cloud_symmetrize cloud) -> exists q, In q (cloud_symmetrize cloud) /\ is_mirror p q.
Proof.
  intros pts cloud.
  assert (forall p, In p cloud -> 0 <= pws p /\ 0 <= pwa p < 360) as R by (intros; eapply cloud_angles; eauto).
  clearbody cloud. clear pts.
  assert (cloud_symmetrize cloud =
          cloud ++ map (fun p => (pws p, nmod (360 - pwa p) 360, pbs p)) cloud) as E.
  { unfold cloud_symmetrize. destruct cloud as [|p0 r0] eqn:EC; auto. rewrite <- EC in *. clear EC p0 r0.
    unfold cloud_new. rewrite filter_app, map_app. f_equal.
    - rewrite filter_all.
      + rewrite <- (map_id cloud) at 2. apply map_ext_in. intros [[s a] b] H. apply R in H.
        unfold reduce_angle, pws, pwa, pbs in *. simpl in *. rnum. rewrite nmod_small; auto. tauto.
      + intros p H. rnum. apply Rleb_true. apply R. auto.
    - rewrite filter_all.
      + rewrite map_map. apply map_ext. intros [[s a] b]. reflexivity.
      + intros p H. apply in_map_iff in H. destruct H as [q [<- H]]. rnum. unfold pws at 1. simpl.
        apply Rleb_true. apply R. auto. }
  rewrite E. eexists. split; [reflexivity|]. split.
  - clear. induction cloud as [|p l IH]; simpl; constructor; auto.
    unfold is_mirror, pws, pwa, pbs. simpl. split; auto. split; auto. apply reduced_iff. auto.
  - intros p H. apply in_app_or in H. destruct H as [H|H].
    + exists (pws p, nmod (360 - pwa p) 360, pbs p). split.
      * apply in_or_app. right. apply (in_map (fun p => (pws p, nmod (360 - pwa p) 360, pbs p))). auto.
      * unfold is_mirror, pws, pwa, pbs. simpl. split; auto. split; auto. apply reduced_iff. auto.
    + apply in_map_iff in H. destruct H as [q [<- H]]. exists q. split; [apply in_or_app; auto|].
      destruct (R q H) as [_ B]. unfold is_mirror, pws, pwa, pbs in *. simpl. split; auto. split; auto.
      split; [lra|]. destruct (nmod_cong (360 - snd (fst q)) 360) as [k K]. exists k.
      lra.
Qed.
Print Assumptions symmetrize_mirrors.

Example symmetrize_cloud_case :
  cloud_symmetrize (cloud_new [(10, 90, 6); (8, 0, 2)]%Q) = [(10, 90, 6); (8, 0, 2); (10, 270, 6); (8, 0, 2)]%Q.
Proof. reflexivity. Qed.

(* ------------------------------------------------------------------ *)
(** ** C27 *)

Theorem cloud_csv_round_trip : forall show lit tofloat (pts : list (pt3 R)),
  let cloud := cloud_new pts in cloud <> [] ->
  (forall p, In p cloud -> readable show lit tofloat (pws p) /\ readable show lit tofloat (pwa p) /\
                           readable show lit tofloat (pbs p)) ->
  exists rows, cloud_to_csv show cloud = ["PolarDiagramPointcloud"] :: rows /\
    cloud_from_csv lit rows = Ok cloud.
Proof.
  intros show lit tofloat pts cloud NE RD. eexists. split; [reflexivity|].
  assert (forall p, In p cloud -> 0 <= pws p /\ 0 <= pwa p < 360) as R by (intros; eapply cloud_angles; eauto).
  clearbody cloud. clear pts. unfold cloud_from_csv. cbn [next_row rbind].
  assert (mapM (fun row => mapM lit row) (map (fun p => [show (pws p); show (pwa p); show (pbs p)]) cloud) =
          Ok (map (fun p => [pws p; pwa p; pbs p]) cloud)) as ->.
  { clear NE R. induction cloud as [|p l IH]; simpl; auto.
    destruct (RD p) as [[R1 _] [[R2 _] [R3 _]]]; [left; auto|]. rewrite R1, R2, R3. cbn [rbind].
    rewrite IH by (intros; apply RD; right; auto). reflexivity. }
  cbn [rbind].
  assert (mapM (fun r => match r with [s; a; b] => Ok (s, a, b) | _ => Raise IndexError end)
            (map (fun p => [pws p; pwa p; pbs p]) cloud) = Ok cloud) as ->.
  { clear. induction cloud as [|[[s a] b] l IH]; simpl; auto. rewrite IH. reflexivity. }
  cbn [rbind]. unfold cloud_of_list. destruct cloud as [|p0 l0] eqn:EC; [contradiction|]. rewrite <- EC in *.
  f_equal. unfold cloud_new. rewrite filter_all.
  - rewrite <- (map_id cloud) at 2. apply map_ext_in. intros [[s a] b] H. apply R in H.
    unfold reduce_angle, pws, pwa, pbs in *. simpl in *. rnum. rewrite nmod_small; auto. tauto.
  - intros p H. rnum. apply Rleb_true. apply R. auto.
Qed.
Print Assumptions cloud_csv_round_trip.

Example cloud_csv_case :
  let cloud := cloud_new [(6, 2, 3); (8, 5, 4)] in
  cloud_from_csv ex_lit (tl (cloud_to_csv ex_show cloud)) = Ok cloud.
Proof.
  intros cloud.
  assert (cloud = [(6, 2, 3); (8, 5, 4)]) as EC.
  { unfold cloud, cloud_new. simpl. rnum. unfold pws at 1 2. simpl. rewrite !Rleb_true by lra. simpl.
    unfold reduce_angle, pws, pwa, pbs. simpl. rnum. rewrite !nmod_small by lra. auto. }
  destruct (cloud_csv_round_trip ex_show ex_lit ex_read [(6, 2, 3); (8, 5, 4)]) as [rows [E1 E2]].
  - fold cloud. rewrite EC. discriminate.
  - fold cloud. rewrite EC. intros p [<-|[<-|[]]]; unfold pws, pwa, pbs; simpl; repeat split;
      try (apply (ex_readable 6); lia); try (apply (ex_readable 2); lia); try (apply (ex_readable 3); lia);
      try (apply (ex_readable 8); lia); try (apply (ex_readable 5); lia); try (apply (ex_readable 4); lia).
  - fold cloud in E1, E2. rewrite E1. exact E2.
Qed.

(** An empty cloud is written but cannot be read. *)
Theorem cloud_csv_empty_refuted : exists cloud : list (pt3 R),
  cloud = cloud_new [] /\
  forall show lit, exists rows, cloud_to_csv show cloud = ["PolarDiagramPointcloud"] :: rows /\
    cloud_from_csv lit rows = Raise IndexError.
Proof. exists []. split; [reflexivity|]. intros. eexists. split; reflexivity. Qed.
Print Assumptions cloud_csv_empty_refuted.

(* ------------------------------------------------------------------ *)
(** ** C28 *)

Lemma cloud_call_off : forall nhood interp (cloud : list (pt3 R)) s a, 0 < s ->
  (forall p, In p cloud -> pws p = s -> forall k, pwa p <> a + 360 * IZR k) ->
  cloud_call nhood interp cloud s a = interpolate_from nhood interp cloud s (nmod a 360).
Proof.
  intros nhood interp cloud s a P F. unfold cloud_call. rnum. rewrite Rleb_false by lra.
  rewrite filter_nil; auto. intros q Hq. apply andb_false_iff.
  destruct (Reqb_spec (pws q) s) as [Es|Ns]; auto. right. apply Reqb_false. intros E.
  destruct (nmod_cong a 360) as [k K]. apply (F q Hq Es (- k)%Z). rewrite opp_IZR. lra.
Qed.

(** Partial: with an [ArithmeticMeanInterpolator] whose scaling factor is 1 the value
    stays within the boat speeds of the neighbourhood ([b] is the reduced angle). *)
Theorem cloud_call_in_range_partial : forall norm norm_all nhood (Near : R * R -> Prop) params (cloud : list (pt3 R)) s a b,
  rowwise norm norm_all -> (forall l, exists m, nhood l = Ok m /\ marks m l Near) ->
  0 < s -> reduced a b ->
  (forall p, In p cloud -> pws p = s -> forall k, pwa p <> a + 360 * IZR k) ->
  (exists p, In p cloud /\ Near (pws p - s, pwa p - b)) ->
  exists v, cloud_call nhood (amean norm_all 1 (default_distr params)) cloud s a = Ok v /\
    forall lo hi, (forall p, In p cloud -> Near (pws p - s, pwa p - b) -> lo <= pbs p <= hi) -> lo <= v <= hi.
Proof.
  intros norm norm_all nhood Near params cloud s a b RW NH P RD F [p0 [I0 N0]].
  rewrite cloud_call_off by auto. apply reduced_iff in RD. rewrite <- RD.
  destruct (interpolate_marks nhood (amean norm_all 1 (default_distr params)) Near cloud s b NH) as [ps [I ->]].
  destruct (amean_default_any norm norm_all params ps (repeat 1 (length ps)) (s, b) RW) as [v [E B]].
  + intros ->. apply (proj2 (I p0)). auto.
  + apply repeat_length.
  + exists v. split; auto. intros lo hi H. apply B. intros x Hx. apply in_map_iff in Hx.
    destruct Hx as [p [<- Hp]]. apply I in Hp. apply H; tauto.
Qed.
Print Assumptions cloud_call_in_range_partial.

Lemma amean_scale : forall norm norm_all s params (pts : list (pt3 R)) wts g,
  rowwise norm norm_all -> (forall p, In p pts -> dist_to norm g p <> 0) ->
  amean norm_all s (default_distr params) pts wts g =
  match amean norm_all 1 (default_distr params) pts wts g with Ok v => Ok (s * v) | Raise e => Raise e end.
Proof.
  intros norm norm_all s params pts wts g RW NZ. unfold amean.
  rewrite (distances_ok norm norm_all RW). cbn [rbind]. rewrite at_zero_none by auto.
  destruct (np_average _ _) as [v|e]; cbn [rbind]; auto. rnum. rewrite Rmult_1_l. auto.
Qed.

(** The default interpolator is [ArithmeticMeanInterpolator(50)]: 50 is taken as
    the scaling factor and every interpolated boat speed is 50 times too large. *)
Theorem cloud_default_times_50 : forall norm_one (cloud : list (pt3 R)) s a v,
  0 < s -> (forall p, In p cloud -> pws p = s -> forall k, pwa p <> a + 360 * IZR k) ->
  cloud_call (ball_contains std_norm_all norm_one 1) (amean std_norm_all 1 (default_distr [])) cloud s a = Ok v ->
  cloud_call (ball_contains std_norm_all norm_one 1) (amean std_norm_all 50 (default_distr [])) cloud s a = Ok (50 * v).
Proof.
  intros norm_one cloud s a v P F. rewrite !cloud_call_off by auto.
  assert (forall l, exists m, ball_contains std_norm_all norm_one 1 l = Ok m /\ marks m l (fun d => std_norm d <= 1)) as NH.
  { intros l. unfold ball_contains. rewrite std_norm_rowwise. eexists. split; [reflexivity|].
    eexists. split; [reflexivity|]. split; [rewrite !map_length; auto|].
    intros i p Hp. rewrite !nth_error_map, Hp. simpl. rnum. destruct (Rleb_spec (std_norm p) 1).
    + split; auto.
    + split; [discriminate|lra]. }
  assert (forall p, In p cloud -> dist_to std_norm (s, nmod a 360) p <> 0) as NZ.
  { intros p Hp E. apply std_norm_dist0 in E. injection E as E1 E2.
    destruct (nmod_cong a 360) as [k K]. apply (F p Hp E1 (- k)%Z). rewrite opp_IZR. lra. }
  unfold interpolate_from.
  destruct (NH (map (fun p => (pws p - s, pwa p - nmod a 360)%num) cloud)) as [m [-> [l [-> [L M]]]]]. cbn [rbind].
  rewrite map_length in L. unfold np_mask. rewrite repeat_length, L, Nat.eqb_refl. cbn [rbind].
  intros E. rewrite (amean_scale std_norm std_norm_all 50 [] _ _ _ std_norm_rowwise).
  - rewrite E. reflexivity.
  - intros p Hp. apply NZ. clear - Hp. revert l Hp. induction cloud as [|q r IH]; intros [|c l] H; simpl in *; try tauto.
    destruct c; simpl in H; [destruct H; auto|]; right; eapply IH; eauto.
Qed.
Print Assumptions cloud_default_times_50.

Theorem cloud_default_refuted : exists (cloud : list (pt3 R)) s a v, forall norm_one,
  cloud_call (ball_contains std_norm_all norm_one 1) (amean std_norm_all 50 (default_distr [])) cloud s a = Ok v /\
  forall p, In p cloud -> pbs p < v.
Proof.
  exists [(10, 90, 6)], 10, 91, (50 * 6). intros norm_one.
  assert (forall p, In p [(10, 90, 6)] -> pws p = 10 -> forall k, pwa p <> 91 + 360 * IZR k) as OFF.
  { intros p [<-|[]] _ k E. unfold pwa in E. simpl in E.
    assert (-1 < k < 0)%Z; [|lia]. split; apply lt_IZR; lra. }
  split.
  - apply cloud_default_times_50; [lra|exact OFF|].
    destruct (cloud_call_in_range_partial std_norm std_norm_all (ball_contains std_norm_all norm_one 1)
                (fun d => std_norm d <= 1) [] [(10, 90, 6)] 10 91 91 std_norm_rowwise) as [v [E B]].
    + intros l. unfold ball_contains. rewrite std_norm_rowwise. eexists. split; [reflexivity|].
      eexists. split; [reflexivity|]. split; [rewrite !map_length; auto|].
      intros i p Hp. rewrite !nth_error_map, Hp. simpl. rnum. destruct (Rleb_spec (std_norm p) 1).
      * split; auto.
      * split; [discriminate|lra].
    + lra.
    + split; [lra|]. exists 0%Z. lra.
    + exact OFF.
    + exists (10, 90, 6). split; [left; auto|]. unfold std_norm, pws, pwa. simpl.
      apply Rle_trans with (sqrt 1); [apply sqrt_le_1_alt; lra|rewrite sqrt_1; lra].
    + rewrite E. f_equal. specialize (B 6 6). destruct B; try lra.
      intros p [<-|[]] _. unfold pbs. simpl. lra.
  - intros p [<-|[]]. unfold pbs. simpl. lra.
Qed.
Print Assumptions cloud_default_refuted.

(* ------------------------------------------------------------------ *)
(** ** C86 *)

(** A slice holds exactly the stored points in the wind speed range, in order;
    slices come in the order of the requested speeds. *)
Theorem cloud_slices_exact : forall range (cloud : list (pt3 R)) ws i s, nth_error ws i = Some s ->
  exists sl, nth_error (cloud_slices range cloud ws) i = Some sl /\
    (forall p, In p sl <-> In p cloud /\ Rabs (pws p - s) <= range) /\
    exists keep : list bool, length keep = length cloud /\ sl = mask_list cloud keep.
Proof.
  intros range cloud ws i s Hi. unfold cloud_slices. rewrite nth_error_map, Hi. simpl.
  eexists. split; [reflexivity|]. split.
  - intros p. rewrite filter_In. rnum. rewrite nabs_R. rewrite Rleb_le. tauto.
  - exists (map (fun p => nleb (nabs (pws p - s)%num) range) cloud). split; [apply map_length|].
    induction cloud as [|p l IH]; simpl; auto. rewrite IH. rnum. destruct (Rleb (nabs (pws p - s)) range); auto.
Qed.
Print Assumptions cloud_slices_exact.

Example cloud_slices_case :
  cloud_slices (T:=Q) 1%Q [(10, 90, 6); (12, 30, 4); (11, 60, 5)]%Q [12; 20]%Q = [[(12, 30, 4); (11, 60, 5)]; []]%Q.
Proof. reflexivity. Qed.

(* ------------------------------------------------------------------ *)
(** ** C122 *)

Lemma dedup_NoDup : forall l : list R, NoDup (dedup l) /\ forall x, In x (dedup l) <-> In x l.
Proof.
  induction l as [|a l [N I]]; simpl; [split; [constructor|tauto]|].
  destruct (nmem a l) eqn:E.
  - split; auto. intros x. rewrite I. apply nmem_R in E. split; auto. intros [->|H]; auto.
  - split.
    + constructor; auto. rewrite I, <- nmem_R. congruence.
    + intros x. simpl. rewrite I. reflexivity.
Qed.

Lemma sorted_unique : forall l : list R, StronglySorted Rlt (py_sorted nleb (dedup l)) /\
  forall x, In x (py_sorted nleb (dedup l)) <-> In x l.
Proof.
  intros l. destruct (dedup_NoDup l) as [N I]. split.
  - pose proof (sorted_R (dedup l)) as S.
    assert (NoDup (py_sorted nleb (dedup l))) as N'.
    { eapply Permutation_NoDup; [apply Permutation_sym, py_sorted_perm|]. exact N. }
    induction S as [|a r S IH F]; constructor; inversion N'; subst; auto.
    rewrite Forall_forall in *. intros x Hx. specialize (F x Hx).
    destruct (Req_dec a x); [subst; contradiction|lra].
  - intros x. rewrite py_sorted_In. apply I.
Qed.

(** C122.  The wind speeds and the wind angles of a point cloud are listed once
    each, in increasing order, and are exactly those of its points. *)
Theorem cloud_axes_exact : forall cloud : list (pt3 R),
  StronglySorted Rlt (cloud_wind_speeds cloud) /\
  (forall x, In x (cloud_wind_speeds cloud) <-> exists p, In p cloud /\ pws p = x) /\
  StronglySorted Rlt (cloud_wind_angles cloud) /\
  (forall x, In x (cloud_wind_angles cloud) <-> exists p, In p cloud /\ pwa p = x).
Proof.
  intros cloud. unfold cloud_wind_speeds, cloud_wind_angles.
  destruct (sorted_unique (map pws cloud)) as [S1 I1]. destruct (sorted_unique (map pwa cloud)) as [S2 I2].
  split; auto. split; [|split; auto].
  - intros x. rewrite I1, in_map_iff. split; intros [p [A B]]; exists p; auto.
  - intros x. rewrite I2, in_map_iff. split; intros [p [A B]]; exists p; auto.
Qed.
Print Assumptions cloud_axes_exact.

Example cloud_axes_case :
  cloud_wind_speeds (T:=Q) [(12, 90, 6); (10, 30, 4); (12, 60, 5)]%Q = [10; 12]%Q /\
  cloud_wind_angles (T:=Q) [(12, 90, 6); (10, 30, 4); (12, 60, 5)]%Q = [30; 60; 90]%Q.
Proof. split; reflexivity. Qed.
