(** * Properties of the default points and slices (C124-C126) *)

From Coq Require Import String.
From Coq Require Import List Bool Arith ZArith QArith Reals Lra Lia Permutation Sorted.
From Verif Require Import Py Num PySort ListX WPointsModel NhoodModel InterpModel BaseModel BaseProps TableModel
  TableSpec TableProofs TableProofs3 TableProofs4 TableProps CloudModel CloudProps CurveModel CurveProps MultiModel MultiProps DefaultsModel.
Import ListNotations.
Open Scope list_scope.
Open Scope R_scope.

(* ------------------------------------------------------------------ *)
(** ** What the properties say *)

(** Every point of the list has the boat speed of the diagram at its wind. *)
Definition on_diagram (call : R -> R -> result R) (pts : list (pt3 R)) : Prop :=
  forall s a b, In (s, a, b) pts -> call s a = Ok b.

(** [m] is the smallest, the largest number of the list. *)
Definition least (l : list R) (m : R) : Prop := In m l /\ forall x, In x l -> m <= x.
Definition greatest (l : list R) (m : R) : Prop := In m l /\ forall x, In x l -> x <= m.

(** [n] numbers from [a] to [b], all the same distance apart. *)
Definition evenly (a b : R) (n : nat) (l : list R) : Prop :=
  length l = n /\ forall i x, nth_error l i = Some x -> x = a + INR i * (b - a) / INR (n - 1).

(* ------------------------------------------------------------------ *)
(** ** C124 *)

(** Without an argument, [get_points] of a table gives exactly its entries, and each
    of them is the boat speed of the table at its wind. *)
Theorem table_default_points : forall nhood interp (ws wa : list R) bs,
  ws <> [] -> wa <> [] -> (forall s, In s ws -> 0 <= s) ->
  NoDup ws -> distinct_mod_360 wa -> shaped (length wa) (length ws) bs ->
  exists t pts, table_new (RIter ws) (RIter wa) (Some (Nd2 bs)) = Ok t /\
    get_points (table_call nhood interp t) (points t) None = Ok pts /\
    on_diagram (table_call nhood interp t) pts /\
    length pts = (length ws * length wa)%nat /\
    forall s a v, In (s, a, v) pts <-> exists i j b, listed ws wa bs i j s b v /\ reduced b a.
Proof.
  intros nhood interp ws wa bs NS NA P N D SH.
  destruct (table_new_ok ws wa bs NA NS P SH) as [t [E [OK [P1 [P2 [_ EN]]]]]].
  exists t, (points t). split; auto. split; auto.
  pose proof (new_no_duplicates ws wa t N D P1 P2) as ND.
  assert (forall s a v, In (s, a, v) (points t) <-> entry t s a v) as PI by (intros; apply points_In; auto).
  split; [|split].
  - intros s a v I. apply PI in I. apply table_call_entry. pose proof I as I0. destruct I0 as [i [j [H1 [H2 H3]]]].
    apply getitem_entry; auto.
    + eapply ok_speed; eauto using nth_error_In.
    + rewrite nmod_small; auto. apply (ok_angle t); eauto using nth_error_In.
  - destruct OK as [_ [_ [_ [_ [L1 L2]]]]]. unfold points.
    assert (forall (l : list R) (bs' : list (list R)), length bs' = length l -> (forall r, In r bs' -> length r = length (t_ws t)) ->
      length (flat_map (fun ar => map (fun sb => (fst sb, fst ar, snd sb)) (combine (t_ws t) (snd ar))) (combine l bs'))
      = (length (t_ws t) * length l)%nat) as G.
    { clear. induction l as [|a l IH]; intros [|r bs'] L H; simpl in *; try lia.
      rewrite app_length, map_length, combine_length, IH by (auto; lia). simpl. rewrite (H r) by auto. lia. }
    rewrite G by auto. rewrite <- (Permutation_length P1), <- (Permutation_length P2), map_length. auto.
  - intros s a v. rewrite PI, EN. unfold listed. split.
    + intros [i [j [H1 [H2 H3]]]]. rewrite nth_error_map in H2.
      destruct (nth_error wa i) as [b|] eqn:Eb; [|discriminate]. simpl in H2. inversion H2; subst.
      exists i, j, b. split; auto. apply reduced_iff. auto.
    + intros [i [j [b [[H1 [H2 H3]] R]]]]. exists i, j. split; auto. split; auto.
      rewrite nth_error_map, H2. simpl. f_equal. apply reduced_iff in R. auto.
Qed.
Print Assumptions table_default_points.

Example table_default_points_case : forall nhood interp,
  exists t pts, table_new (RIter ex_ws) (RIter ex_wa) (Some (Nd2 ex_bs)) = Ok t /\
    get_points (table_call nhood interp t) (points t) None = Ok pts /\ length pts = 6%nat /\ In (6, 330, 2) pts.
Proof.
  intros nhood interp.
  destruct (table_default_points nhood interp ex_ws ex_wa ex_bs) as [t [pts [E [G [_ [L H]]]]]].
  { discriminate. }
  { discriminate. }
  { exact ex_pos. }
  { unfold ex_ws. repeat constructor; rlist. }
  { exact ex_distinct. }
  { exact ex_shape. }
  exists t, pts. split; auto. split; auto. split; auto. apply H. exists 1%nat, 1%nat, (-30 + 360). split.
  - unfold listed, ex_ws, ex_wa, ex_bs. simpl. repeat split; auto. eauto.
  - split; [lra|]. exists 0%Z. simpl. lra.
Qed.

(** Evaluating on a grid. *)
Definition grid_of (l1 l2 : list R) : list (R * R) := flat_map (fun a => map (fun s => (s, a)) l1) l2.

Lemma grid_of_nth : forall (l1 l2 : list R) i j s a, nth_error l1 i = Some s -> nth_error l2 j = Some a ->
  nth_error (grid_of l1 l2) (j * length l1 + i) = Some (s, a).
Proof.
  intros l1 l2 i j s a Hi. revert j. induction l2 as [|b l2 IH]; intros [|j] Hj; simpl in *; try discriminate.
  - inversion Hj; subst. rewrite nth_error_app1; [exact (map_nth_error _ _ _ Hi)|].
    rewrite map_length. apply nth_error_Some. congruence.
  - rewrite nth_error_app2; rewrite map_length; [|lia].
    replace (length l1 + j * length l1 + i - length l1)%nat with (j * length l1 + i)%nat by lia. auto.
Qed.

Lemma grid_of_length : forall l1 l2, length (grid_of l1 l2) = (length l2 * length l1)%nat.
Proof. intros l1. induction l2; simpl; auto. unfold grid_of in *. rewrite app_length, map_length, IHl2. auto. Qed.

Lemma linspace_bounds : forall (x y z : R) n, (2 <= n)%nat -> x <= y -> In z (linspace x y n) -> x <= z <= y.
Proof.
  intros x y z n N XY I. apply In_nth_error in I. destruct I as [i Hi].
  assert (i < n)%nat as Li by (rewrite <- (linspace_length x y n); apply nth_error_Some; congruence).
  rewrite linspace_nth in Hi by auto. inversion Hi; subst.
  assert (0 <= INR i) by apply pos_INR. assert (0 < INR (n - 1)) by (apply lt_0_INR; lia).
  assert (INR i <= INR (n - 1)) by (apply le_INR; lia).
  assert (0 <= (y - x) / INR (n - 1)).
  { apply Rmult_le_pos; [lra|]. apply Rlt_le, Rinv_0_lt_compat. auto. }
  assert (0 <= INR i * ((y - x) / INR (n - 1))) by (apply Rmult_le_pos; auto).
  assert (INR i * ((y - x) / INR (n - 1)) <= INR (n - 1) * ((y - x) / INR (n - 1))) by (apply Rmult_le_compat_r; auto).
  assert (INR (n - 1) * ((y - x) / INR (n - 1)) = y - x) by (field; lra). lra.
Qed.

Lemma linspace_evenly : forall (x y : R) n, (2 <= n)%nat -> evenly x y n (linspace x y n).
Proof.
  intros x y n N. split; [apply linspace_length|]. intros i z H.
  assert (i < n)%nat as L by (rewrite <- (linspace_length x y n); apply nth_error_Some; congruence).
  rewrite linspace_nth in H by auto. inversion H. unfold Rdiv. ring.
Qed.

Lemma eval_grid : forall c (ws wa : list R),
  let pts := mapM (fun sa => do b <- curve_call c (fst sa) (snd sa); Ok (fst sa, snd sa, b)) (grid_of ws wa) in
  (forall l, pts = Ok l -> on_diagram (curve_call c) l /\ length l = (length wa * length ws)%nat /\
     forall i j s a, nth_error ws i = Some s -> nth_error wa j = Some a -> exists b,
       nth_error l (j * length ws + i) = Some (s, a, b)) /\
  ((forall s a, In s ws -> In a wa -> exists b, curve_call c s a = Ok b) -> exists l, pts = Ok l).
Proof.
  intros c ws wa. simpl. split.
  - intros l E. pose proof (mapM_nth _ _ _ _ _ E) as M. split; [|split].
    + intros s a b I. apply In_nth_error in I. destruct I as [i Hi].
      assert (exists sa, nth_error (grid_of ws wa) i = Some sa) as [[s' a'] Hg].
      { destruct (nth_error (grid_of ws wa) i) eqn:X; eauto. apply nth_error_None in X.
        pose proof (mapM_length _ _ _ _ _ E) as L'. assert (i < length l)%nat by (apply nth_error_Some; congruence). lia. }
      destruct (M _ _ Hg) as [y [Hy Ey]]. rewrite Hi in Hy. inversion Hy; subst. cbn [fst snd] in Ey.
      destruct (curve_call c s' a') as [v|] eqn:C; cbn [rbind] in Ey; [|discriminate]. inversion Ey; subst. auto.
    + rewrite <- grid_of_length. apply (mapM_length _ _ _ _ _ E).
    + intros i j s a Hi Hj. destruct (M _ _ (grid_of_nth _ _ _ _ _ _ Hi Hj)) as [y [Hy Ey]]. cbn [fst snd] in Ey.
      destruct (curve_call c s a) as [v|]; cbn [rbind] in Ey; [|discriminate]. inversion Ey; subst. eauto.
  - intros T.
    assert (forall sa, In sa (grid_of ws wa) -> exists b, curve_call c (fst sa) (snd sa) = Ok b) as T'.
    { intros [s a] I. apply in_flat_map in I. destruct I as [a' [I1 I2]]. apply in_map_iff in I2.
      destruct I2 as [s' [E I2]]. inversion E; subst. apply T; auto. }
    induction (grid_of ws wa) as [|sa g IH]; [eexists; reflexivity|]. cbn [mapM].
    destruct (T' sa) as [b Eb]; [left; auto|]. destruct IH as [r Er]; [intros; apply T'; right; auto|].
    rewrite Eb. cbn [rbind]. rewrite Er. cbn [rbind]. eauto.
Qed.

(** The default points of a curve are its boat speeds on the grid of 128 wind speeds
    from 5 to 20 and 144 wind angles from 5 to 355; if the curve can be evaluated
    there, they exist. *)
Theorem curve_default_points_grid : forall c,
  (forall pts, curve_default_points c = Ok pts ->
     on_diagram (curve_call c) pts /\
     exists ws wa, evenly 5 20 128 ws /\ evenly 5 355 144 wa /\ length pts = (length wa * length ws)%nat /\
       forall i j s a, nth_error ws i = Some s -> nth_error wa j = Some a ->
         exists b, nth_error pts (j * length ws + i) = Some (s, a, b)) /\
  ((forall s a, 5 <= s <= 20 -> 5 <= a <= 355 -> exists b, curve_call c s a = Ok b) ->
   exists pts, curve_default_points c = Ok pts).
Proof.
  intros c. destruct (eval_grid c (linspace 5 20 128) (linspace 5 355 144)) as [A B].
  split.
  - intros pts E. destruct (A pts E) as [H1 [H2 H3]]. split; [exact H1|].
    exists (linspace 5 20 128), (linspace 5 355 144).
    split; [apply linspace_evenly; lia|]. split; [apply linspace_evenly; lia|]. split; [exact H2|exact H3].
  - intros T. apply B. intros s a Hs Ha. apply T.
    + apply (linspace_bounds 5 20 s 128); [lia|lra|exact Hs].
    + apply (linspace_bounds 5 355 a 144); [lia|lra|exact Ha].
Qed.
Print Assumptions curve_default_points_grid.

(** The curve [f(ws, wa, p) = p * ws] can be evaluated everywhere on the grid. *)
Example curve_default_points_case : exists pts,
  curve_default_points (mkCurve (mkFun "f" (fun s a p => match p with [k] => Ok (k * s) | _ => Raise IndexError end)) [2] false) = Ok pts.
Proof.
  apply curve_default_points_grid. intros s a S A. unfold curve_call. rnum.
  rewrite Rltb_false by lra. eexists. reflexivity.
Qed.

(** If the winds of a cloud are positive and all different, its default points are its
    boat speeds.  Missing: clouds with equal winds or a wind speed 0. *)
Theorem cloud_default_points_partial : forall nhood interp (cloud : list (pt3 R)) pts,
  (forall p, In p cloud -> 0 < pws p /\ 0 <= pwa p < 360) ->
  NoDup (map (fun p => (pws p, pwa p)) cloud) ->
  get_points (cloud_call nhood interp cloud) cloud None = Ok pts ->
  pts = cloud /\ on_diagram (cloud_call nhood interp cloud) pts.
Proof.
  intros nhood interp cloud pts P N E. inversion E; subst. split; auto. intros s a b I.
  destruct (P _ I) as [S A]. unfold pws, pwa in S, A. simpl in S, A. unfold cloud_call. rnum.
  rewrite Rleb_false by lra. rewrite nmod_small by lra.
  destruct (filter (fun p => Reqb (pws p) s && Reqb (pwa p) a) pts) as [|p l] eqn:F.
  - assert (In (s, a, b) (filter (fun p => Reqb (pws p) s && Reqb (pwa p) a) pts)) as X.
    { apply filter_In. split; auto. unfold pws, pwa. simpl. rewrite !Reqb_true; auto. }
    rewrite F in X. destruct X.
  - assert (In p (filter (fun p => Reqb (pws p) s && Reqb (pwa p) a) pts)) as X by (rewrite F; left; auto).
    apply filter_In in X. destruct X as [Ip X]. apply andb_true_iff in X. destruct X as [X1 X2].
    apply Reqb_eq in X1. apply Reqb_eq in X2.
    assert (p = (s, a, b)) as ->; auto.
    { subst s a. clear - N I Ip. induction pts as [|q pts IH]; [destruct I|].
      apply NoDup_cons_iff in N. destruct N as [N1 N2].
      destruct I as [I|I], Ip as [Ip|Ip].
      - congruence.
      - exfalso. apply N1. subst q. apply in_map_iff. exists p. auto.
      - exfalso. apply N1. subst q. apply in_map_iff. exists (pws p, pwa p, b). auto.
      - auto. }
Qed.
Print Assumptions cloud_default_points_partial.

Example cloud_default_points_case : forall nhood interp,
  let cloud := [(10, 90, 6); (10, 30, 4); (6, 90, 5)] : list (pt3 R) in
  get_points (cloud_call nhood interp cloud) cloud None = Ok cloud /\
  on_diagram (cloud_call nhood interp cloud) cloud.
Proof.
  intros nhood interp cloud. split; [reflexivity|].
  apply (cloud_default_points_partial nhood interp cloud cloud); auto.
  - intros p [<-|[<-|[<-|[]]]]; unfold pws, pwa; simpl; lra.
  - unfold pws, pwa. simpl. repeat constructor; simpl; intros H;
    repeat (destruct H as [H|H]; [injection H; intros; lra|]); auto.
Qed.

(** Of two points with the same wind only the first one counts for the call, a point
    without wind makes it raise; both are default points. *)
Theorem cloud_default_points_refuted : forall nhood interp,
  ~ on_diagram (cloud_call nhood interp (cloud_new [(10, 90, 6); (10, 90, 5)])) (cloud_new [(10, 90, 6); (10, 90, 5)]) /\
  ~ on_diagram (cloud_call nhood interp (cloud_new [(0, 90, 0)])) (cloud_new [(0, 90, 0)]).
Proof.
  intros nhood interp.
  assert (nmod (90 : R) 360 = 90) as M by (apply nmod_small; lra). split; intros H.
  - assert (cloud_new [(10, 90, 6); (10, 90, 5)] = [(10, 90, 6); (10, 90, 5)]) as E.
    { unfold cloud_new, reduce_angle, pws, pwa, pbs. simpl. rnum. rewrite !Rleb_true by lra. simpl. rewrite M. auto. }
    rewrite E in H. specialize (H 10 90 5 (or_intror (or_introl eq_refl))). unfold cloud_call in H. rnum.
    rewrite Rleb_false in H by lra. rewrite M in H. unfold pws, pwa in H. simpl in H.
    rewrite !Reqb_true in H by auto. simpl in H. inversion H. unfold pbs in *. simpl in *. lra.
  - assert (cloud_new [(0, 90, 0)] = [(0, 90, 0)]) as E.
    { unfold cloud_new, reduce_angle, pws, pwa, pbs. simpl. rnum. rewrite !Rleb_true by lra. simpl. rewrite M. auto. }
    rewrite E in H. specialize (H 0 90 0 (or_introl eq_refl)). unfold cloud_call in H. rnum.
    rewrite Rleb_true in H by lra. discriminate.
Qed.
Print Assumptions cloud_default_points_refuted.

(** The default points of a diagram with several sails are those of its sails; at the
    wind of such a point the diagram is at least as fast as the point if every sail can
    be evaluated there.  Missing: equality, see below. *)
Theorem multi_default_points_partial : forall D d_call d_points (m : multi D) pts,
  multi_default_points d_points m = Ok pts ->
  m_diagrams m <> [] /\
  (forall p, In p pts <-> exists d l, In d (m_diagrams m) /\ d_points d = Ok l /\ In p l) /\
  ((forall d l, In d (m_diagrams m) -> d_points d = Ok l -> on_diagram (d_call d) l) ->
   forall s a b (value : D -> R), In (s, a, b) pts ->
     (forall d, In d (m_diagrams m) -> d_call d s a = Ok (value d)) ->
     exists v, multi_call d_call m s a = Ok v /\ b <= v).
Proof.
  intros D d_call d_points m pts E. unfold multi_default_points in E.
  destruct (mapM d_points (m_diagrams m)) as [all|] eqn:M; cbn [rbind] in E; [|discriminate].
  assert (m_diagrams m <> []) as NE.
  { intros X. rewrite X in M. inversion M; subst. discriminate. }
  assert (pts = concat all) as -> by (destruct all; inversion E; auto).
  assert (forall p, In p (concat all) <-> exists d l, In d (m_diagrams m) /\ d_points d = Ok l /\ In p l) as C.
  { intros p. pose proof (mapM_nth _ _ _ _ _ M) as N. pose proof (mapM_length _ _ _ _ _ M) as L.
    rewrite in_concat. split.
    - intros [l [I1 I2]]. apply In_nth_error in I1. destruct I1 as [i Hi].
      destruct (nth_error (m_diagrams m) i) as [d|] eqn:Hd.
      + destruct (N _ _ Hd) as [y [Hy Ey]]. rewrite Hi in Hy. inversion Hy; subst.
        exists d, y. eauto using nth_error_In.
      + apply nth_error_None in Hd. assert (i < length all)%nat by (apply nth_error_Some; congruence). lia.
    - intros [d [l [I1 [I2 I3]]]]. apply In_nth_error in I1. destruct I1 as [i Hi].
      destruct (N _ _ Hi) as [y [Hy Ey]]. rewrite I2 in Ey. inversion Ey; subst. exists y. eauto using nth_error_In. }
  split; auto. split; auto.
  intros O s a b value I V. apply C in I. destruct I as [d [l [I1 [I2 I3]]]].
  destruct (multi_call_best D d_call m s a value NE V) as [v [Ev [_ B]]].
  exists v. split; auto. specialize (O d l I1 I2 s a b I3). rewrite (V d I1) in O. inversion O; subst. auto.
Qed.
Print Assumptions multi_default_points_partial.

(** Two sails with the points (10, 90, 5) and (10, 90, 6): both are default points, the
    diagram has the boat speed 6 there. *)
Theorem multi_default_points_refuted : exists (m : multi R) pts,
  multi_default_points (fun v => Ok [(10, 90, v)]) m = Ok pts /\
  (forall v, In v (m_diagrams m) -> on_diagram (fun _ _ => Ok v) [(10, 90, v)]) /\
  ~ on_diagram (multi_call (fun v _ _ => Ok v) m) pts.
Proof.
  exists (mkMulti ["A"; "B"]%string [5; 6]), [(10, 90, 5); (10, 90, 6)].
  split; [reflexivity|]. split.
  - intros v _ s a b [E|[]]. inversion E; subst. auto.
  - intros H. specialize (H 10 90 5 (or_introl eq_refl)). unfold multi_call in H. simpl in H. rnum.
    rewrite Rltb_true in H by lra. inversion H. lra.
Qed.
Print Assumptions multi_default_points_refuted.

(* ------------------------------------------------------------------ *)
(** ** C125 *)

Lemma np_min_spec : forall l m, np_min l = Ok m <-> least l m.
Proof.
  assert (forall l x, least (x :: l) (fold_left Rmin l x)) as G.
  { induction l as [|y l IH]; intros x; simpl.
    - split; [left; auto|]. intros z [<-|[]]. lra.
    - destruct (IH (Rmin x y)) as [A B]. split.
      + destruct A as [A|A]; [|right; right; auto].
        destruct (Rmin_case_strong x y (fun r => x = r \/ y = r)) as [X|X]; auto; [left|right; left]; congruence.
      + intros z [<-|[<-|I]].
        * eapply Rle_trans; [apply B; left; eauto|apply Rmin_l].
        * eapply Rle_trans; [apply B; left; eauto|apply Rmin_r].
        * apply B. right. auto. }
  intros [|x l] m; simpl.
  - split; [discriminate|]. intros [[] _].
  - split.
    + intros E. inversion E. apply G.
    + intros [A B]. destruct (G l x) as [C D]. f_equal. apply Rle_antisym; auto.
Qed.

Lemma np_max_spec : forall l m, np_max l = Ok m <-> greatest l m.
Proof.
  assert (forall l x, greatest (x :: l) (fold_left Rmax l x)) as G.
  { induction l as [|y l IH]; intros x; simpl.
    - split; [left; auto|]. intros z [<-|[]]. lra.
    - destruct (IH (Rmax x y)) as [A B]. split.
      + destruct A as [A|A]; [|right; right; auto].
        destruct (Rmax_case_strong x y (fun r => x = r \/ y = r)) as [X|X]; auto; [left|right; left]; congruence.
      + intros z [<-|[<-|I]].
        * eapply Rle_trans; [|apply B; left; eauto]. apply Rmax_l.
        * eapply Rle_trans; [|apply B; left; eauto]. apply Rmax_r.
        * apply B. right. auto. }
  intros [|x l] m; simpl.
  - split; [discriminate|]. intros [[] _].
  - split.
    + intros E. inversion E. apply G.
    + intros [A B]. destruct (G l x) as [C D]. f_equal. apply Rle_antisym; auto.
Qed.

Lemma spread_spec : forall l r, spread l = Ok r ->
  exists a b, least l a /\ greatest l b /\ evenly a b 20 r.
Proof.
  intros l r E. unfold spread in E. destruct (np_min l) as [a|] eqn:A; cbn [rbind] in E; [|discriminate].
  destruct (np_max l) as [b|] eqn:B; cbn [rbind] in E; [|discriminate]. inversion E; subst.
  exists a, b. apply np_min_spec in A. apply np_max_spec in B. split; auto. split; auto. apply linspace_evenly. lia.
Qed.

Lemma spread_total : forall l, (l = [] -> spread l = Raise ValueError) /\ (l <> [] -> exists r, spread l = Ok r).
Proof.
  intros l. split.
  - intros ->. reflexivity.
  - intros N. destruct l; [contradiction|]. unfold spread. simpl. eauto.
Qed.

(** Without an argument, [get_slices] takes for a cloud twenty wind speeds from the
    lowest to the highest of its points (a ValueError if it has none) and for a curve
    sixteen from 5 to 20, which are the whole numbers between them. *)
Theorem default_slices_values :
  (forall cloud ws, cloud_default_slices cloud = Ok ws ->
     get_windspeeds ws WNone None = Ok ws /\
     exists a b, least (map pws cloud) a /\ greatest (map pws cloud) b /\ evenly a b 20 ws) /\
  (forall cloud, cloud_default_slices cloud = Raise ValueError <-> cloud = []) /\
  (forall i, (i <= 15)%nat -> nth_error curve_default_slices i = Some (INR (5 + i))) /\
  length curve_default_slices = 16%nat.
Proof.
  split; [|split; [|split]].
  - intros cloud ws E. split; auto. apply spread_spec. auto.
  - intros cloud. unfold cloud_default_slices. destruct (spread_total (map pws cloud)) as [A B]. split.
    + intros E. destruct cloud; auto. destruct B as [r Er]; [discriminate|congruence].
    + intros ->. auto.
  - intros i L. unfold curve_default_slices. rewrite linspace_nth by lia. f_equal.
    rewrite plus_INR. simpl (16 - 1)%nat. simpl (INR 15). simpl (INR 5). field.
  - unfold curve_default_slices. apply linspace_length.
Qed.
Print Assumptions default_slices_values.

(** For several sails they run from the lowest to the highest of the defaults of the
    sails; there are none without sails. *)
Theorem multi_default_slices_values : forall D d_slices (m : multi D),
  (forall ws, multi_default_slices d_slices m = Ok ws ->
     exists a b, evenly a b 20 ws /\
       (exists d l, In d (m_diagrams m) /\ d_slices d = Ok l /\ In a l) /\
       (exists d l, In d (m_diagrams m) /\ d_slices d = Ok l /\ In b l) /\
       forall d l x, In d (m_diagrams m) -> d_slices d = Ok l -> In x l -> a <= x <= b) /\
  (m_diagrams m = [] -> multi_default_slices d_slices m = Raise ValueError).
Proof.
  intros D d_slices m. split; [|intros E; unfold multi_default_slices; rewrite E; reflexivity].
  intros ws E. unfold multi_default_slices in E.
  destruct (mapM d_slices (m_diagrams m)) as [all|] eqn:M; cbn [rbind] in E; [|discriminate].
  destruct (spread_spec _ _ E) as [a [b [[A1 A2] [[B1 B2] V]]]].
  assert (forall p, In p (concat all) <-> exists d l, In d (m_diagrams m) /\ d_slices d = Ok l /\ In p l) as C.
  { intros p. pose proof (mapM_nth _ _ _ _ _ M) as N. pose proof (mapM_length _ _ _ _ _ M) as L.
    rewrite in_concat. split.
    - intros [l [I1 I2]]. apply In_nth_error in I1. destruct I1 as [i Hi].
      destruct (nth_error (m_diagrams m) i) as [d|] eqn:Hd.
      + destruct (N _ _ Hd) as [y [Hy Ey]]. rewrite Hi in Hy. inversion Hy; subst.
        exists d, y. eauto using nth_error_In.
      + apply nth_error_None in Hd. assert (i < length all)%nat by (apply nth_error_Some; congruence). lia.
    - intros [d [l [I1 [I2 I3]]]]. apply In_nth_error in I1. destruct I1 as [i Hi].
      destruct (N _ _ Hi) as [y [Hy Ey]]. rewrite I2 in Ey. inversion Ey; subst. exists y. eauto using nth_error_In. }
  exists a, b. split; auto. split; [apply C; auto|]. split; [apply C; auto|].
  intros d l x I1 I2 I3. split; [apply A2|apply B2]; apply C; eauto.
Qed.
Print Assumptions multi_default_slices_values.

(** Sails with the defaults 6, 8 and 5, 20: nineteen equal steps from 5 to 20. *)
Example multi_default_slices_case : exists ws,
  multi_default_slices (fun l => Ok l) (mkMulti ["A"; "B"]%string [[6; 8]; [20; 5]]) = Ok ws /\ nth_error ws 19 = Some 20.
Proof.
  destruct (proj2 (spread_total (concat [[6; 8]; [20; 5]]))) as [ws E]; [discriminate|].
  exists ws. split; [exact E|]. destruct (spread_spec _ _ E) as [a [b [[A1 A2] [[B1 B2] [L V]]]]]. simpl in A1, A2, B1, B2.
  assert (b = 20) as -> by (pose proof (B2 20); destruct B1 as [?|[?|[?|[?|[]]]]]; subst; lra).
  destruct (nth_error ws 19) as [x|] eqn:X; [|apply nth_error_None in X; lia].
  f_equal. rewrite (V _ _ X). simpl. field.
Qed.

(** If the wind speeds of a cloud spread over at most 38 knots, every point is in at
    least one of the default slices.  Missing: wider clouds, see below. *)
Theorem cloud_default_slices_cover_partial : forall cloud ws,
  cloud_default_slices cloud = Ok ws ->
  (forall p q, In p cloud -> In q cloud -> pws q - pws p <= 38) ->
  forall p, In p cloud -> exists i sl, nth_error (cloud_slices 1 cloud ws) i = Some sl /\ In p sl.
Proof.
  intros cloud ws E W p I. destruct (spread_spec _ _ E) as [a [b [[A1 A2] [[B1 B2] [L V]]]]].
  assert (exists i s, nth_error ws i = Some s /\ Rabs (pws p - s) <= 1) as [i [s [Hi S]]].
  { assert (a <= pws p <= b) as [P1 P2] by (split; [apply A2|apply B2]; apply in_map; auto).
    assert (b - a <= 38) as W'.
    { apply in_map_iff in A1. destruct A1 as [pa [<- Ia]]. apply in_map_iff in B1. destruct B1 as [pb [<- Ib]]. auto. }
    assert (forall i, (i <= 19)%nat -> exists x, nth_error ws i = Some x /\ x = a + INR i * ((b - a) / 19)) as N.
    { intros i Hi. destruct (nth_error ws i) as [x|] eqn:X.
      - exists x. split; auto. rewrite (V i x X). simpl (20 - 1)%nat. simpl (INR 19).
        replace (1+1+1+1+1+1+1+1+1+1+1+1+1+1+1+1+1+1+1) with 19 by lra. field.
      - apply nth_error_None in X. lia. }
    set (h := (b - a) / 19) in *. assert (0 <= h <= 2) as H by (unfold h; lra).
    assert (pws p <= a + INR 19 * h + 1) as T by (simpl (INR 19); unfold h; lra).
    assert (forall n, (n <= 19)%nat -> pws p <= a + INR n * h + 1 -> exists i s, nth_error ws i = Some s /\ Rabs (pws p - s) <= 1) as G.
    { induction n as [|n IH]; intros Hn Hp.
      - destruct (N 0%nat) as [x [X ->]]; [lia|]. exists 0%nat. eexists. split; eauto. simpl in *. apply Rabs_le. lra.
      - destruct (Rle_dec (pws p) (a + INR n * h + 1)) as [Y|Y]; [apply IH; auto; lia|].
        destruct (N (S n)) as [x [X ->]]; [lia|]. exists (S n). eexists. split; eauto.
        rewrite S_INR in *. apply Rabs_le. lra. }
    apply (G 19%nat); auto. }
  exists i. eexists. split.
  - unfold cloud_slices. rewrite nth_error_map, Hi. cbn [option_map]. reflexivity.
  - apply filter_In. split; auto. rnum. apply Rleb_le. rewrite nabs_R. auto.
Qed.
Print Assumptions cloud_default_slices_cover_partial.

Example cloud_default_slices_case : exists ws,
  cloud_default_slices [(4, 90, 3); (40, 60, 9); (7, 30, 2)] = Ok ws /\ nth_error ws 0 = Some 4.
Proof.
  destruct (proj2 (spread_total (map pws [(4, 90, 3); (40, 60, 9); (7, 30, 2)]))) as [ws E]; [discriminate|].
  exists ws. split; [exact E|]. destruct (spread_spec _ _ E) as [a [b [[A1 A2] [[B1 B2] [L V]]]]].
  unfold pws in *. simpl in A1, A2, B1, B2.
  assert (a = 4) as -> by (pose proof (A2 4); destruct A1 as [?|[?|[?|[]]]]; subst; lra).
  destruct (nth_error ws 0) as [x|] eqn:X; [|apply nth_error_None in X; lia].
  f_equal. rewrite (V _ _ X). simpl. field.
Qed.

(** The slices of the wind speeds 2, 4.5 and 97 are 5 knots apart: the point at 4.5
    knots is in none of them. *)
Theorem cloud_default_slices_cover_refuted :
  let cloud := [(2, 90, 3); (4.5, 90, 4); (97, 90, 9)] : list (pt3 R) in
  exists ws, cloud_default_slices cloud = Ok ws /\
    forall i sl, nth_error (cloud_slices 1 cloud ws) i = Some sl -> ~ In (4.5, 90, 4) sl.
Proof.
  intros cloud. destruct (proj2 (spread_total (map pws cloud))) as [ws E]; [discriminate|].
  exists ws. split; auto. destruct (spread_spec _ _ E) as [a [b [[A1 A2] [[B1 B2] [L V]]]]].
  unfold pws in *. simpl in A1, B1, A2, B2.
  assert (a = 2) as ->.
  { pose proof (A2 2 (or_introl eq_refl)). destruct A1 as [A1|[A1|[A1|[]]]]; lra. }
  assert (b = 97) as ->.
  { pose proof (B2 97 (or_intror (or_intror (or_introl eq_refl)))). destruct B1 as [B1|[B1|[B1|[]]]]; lra. }
  intros i sl H I.
  destruct (nth_error ws i) as [s|] eqn:S; [|unfold cloud_slices in H; rewrite nth_error_map, S in H; discriminate].
  destruct (cloud_slices_exact 1 cloud ws i s S) as [sl' [H' [M _]]].
  assert (sl' = sl) as -> by congruence. apply M in I. destruct I as [_ I]. unfold pws in I. cbn [fst] in I.
  specialize (V i s S). simpl (20 - 1)%nat in V. simpl (INR 19) in V.
  assert (s = 2 + 5 * INR i) as -> by (rewrite V; field).
  destruct i as [|[|i]].
  - simpl in I. rewrite Rabs_right in I; lra.
  - simpl in I. rewrite Rabs_left in I; lra.
  - rewrite !S_INR in I. pose proof (pos_INR i). rewrite Rabs_left in I; lra.
Qed.
Print Assumptions cloud_default_slices_cover_refuted.

(* ------------------------------------------------------------------ *)
(** ** C126 *)

(** With an interpolator, a slice of a cloud has one row for each of the angles, holding
    the interpolated boat speed.  Missing: the wind speeds and angles. *)
Theorem cloud_interp_slices_partial : forall call n ws slices, (2 <= n)%nat ->
  cloud_interp_slices call n ws = Ok slices ->
  length slices = length ws /\
  forall i s sl, nth_error ws i = Some s -> nth_error slices i = Some sl ->
    length sl = n /\ forall j row, nth_error sl j = Some row ->
      exists b, row = [b] /\ call s (INR j * 360 / INR (n - 1)) = Ok b.
Proof.
  intros call n ws slices N E. unfold cloud_interp_slices in E. split; [apply (mapM_length _ _ _ _ _ E)|].
  intros i s sl Hi Hs. destruct (mapM_nth _ _ _ _ _ E _ _ Hi) as [y [Hy Ey]]. rewrite Hs in Hy. inversion Hy; subst y.
  destruct (mapM (fun a => do b <- call s a; Ok [b]) (linspace 0 360 n)) as [rows|] eqn:M; cbn [rbind] in Ey; [|discriminate].
  assert (rows = sl) as -> by (destruct rows; inversion Ey; auto).
  pose proof (mapM_length _ _ _ _ _ M) as L. rewrite linspace_length in L. split; auto.
  intros j row Hj. assert (j < n)%nat as J by (rewrite <- L; apply nth_error_Some; congruence).
  assert (nth_error (linspace 0 360 n) j = Some (INR j * 360 / INR (n - 1))) as A.
  { rewrite linspace_nth by auto. f_equal. unfold Rdiv. ring. }
  destruct (mapM_nth _ _ _ _ _ M _ _ A) as [y [Hy' Ey']]. rewrite Hj in Hy'. inversion Hy'; subst y.
  destruct (call s (INR j * 360 / INR (n - 1))) as [b|]; cbn [rbind] in Ey'; [|discriminate].
  inversion Ey'. eauto.
Qed.
Print Assumptions cloud_interp_slices_partial.

(** So a slice is never an array of three rows with wind speeds, wind angles and boat
    speeds: its rows have one entry each, and with the default resolution there are 100
    of them. *)
Theorem cloud_interp_slices_refuted : forall call n s slices, (2 <= n)%nat ->
  cloud_interp_slices call n [s] = Ok slices ->
  ~ (exists ws wa bs, slices = [[ws; wa; bs]] /\ length ws = n /\ length wa = n /\ length bs = n).
Proof.
  intros call n s slices N E [ws [wa [bs [-> [H1 _]]]]].
  destruct (cloud_interp_slices_partial call n [s] _ N E) as [_ H].
  destruct (H 0%nat s _ eq_refl eq_refl) as [_ R]. destruct (R 0%nat ws eq_refl) as [b [-> _]]. simpl in H1. lia.
Qed.
Print Assumptions cloud_interp_slices_refuted.

Example cloud_interp_slices_case :
  cloud_interp_slices (fun s a => Ok s) 3 [8; 10] = Ok [[[8]; [8]; [8]]; [[10]; [10]; [10]]].
Proof. reflexivity. Qed.
