(** * Properties C76, C78, C79 and C100 to C106: [cruise] and its helpers *)

From Coq Require Import String List Bool Arith ZArith Reals Lra Lia Psatz Sorted Machin.
From Verif Require Import Py Num Dict Trig PySort ListX InterpModel GlobeModel GlobeProofs GlobeProps CruiseModel CruiseSpec ConvexProofs ConvexProps.
Import ListNotations.
Open Scope string_scope.
Open Scope list_scope.
Open Scope R_scope.

(** ** C76: the legs *)

Lemma speeds_at_unique : forall wa bsp a b, StronglySorted Rlt wa -> recorded wa bsp a b -> speeds_at wa bsp a = [b].
Proof.
  intros wa. induction wa as [|w wa IH]; intros [|v bsp] a b S I; try destruct I. 
  - injection H as -> ->. unfold speeds_at. cbn [combine filter fst]. rewrite Reqb_true by auto. cbn [map snd]. f_equal.
    inversion S as [|? ? _ F]; subst. rewrite Forall_forall in F. clear - F. revert bsp.
    induction wa as [|x wa IH]; intros [|y bsp]; auto. cbn [combine filter fst].
    rewrite Reqb_false by (assert (a < x) by (apply F; left; auto); lra). apply IH. intros z Z. apply F. right. auto.
  - inversion S as [|? ? S' F]; subst. unfold speeds_at. cbn [combine filter fst].
    rewrite Reqb_false. { apply IH; auto. }
    rewrite Forall_forall in F. apply in_combine_l in H. apply F in H. lra.
Qed.

Lemma cos_of_course : forall rhc wdir, cos rhc * cos wdir + sin rhc * sin wdir = cos (rhc - wdir).
Proof. intros. rewrite cos_minus. ring. Qed.

Lemma heading_range : forall x, -1 <= x <= 1 -> 0 <= 180 - rad2deg (acos x) < 360.
Proof.
  intros x H. pose proof (acos_bound x) as [A B].
  apply rad2deg_le in A. apply rad2deg_le in B. rewrite rad2deg_0 in A. rewrite rad2deg_PI in B. lra.
Qed.

(** C76.  The returned times are not negative, and the way sailed on the legs
    has exactly the length of the way from start to end.  If there are two legs,
    they lead in the direction the boat wants to go (relative to the wind), but
    not farther than the wanted distance ([_partial]: in general not as far, see
    [cruise_reaches_refuted]; if there is one leg, its direction may be wrong). *)
Theorem cruise_legs_partial : forall hull pd start end_ wind fmt data ws wdir sl r1 i1 r2 info vs rhc dist,
  wind_relative_to_north wind fmt = Ok (ws, wdir) ->
  pd_slices pd [ws] = Ok (sl :: r1, i1) -> pd_slices pd (map pt_ws sl) = Ok (sl :: r2, info) ->
  let wa := map pt_wa sl in let bsp := map pt_bsp sl in
  good_slice wa bsp -> hull (polar_pts wa bsp) = Ok vs -> hull_of (polar_pts wa bsp) vs -> info_fits info (length wa) ->
  right_handing_course start end_ = Ok rhc -> ellipsoid_distance start end_ = Ok dist -> 0 <= dist ->
  let heading := 180 - rad2deg (acos (cos (rhc - wdir))) in
  exists legs, cruise hull pd start end_ wind fmt None data = (data, Ok legs) /\
   ((exists a b t, legs = [(a, t)] /\ recorded wa bsp a b /\ 0 <= t /\ t * b = dist) \/
    (exists a1 b1 t1 a2 b2 t2 m, legs = [(a1, t1); (a2, t2)] /\ recorded wa bsp a1 b1 /\ recorded wa bsp a2 b2 /\
       0 <= t1 /\ 0 <= t2 /\ t1 * b1 + t2 * b2 = dist /\
       vadd2 (vscale t1 (velocity a1 b1)) (vscale t2 (velocity a2 b2)) = velocity heading m /\ 0 <= m <= dist)).
Proof.
  intros hull pd start end_ wind fmt data ws wdir sl r1 i1 r2 info vs rhc dist W S1 S2 wa bsp GOOD HV HULL INFO RHC DIST NN heading.
  pose proof (COS_bound (rhc - wdir)) as CB.
  assert (0 <= heading < 360) as HR by (apply heading_range; auto).
  destruct (convex_direction_partial hull wa bsp info heading vs GOOD HV HULL HR INFO) as [ds [CD CASES]].
  assert (convex_direction hull pd (map pt_ws sl) heading None = Ok ds) as CV.
  { unfold convex_direction. rewrite S2. cbn [rbind py_nth nth_error]. exact CD. }
  pose proof GOOD as [L [SS [BB [PP AA]]]].
  assert (cruise hull pd start end_ wind fmt None data =
    (data, cruise_on hull pd start end_ (map pt_ws sl) wa bsp wdir)) as E.
  { unfold cruise. rewrite W, S1. reflexivity. }
  rewrite E. unfold cruise_on. rewrite RHC. cbn [rbind]. rewrite cos_of_course, np_arccos_ok by auto. cbn [rbind].
  fold heading. rewrite CV. cbn [rbind]. rewrite DIST. cbn [rbind].
  destruct CASES as [[d1 [d2 [b1 [b2 [c [-> [P1 [P2 [PS [R1 [R2 [HC [VV BE]]]]]]]]]]]]]|
                     [d [i [j [lam [c [-> [DP [DA [IL [JL [_ [PB _]]]]]]]]]]]]].
  - rewrite (speeds_at_unique wa bsp (d_angle d1) b1), (speeds_at_unique wa bsp (d_angle d2) b2) by auto.
    set (den := d_prop d1 * b1 + d_prop d2 * b2).
    assert (c <= den) as CD'.
    { assert (c = vdot (heading_vec heading) (velocity heading c)) as ->.
      { unfold velocity. rewrite vdot_scale_r. unfold vdot, heading_vec. cbn. pose proof (sin2_cos2 (deg2rad heading)) as Q. unfold Rsqr in Q. nra. }
      rewrite <- VV, vdot_add_r, !vdot_scale_r.
      assert (forall a b, 0 <= b -> vdot (heading_vec heading) (velocity a b) <= b) as K.
      { intros a b B. replace (heading_vec heading) with (velocity heading 1) by (unfold velocity, vscale; destruct (heading_vec heading); cbn; f_equal; ring).
        rewrite velocity_dot. pose proof (COS_bound (deg2rad (heading - a))). nra. }
      rewrite Forall_forall in PP.
      assert (0 <= b1) as B1 by (apply PP; eapply in_combine_r; apply R1).
      assert (0 <= b2) as B2 by (apply PP; eapply in_combine_r; apply R2).
      pose proof (K (d_angle d1) b1 B1). pose proof (K (d_angle d2) b2 B2). unfold den. nra. }
    rewrite np_div_ok by lra. cbn [rbind]. eexists. split; [reflexivity|]. right.
    assert (0 < / den) as ID by (apply Rinv_0_lt_compat; lra).
    assert (0 <= dist / den) as TD by (unfold Rdiv; nra).
    exists (d_angle d1), b1, (d_prop d1 * (dist / den)), (d_angle d2), b2, (d_prop d2 * (dist / den)), (dist / den * c).
    split; [reflexivity|]. split; auto. split; auto. split; [nra|]. split; [nra|]. split; [|split; [|split]].
    + replace (d_prop d1 * (dist / den) * b1 + d_prop d2 * (dist / den) * b2) with (dist / den * den) by (unfold den; ring). field. lra.
    + replace (velocity heading (dist / den * c)) with (vscale (dist / den) (velocity heading c)) by (unfold velocity, vscale; cbn; f_equal; ring).
      rewrite <- VV. unfold vadd2, vscale. cbn. f_equal; ring.
    + nra.
    + replace dist with (dist / den * den) at 2 by (field; lra). nra.
  - rewrite (speeds_at_unique wa bsp (d_angle d) (nth i bsp 0)); auto.
    + rewrite np_div_ok by lra. cbn [rbind]. eexists. split; [reflexivity|]. left. exists (d_angle d), (nth i bsp 0), (dist / nth i bsp 0).
      split; [reflexivity|]. split; [|split].
      * rewrite DA. unfold recorded. rewrite <- combine_nth by auto. apply nth_In. rewrite combine_length. lia.
      * assert (0 < / nth i bsp 0) by (apply Rinv_0_lt_compat; auto). unfold Rdiv. nra.
      * field. lra.
    + rewrite DA. unfold recorded. rewrite <- combine_nth by auto. apply nth_In. rewrite combine_length. lia.
Qed.
Print Assumptions cruise_legs_partial.

(** A diagram with one slice, for all wind speeds. *)
Definition slice5 : list (pt3 R) := map (fun p => (10, fst p, snd p)) (combine wa5 bsp5).
Definition pd5 : diagram := mkDiagram (fun _ => Ok ([slice5], None)) (fun _ _ => Ok 5).
Definition hull5f : list (R * R) -> result (list nat) := fun _ => Ok [1; 0; 4; 3]%nat.

Lemma slice5_wa : map pt_wa slice5 = wa5. Proof. reflexivity. Qed.
Lemma slice5_bsp : map pt_bsp slice5 = bsp5. Proof. reflexivity. Qed.

Lemma course_example : right_handing_course (0, 0) (0, PI / 2) = Ok 0.
Proof.
  unfold right_handing_course. cbn [fst snd]. rewrite Rminus_0_r, cos_0, sin_0, sin_PI2, cos_PI2.
  match goal with |- context [1 - ?d * ?d] => replace (1 - d * d) with 1 by ring end.
  rewrite sqrt_1, Rltb_false by lra. rewrite np_div_ok by lra. cbn [rbind].
  rewrite np_arccos_ok by lra. f_equal. replace ((1 * 1 - 1 * 0 * 0) / 1) with 1 by field. apply acos_1.
Qed.

Lemma distance_example : exists d, ellipsoid_distance (0, 0) (0, PI / 2) = Ok d /\ 0 < d.
Proof.
  pose proof PI_RGT_0 as PP. pose proof PI2_3_2 as P32.
  assert (deg2rad (PI / 4) > 0) as OM by (unfold deg2rad; nra).
  unfold ellipsoid_distance. cbn [fst snd].
  replace ((0 + PI / 2) / 2) with (PI / 4) by field. replace ((0 - PI / 2) / 2) with (- (PI / 4)) by field.
  replace ((0 - 0) / 2) with 0 by field. rewrite sin_neg, cos_neg, sin_0, cos_0, sin_PI4, cos_PI4.
  assert (1 / sqrt 2 * (1 / sqrt 2) = 1 / 2) as HH.
  { replace (1 / sqrt 2 * (1 / sqrt 2)) with (1 / (sqrt 2 * sqrt 2)) by (field; apply Rgt_not_eq; apply sqrt_lt_R0; lra).
    rewrite sqrt_sqrt by lra. reflexivity. }
  set (q := 1 / sqrt 2) in *.
  replace ((- q * 1) ^ 2 + (q * 0) ^ 2) with (1 / 2) by nra. replace ((q * 1) ^ 2 + (q * 0) ^ 2) with (1 / 2) by nra.
  rewrite np_div_ok by lra. cbn [rbind]. replace (1 / 2 / (1 / 2)) with 1 by field. rewrite sqrt_1, atan_1.
  rewrite np_div_ok by lra. cbn [rbind]. rewrite !np_div_ok by lra. cbn [rbind].
  eexists. split; [reflexivity|]. apply Rmult_lt_0_compat.
  - unfold EQUATOR_CIRCUMFERENCE. apply Rdiv_lt_0_compat; nra.
  - set (t := sqrt (1 / 2 * (1 / 2)) / deg2rad (PI / 4)).
    replace ((q * q) ^ 2) with (1 / 4) by nra. replace ((q * - q) ^ 2) with (1 / 4) by nra.
    unfold EARTH_FLATTENING. replace ((3 * t - 1) / (2 * (1 / 2)) * (1 / 4) - (3 * t + 1) / (2 * (1 / 2)) * (1 / 4)) with (- (1 / 2)) by field.
    lra.
Qed.

(** C76 fails: a boat that has to zigzag sails legs with the total length of the
    way from start to end, so it does not arrive. *)
Theorem cruise_reaches_refuted : exists dist t1 t2 m,
  ellipsoid_distance (0, 0) (0, PI / 2) = Ok dist /\
  cruise hull5f pd5 (0, 0) (0, PI / 2) [10; 0] "ws_wan" None None = (None, Ok [(135, t1); (225, t2)]) /\
  hull_of (polar_pts wa5 bsp5) [1; 0; 4; 3]%nat /\
  vadd2 (vscale t1 (velocity 135 (sqrt 2))) (vscale t2 (velocity 225 (sqrt 2))) = velocity 180 m /\ 0 < m < dist.
Proof.
  destruct distance_example as [d [D P]].
  assert (0 < sqrt 2) as S2 by (apply sqrt_lt_R0; lra).
  assert (1 < sqrt 2) as S1 by (rewrite <- sqrt_1; apply sqrt_lt_1; lra).
  exists d, (1 / 2 * (d / sqrt 2)), (1 / 2 * (d / sqrt 2)), (d / sqrt 2). split; auto. split; [|split; [exact hull5|split]].
  - unfold cruise. cbn [wind_relative_to_north String.eqb Ascii.eqb Bool.eqb]. cbn [pd_slices pd5 rbind fst py_nth nth_error].
    f_equal. unfold cruise_on. rewrite course_example. cbn [rbind]. rewrite cos_of_course, Rminus_0_r, cos_0, np_arccos_ok by lra.
    cbn [rbind]. rewrite acos_1, rad2deg_0, Rminus_0_r.
    assert (convex_direction hull5f pd5 (map pt_ws slice5) 180 None = Ok [mkDir 135 (1 / 2) None; mkDir 225 (1 - 1 / 2) None]) as ->.
    { unfold convex_direction. cbn [pd_slices pd5 rbind py_nth nth_error]. rewrite slice5_wa, slice5_bsp. exact convex5_180. }
    cbn [rbind]. rewrite D. cbn [rbind d_angle d_prop]. rewrite slice5_wa, slice5_bsp.
    rewrite (speeds_at_unique wa5 bsp5 135 (sqrt 2)), (speeds_at_unique wa5 bsp5 225 (sqrt 2));
      try (apply good5); try (unfold recorded; cbn; auto 6).
    rewrite np_div_ok by lra. cbn [rbind].
    replace (1 / 2 * sqrt 2 + (1 - 1 / 2) * sqrt 2) with (sqrt 2) by field. replace (1 - 1 / 2) with (1 / 2) by field. reflexivity.
  - assert (velocity 135 (sqrt 2) = (-1, 1)) as V1.
    { pose proof square5_polar as E. apply (f_equal (fun l => nth 1 l (0, 0))) in E. cbn in E. rewrite <- polar_velocity. exact E. }
    assert (velocity 225 (sqrt 2) = (-1, -1)) as V2.
    { pose proof square5_polar as E. apply (f_equal (fun l => nth 3 l (0, 0))) in E. cbn in E. rewrite <- polar_velocity. exact E. }
    rewrite V1, V2. unfold velocity, heading_vec, vadd2, vscale. cbn [fst snd]. rewrite deg2rad_180, cos_PI, sin_PI. f_equal; field; lra.
  - split; [apply Rdiv_lt_0_compat; auto|]. apply (Rmult_lt_reg_r (sqrt 2)); auto. replace (d / sqrt 2 * sqrt 2) with d by (field; lra). nra.
Qed.
Print Assumptions cruise_reaches_refuted.

(** The hypotheses of [cruise_legs_partial] can be met. *)
Example cruise_legs_example : exists legs,
  cruise hull5f pd5 (0, 0) (0, PI / 2) [10; 0] "ws_wan" None None = (None, Ok legs).
Proof.
  destruct distance_example as [d [D P]].
  destruct (cruise_legs_partial hull5f pd5 (0, 0) (0, PI / 2) [10; 0] "ws_wan" None 10 0 slice5 [] None [] None [1; 0; 4; 3]%nat 0 d
    eq_refl eq_refl eq_refl good5 eq_refl hull5 I course_example D) as [legs [E _]]; [lra|]. exists legs. exact E.
Qed.

(** ** Bounds for pi *)

Lemma pi_bounds : 3.14 < PI < 3.15.
Proof.
  pose proof (PI_2_3_7_ineq 1) as [L U].
  unfold sum_f_R0, tg_alt, PI_2_3_7_tg, Ratan_seq in L, U. cbn [Nat.mul Nat.add pow INR] in L, U.
  split; lra.
Qed.

(** ** C100: the wind direction is an angle *)

(** The directions 0 and 360 are the same, but the wind angle in degrees is used as
    an angle in radians. *)
Theorem cruise_wind_period_refuted :
  snd (cruise hull5f pd5 (0, 0) (0, PI / 2) [10; 360] "ws_wan" None None) <>
  snd (cruise hull5f pd5 (0, 0) (0, PI / 2) [10; 0] "ws_wan" None None).
Proof.
  destruct cruise_reaches_refuted as [d [t1 [t2 [m [D [E _]]]]]]. rewrite E. cbn [snd].
  unfold cruise. cbn [wind_relative_to_north String.eqb Ascii.eqb Bool.eqb]. cbn [pd_slices pd5 rbind fst py_nth nth_error snd].
  unfold cruise_on. rewrite course_example. cbn [rbind]. rewrite cos_of_course.
  pose proof pi_bounds as [PL PU].
  replace (cos (0 - 360)) with (cos (360 - 114 * PI)).
  2: { replace (0 - 360) with (- (360)) by ring. rewrite cos_neg. replace (360 - 114 * PI) with (360 + 2 * IZR (-57) * PI) by (simpl; ring).
       apply cos_period_Z. }
  rewrite np_arccos_ok by apply COS_bound. cbn [rbind]. rewrite acos_cos by lra.
  set (hd := 180 - rad2deg (360 - 114 * PI)).
  assert (45 < hd < 135) as HD.
  { unfold hd. assert (45 < rad2deg (360 - 114 * PI) < 135); [|lra].
    assert (45 = rad2deg (PI / 4)) as E1 by (unfold rad2deg; field; lra).
    assert (135 = rad2deg (3 * PI / 4)) as E2 by (unfold rad2deg; field; lra).
    rewrite E1 at 1. rewrite E2. split; apply rad2deg_lt; lra. }
  assert (convex_direction hull5f pd5 (map pt_ws slice5) hd None = Ok [mkDir 45 1 None]) as ->.
  { unfold convex_direction. cbn [pd_slices pd5 rbind py_nth nth_error]. rewrite slice5_wa, slice5_bsp.
    unfold convex_dir. change (broadcast bsp5 (length wa5)) with (Ok bsp5). cbn [rbind]. cbn [hull5f rbind].
    unfold find_edge. change (py_sorted Nat.leb [1; 0; 4; 3]%nat) with [0; 1; 3; 4]%nat. unfold wa5. cbn [find_pair nth].
    rewrite !Rleb_true by lra. reflexivity. }
  cbn [rbind]. rewrite D. cbn [rbind d_angle].
  destruct (speeds_at _ _ 45) as [|b [|b' l]]; [discriminate| |discriminate].
  destruct (np_div d b); discriminate.
Qed.
Print Assumptions cruise_wind_period_refuted.

(** ** C102: the true wind from the wind components *)

(** The speed is right, the angle is (heading - 90 + direction of the wind). *)
Theorem uvgrid_to_tw_value : forall w from hdt, 0 < w ->
  uvgrid_to_tw (fst (wind_from w from)) (snd (wind_from w from)) hdt = (w, nmod (hdt - 90 + from) 360).
Proof.
  intros w from hdt W. unfold uvgrid_to_tw, wind_from. cbn [fst snd].
  set (u := - w * sin (deg2rad from)). set (v := - w * cos (deg2rad from)).
  assert (sqrt (u ^ 2 + v ^ 2) = w) as TW.
  { apply sqrt_cancel; [lra|]. unfold u, v. pose proof (sin2_cos2 (deg2rad from)) as S. unfold Rsqr in S. nra. }
  destruct (atan2_polar u v) as [A B]. replace (u * u + v * v) with (u ^ 2 + v ^ 2) in A, B by ring. rewrite TW in A, B.
  rewrite TW. f_equal. set (t := atan2 v u) in *.
  assert (180 / PI * t = rad2deg t) as -> by (unfold rad2deg; field; pose proof PI_RGT_0; lra).
  assert (cos t = - sin (deg2rad from)) as CT by (apply (Rmult_eq_reg_l w); [unfold u in A; lra|lra]).
  assert (sin t = - cos (deg2rad from)) as ST by (apply (Rmult_eq_reg_l w); [unfold v in B; lra|lra]).
  apply angle_unique_deg; try (apply nmod_range; lra).
  - rewrite !cos_deg_mod.
    replace (deg2rad (hdt - nmod (180 + rad2deg t) 360)) with (deg2rad hdt - deg2rad (nmod (180 + rad2deg t) 360)) by (unfold deg2rad; field).
    rewrite cos_minus, cos_deg_mod, sin_deg_mod.
    replace (deg2rad (180 + rad2deg t)) with (t + PI) by (unfold deg2rad, rad2deg; field; pose proof PI_RGT_0; lra).
    rewrite neg_cos, neg_sin, CT, ST.
    replace (deg2rad (hdt - 90 + from)) with (deg2rad hdt + deg2rad from - PI / 2) by (unfold deg2rad; field).
    rewrite cos_minus, cos_PI2, sin_PI2, sin_plus. ring.
  - rewrite !sin_deg_mod.
    replace (deg2rad (hdt - nmod (180 + rad2deg t) 360)) with (deg2rad hdt - deg2rad (nmod (180 + rad2deg t) 360)) by (unfold deg2rad; field).
    rewrite sin_minus, cos_deg_mod, sin_deg_mod.
    replace (deg2rad (180 + rad2deg t)) with (t + PI) by (unfold deg2rad, rad2deg; field; pose proof PI_RGT_0; lra).
    rewrite neg_cos, neg_sin, CT, ST.
    replace (deg2rad (hdt - 90 + from)) with (deg2rad hdt + deg2rad from - PI / 2) by (unfold deg2rad; field).
    rewrite sin_minus, cos_PI2, sin_PI2, cos_plus. ring.
Qed.
Print Assumptions uvgrid_to_tw_value.

(** C102: the wind speed is the length of the wind vector, and the wind angle is
    in [0, 360) ([_partial]: the angle is not the one to the bow). *)
Theorem uvgrid_to_tw_partial : forall w from hdt, 0 < w ->
  let r := uvgrid_to_tw (fst (wind_from w from)) (snd (wind_from w from)) hdt in
  fst r = w /\ 0 <= snd r < 360.
Proof.
  intros w from hdt W. cbn zeta. rewrite uvgrid_to_tw_value by auto. cbn. split; auto. apply nmod_range. lra.
Qed.
Print Assumptions uvgrid_to_tw_partial.

(** C102 fails for a boat sailing north with the wind from the north: not 0, but 270. *)
Theorem uvgrid_head_wind_refuted : forall w, 0 < w ->
  uvgrid_to_tw (fst (wind_from w 0)) (snd (wind_from w 0)) 0 = (w, 270).
Proof.
  intros w W. rewrite uvgrid_to_tw_value by auto. f_equal.
  rewrite <- (nmod_period _ 360 1) by lra. replace (0 - 90 + 0 + 360 * IZR 1) with 270 by (simpl; ring). apply nmod_small. lra.
Qed.
Print Assumptions uvgrid_head_wind_refuted.

(** Straight into the wind is recognised as such only on the courses 45 and 225. *)
Theorem uvgrid_head_wind_iff : forall w h, 0 < w -> 0 <= h < 360 ->
  snd (uvgrid_to_tw (fst (wind_from w h)) (snd (wind_from w h)) h) = 0 <-> h = 45 \/ h = 225.
Proof.
  intros w h W H. rewrite uvgrid_to_tw_value by auto. cbn [snd]. split.
  - intros Z. destruct (nmod_cong (h - 90 + h) 360) as [k K]. rewrite Z in K.
    assert (k = 0 \/ k = 1)%Z as [-> | ->].
    { assert (-1 < IZR k < 2) as [A B] by (split; lra).
      apply lt_IZR in A. apply lt_IZR in B. lia. }
    + left. simpl in K. lra.
    + right. simpl in K. lra.
  - intros [-> | ->].
    + replace (45 - 90 + 45) with 0 by ring. apply nmod_small. lra.
    + replace (225 - 90 + 225) with (0 + 360 * IZR 1) by (simpl; ring). rewrite nmod_period by lra. apply nmod_small. lra.
Qed.
Print Assumptions uvgrid_head_wind_iff.

(** ** C79: wind components *)

(** The wind components are determined by speed and direction ... *)
Theorem uv_components : forall u v ws wdir, wind_relative_to_north [u; v] "uv_grd" = Ok (ws, wdir) ->
  0 <= ws /\ ws * cos (deg2rad wdir) = u /\ ws * sin (deg2rad wdir) = v /\ -180 < wdir <= 180.
Proof.
  intros u v ws wdir E. cbn in E. injection E as <- <-.
  replace (180 / PI * atan2 v u) with (rad2deg (atan2 v u)) by (unfold rad2deg; field; pose proof PI_RGT_0; lra).
  rewrite deg2rad_rad2deg. split; [apply sqrt_pos|]. destruct (atan2_polar u v) as [A B]. split; auto. split; auto.
  destruct (atan2_range u v) as [L U]. apply rad2deg_lt in L. apply rad2deg_le in U. rewrite rad2deg_PI in U.
  replace (rad2deg (- PI)) with (-180) in L by (unfold rad2deg; field; pose proof PI_RGT_0; lra). lra.
Qed.
Print Assumptions uv_components.

(** ... and determine them. *)
Theorem uv_components_back : forall ws wdir, 0 < ws -> -180 < wdir <= 180 ->
  wind_relative_to_north [ws * cos (deg2rad wdir); ws * sin (deg2rad wdir)] "uv_grd" = Ok (ws, wdir).
Proof.
  intros ws wdir W D. cbn [wind_relative_to_north String.eqb Ascii.eqb Bool.eqb]. f_equal. f_equal.
  - apply sqrt_cancel; [lra|]. pose proof (sin2_cos2 (deg2rad wdir)) as S. unfold Rsqr in S. nra.
  - rewrite atan2_unique; auto.
    + unfold deg2rad. field. pose proof PI_RGT_0. lra.
    + replace (- PI) with (deg2rad (-180)) by (unfold deg2rad; field). rewrite <- deg2rad_180. split; [apply deg2rad_lt|apply deg2rad_le]; lra.
Qed.
Print Assumptions uv_components_back.

Theorem tw_components : forall u v hdt tws twa, uvgrid_to_tw u v hdt = (tws, twa) ->
  0 <= tws /\ 0 <= twa < 360 /\ u = - tws * cos (deg2rad (hdt - twa)) /\ v = - tws * sin (deg2rad (hdt - twa)).
Proof.
  intros u v hdt tws twa E. unfold uvgrid_to_tw in E. injection E as <- <-.
  split; [apply sqrt_pos|]. split; [apply nmod_range; lra|].
  destruct (atan2_polar u v) as [A B]. replace (u * u + v * v) with (u ^ 2 + v ^ 2) in A, B by ring. set (w := sqrt (u ^ 2 + v ^ 2)) in *.
  set (t := atan2 v u) in *.
  assert (180 / PI * t = rad2deg t) as -> by (unfold rad2deg; field; pose proof PI_RGT_0; lra).
  set (a := nmod (180 + rad2deg t) 360).
  assert (cos (deg2rad (hdt - nmod (hdt - a) 360)) = - cos t /\ sin (deg2rad (hdt - nmod (hdt - a) 360)) = - sin t) as [C S].
  { replace (deg2rad (hdt - nmod (hdt - a) 360)) with (deg2rad hdt - deg2rad (nmod (hdt - a) 360)) by (unfold deg2rad; field).
    rewrite cos_minus, sin_minus, cos_deg_mod, sin_deg_mod.
    replace (deg2rad (hdt - a)) with (deg2rad hdt - deg2rad a) by (unfold deg2rad; field).
    rewrite <- cos_minus, <- sin_minus. replace (deg2rad hdt - (deg2rad hdt - deg2rad a)) with (deg2rad a) by ring.
    unfold a. rewrite cos_deg_mod, sin_deg_mod.
    replace (deg2rad (180 + rad2deg t)) with (t + PI) by (unfold deg2rad, rad2deg; field; pose proof PI_RGT_0; lra).
    rewrite neg_cos, neg_sin. auto. }
  rewrite C, S. change (sqrt (u * (u * 1) + v * (v * 1))) with w. split; lra.
Qed.
Print Assumptions tw_components.

(** The direction is a number "between 0 and 360" for the formats "ws_wa_hdt" ... *)
Theorem wind_direction_range_partial : forall wind ws wdir, wind_relative_to_north wind "ws_wa_hdt" = Ok (ws, wdir) ->
  0 <= wdir < 360.
Proof.
  intros wind ws wdir E. destruct wind as [|a [|b [|c [|d l]]]]; cbn in E; try discriminate. injection E as <- <-. apply nmod_range. lra.
Qed.
Print Assumptions wind_direction_range_partial.

(** ... but not for "uv_grd". *)
Theorem wind_direction_range_refuted : wind_relative_to_north [0; -1] "uv_grd" = Ok (1, -90).
Proof.
  pose proof (uv_components_back 1 (-90)) as H. 
  replace (deg2rad (-90)) with (- (PI / 2)) in H by (unfold deg2rad; field). rewrite cos_neg, sin_neg, cos_PI2, sin_PI2 in H.
  replace (1 * 0) with 0 in H by ring. replace (1 * - (1)) with (-1) in H by ring. apply H; lra.
Qed.
Print Assumptions wind_direction_range_refuted.

(** ** C105: the wind formats *)

(** The same wind, given by its components and given by speed, true wind angle
    (computed by the function of the same module) and heading, comes out with
    opposite directions. *)
Theorem wind_formats_opposite : forall u v hdt tws twa, uvgrid_to_tw u v hdt = (tws, twa) ->
  exists d d', wind_relative_to_north [u; v] "uv_grd" = Ok (tws, d) /\
    wind_relative_to_north [tws; twa; hdt] "ws_wa_hdt" = Ok (tws, d') /\ d' = nmod (d + 180) 360.
Proof.
  intros u v hdt tws twa E. unfold uvgrid_to_tw in E. injection E as <- <-.
  exists (180 / PI * atan2 v u), (nmod (hdt - nmod (hdt - nmod (180 + 180 / PI * atan2 v u) 360) 360) 360).
  cbn [wind_relative_to_north String.eqb Ascii.eqb Bool.eqb]. replace (u * u + v * v) with (u ^ 2 + v ^ 2) by ring.
  split; auto. split; auto.
  set (x := 180 / PI * atan2 v u). destruct (nmod_cong (180 + x) 360) as [k K]. set (a := nmod (180 + x) 360) in *.
  destruct (nmod_cong (hdt - a) 360) as [j J]. set (b := nmod (hdt - a) 360) in *.
  replace (x + 180) with (a + 360 * IZR k) by lra. rewrite nmod_period by lra.
  replace (hdt - b) with (a + 360 * IZR j) by lra. rewrite nmod_period by lra. reflexivity.
Qed.
Print Assumptions wind_formats_opposite.

Theorem wind_formats_refuted : exists u v hdt tws twa, uvgrid_to_tw u v hdt = (tws, twa) /\
  exists d d', wind_relative_to_north [u; v] "uv_grd" = Ok (tws, d) /\
    wind_relative_to_north [tws; twa; hdt] "ws_wa_hdt" = Ok (tws, d') /\ forall k, d' <> d + 360 * IZR k.
Proof.
  exists 1, 0, 0. destruct (uvgrid_to_tw 1 0 0) as [tws twa] eqn:E. exists tws, twa. split; auto.
  destruct (wind_formats_opposite _ _ _ _ _ E) as [d [d' [A [B ->]]]]. exists d, (nmod (d + 180) 360). split; auto. split; auto.
  intros k K. destruct (nmod_cong (d + 180) 360) as [j J]. rewrite K in J.
  assert (IZR (2 * (k + j)) = 1) as Z by (rewrite mult_IZR, plus_IZR; lra).
  apply eq_IZR in Z. lia.
Qed.
Print Assumptions wind_formats_refuted.

(** ** C79: the projection *)

(** The projection and its inverse, between the poles of the second coordinate. *)
Theorem mercator_inverse : forall p lat_mp, -90 < snd p < 90 ->
  exists q, mercator_proj p lat_mp = Ok q /\ inverse_mercator_proj q lat_mp = p.
Proof.
  intros [x y] m H. cbn [snd] in H. unfold mercator_proj. cbn [fst snd].
  replace (PI * y / 180) with (deg2rad y) by (unfold deg2rad; field). rewrite np_tan_ok by auto. cbn [rbind].
  eexists. split; [reflexivity|]. unfold inverse_mercator_proj. cbn [fst snd]. f_equal; [field|].
  replace (69 * arcsinh (tan (deg2rad y)) / 69) with (arcsinh (tan (deg2rad y))) by field.
  rewrite tanh_arcsinh by auto. rewrite asin_sin.
  - unfold deg2rad. field. pose proof PI_RGT_0. lra.
  - rewrite <- deg2rad_90. replace (- deg2rad 90) with (deg2rad (-90)) by (unfold deg2rad; field).
    split; apply deg2rad_le; lra.
Qed.
Print Assumptions mercator_inverse.

Lemma tanh_bound : forall x, -1 < tanh x < 1.
Proof.
  intros x. unfold tanh, sinh, cosh. pose proof (exp_pos x). pose proof (exp_pos (- x)).
  replace ((exp x - exp (- x)) / 2 / ((exp x + exp (- x)) / 2)) with ((exp x - exp (- x)) / (exp x + exp (- x))) by (field; lra).
  split.
  - apply (Rmult_lt_reg_r (exp x + exp (- x))); [lra|].
    replace ((exp x - exp (- x)) / (exp x + exp (- x)) * (exp x + exp (- x))) with (exp x - exp (- x)) by (field; lra). lra.
  - apply (Rmult_lt_reg_r (exp x + exp (- x))); [lra|].
    replace ((exp x - exp (- x)) / (exp x + exp (- x)) * (exp x + exp (- x))) with (exp x - exp (- x)) by (field; lra). lra.
Qed.

(** In the other direction: every point of the plane. *)
Theorem mercator_inverse_back : forall q lat_mp,
  mercator_proj (inverse_mercator_proj q lat_mp) lat_mp = Ok q /\ -90 < snd (inverse_mercator_proj q lat_mp) < 90.
Proof.
  intros [x y] m. unfold inverse_mercator_proj, mercator_proj. cbn [fst snd].
  pose proof (tanh_bound (y / 69)) as TB. set (t := tanh (y / 69)) in *.
  replace (PI * (180 / PI * asin t) / 180) with (asin t) by (field; pose proof PI_RGT_0; lra).
  assert (- (PI / 2) < asin t < PI / 2) as AB by (apply asin_bound_lt; lra).
  assert (0 < cos (asin t)) as CP by (apply cos_gt_0; lra).
  assert (-90 < 180 / PI * asin t < 90) as R.
  { replace (180 / PI * asin t) with (rad2deg (asin t)) by (unfold rad2deg; field; pose proof PI_RGT_0; lra).
    assert (-90 = rad2deg (- (PI / 2))) as -> by (unfold rad2deg; field; pose proof PI_RGT_0; lra).
    assert (90 = rad2deg (PI / 2)) as -> by (unfold rad2deg; field; pose proof PI_RGT_0; lra).
    split; apply rad2deg_lt; lra. }
  split; auto. unfold np_tan. rewrite Reqb_false by lra. cbn [rbind]. f_equal. f_equal; [field|].
  assert (arcsinh (tan (asin t)) = y / 69) as ->; [|field].
  assert (tan (asin t) = sinh (y / 69)) as ->; [|apply arcsinh_sinh].
  unfold tan. rewrite sin_asin by lra. rewrite cos_asin by lra. unfold t, tanh.
  assert (cosh (y / 69) * cosh (y / 69) - sinh (y / 69) * sinh (y / 69) = 1) as HY.
  { unfold cosh, sinh. assert (exp (y / 69) * exp (- (y / 69)) = 1) by (rewrite <- exp_plus; replace (y / 69 + - (y / 69)) with 0 by ring; apply exp_0). nra. }
  assert (0 < cosh (y / 69)) as CH by (unfold cosh; pose proof (exp_pos (y / 69)); pose proof (exp_pos (- (y / 69))); lra).
  set (c := cosh (y / 69)) in *. set (s := sinh (y / 69)) in *.
  assert (sqrt (1 - (s / c)²) = 1 / c) as ->.
  { apply sqrt_cancel; [left; apply Rdiv_lt_0_compat; lra|]. unfold Rsqr. field_simplify; try lra. f_equal. lra. }
  field. lra.
Qed.
Print Assumptions mercator_inverse_back.

(** Beyond the poles (for longitudes, as the parameter is named, an ordinary
    value), the inverse returns another point: 120 becomes -60. *)
Theorem mercator_inverse_refuted : exists q, mercator_proj (0, 120) 0 = Ok q /\ inverse_mercator_proj q 0 = (0, -60).
Proof.
  destruct (mercator_inverse (0, -60) 0) as [q [E I]]; [cbn; lra|]. exists q. split; auto.
  rewrite <- E. unfold mercator_proj. cbn [fst snd].
  assert (PI * 120 / 180 = PI * -60 / 180 + PI) as -> by field.
  unfold np_tan, tan. rewrite neg_cos, neg_sin.
  assert (0 < cos (PI * -60 / 180)) as CP by (apply cos_gt_0; pose proof PI_RGT_0; lra).
  rewrite !Reqb_false by lra. cbn [rbind].
  replace (- sin (PI * -60 / 180) / - cos (PI * -60 / 180)) with (sin (PI * -60 / 180) / cos (PI * -60 / 180)) by (field; lra). reflexivity.
Qed.
Print Assumptions mercator_inverse_refuted.
