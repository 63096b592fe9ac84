(** * Properties C103, C104, C106 and C109: courses, distances and influence in [cruise] *)

From Coq Require Import String List Bool Arith ZArith Reals Lra Lia Psatz Sorted.
From Verif Require Import Py Num Dict Trig PySort ListX InterpModel GlobeModel GlobeProofs GlobeProps CruiseModel CruiseSpec ConvexProofs ConvexProps CruiseProps.
Import ListNotations.
Open Scope string_scope.
Open Scope list_scope.
Open Scope R_scope.

(** ** C103: the course *)

Lemma sin_acos_sqrt : forall x, -1 <= x <= 1 -> sin (acos x) = sqrt (1 - x * x).
Proof. intros x H. rewrite sin_acos by auto. reflexivity. Qed.

(** C103.  From a start on the equator, going east, the course is the bearing of the
    great circle (angles in radians; [_partial]: this is false for other starts and
    for the way west). *)
Theorem course_equator_partial : forall a b, snd a = 0 ->
  0 <= bearing_sin a b -> (bearing_cos a b <> 0 \/ bearing_sin a b <> 0) ->
  exists theta, right_handing_course a b = Ok theta /\ is_bearing a b theta /\ 0 <= theta <= PI.
Proof.
  intros [x y] [x' y'] E BS NZ. cbn [snd] in E. subst y. unfold is_bearing, bearing_sin, bearing_cos, right_handing_course in *. cbn [fst snd] in *.
  rewrite cos_0, sin_0 in *.
  replace (1 * sin y' - 0 * cos y' * cos (x' - x)) with (sin y') in * by ring.
  replace (cos (x - x')) with (cos (x' - x)) by (rewrite <- cos_neg; f_equal; ring).
  replace (1 * sin y' - cos (x' - x) * cos y' * 0) with (sin y') by ring.
  replace (cos (x' - x) * 1 * cos y' + 0 * cos y') with (cos (x' - x) * cos y') by ring.
  pose proof (sin2_cos2 y') as S1. pose proof (sin2_cos2 (x' - x)) as S2. unfold Rsqr in S1, S2.
  set (d := x' - x) in *.
  assert (1 - cos d * cos y' * (cos d * cos y') = sin y' * sin y' + sin d * cos y' * (sin d * cos y')) as R by nra.
  rewrite R. set (n := sin y') in *. set (e := sin d * cos y') in *.
  assert (0 < n * n + e * e) as P by (destruct NZ; nra).
  rewrite Rltb_false by lra. set (k := sqrt (n * n + e * e)).
  assert (0 < k) as K by (apply sqrt_lt_R0; auto). assert (k * k = n * n + e * e) as KK by (apply sqrt_sqrt; lra).
  rewrite np_div_ok by lra. cbn [rbind].
  assert (-1 <= n / k <= 1) as NK.
  { assert (- k <= n <= k) by nra. split; apply (Rmult_le_reg_r k); auto; replace (n / k * k) with n by (field; lra); lra. }
  rewrite np_arccos_ok by auto. eexists. split; [reflexivity|]. split; [|apply acos_bound].
  exists k. split; auto. rewrite cos_acos by auto. split; [field; lra|].
  rewrite sin_acos_sqrt by auto.
  replace (1 - n / k * (n / k)) with (e / k * (e / k)).
  - rewrite sqrt_square by (unfold Rdiv; apply Rmult_le_pos; [auto|left; apply Rinv_0_lt_compat; auto]). field. lra.
  - apply (Rmult_eq_reg_r (k * k)); [|nra]. replace (e / k * (e / k) * (k * k)) with (e * e) by (field; lra).
    replace ((1 - n / k * (n / k)) * (k * k)) with (k * k - n * n) by (field; lra). lra.
Qed.
Print Assumptions course_equator_partial.

Example course_equator_example : exists theta, right_handing_course (0, 0) (1, 1) = Ok theta /\ is_bearing (0, 0) (1, 1) theta.
Proof.
  destruct (course_equator_partial (0, 0) (1, 1)) as [t [E [B _]]]; auto.
  - unfold bearing_sin. cbn. assert (0 < sin (1 - 0)) by (apply sin_gt_0; pose proof pi_bounds; lra).
    assert (0 < cos 1) by (apply cos_gt_0; pose proof pi_bounds; lra). nra.
  - left. unfold bearing_cos. cbn. rewrite cos_0, sin_0. assert (0 < sin 1) by (apply sin_gt_0; pose proof pi_bounds; lra). lra.
  - eauto.
Qed.

(** C103 fails: straight north, but not from the equator, the course is not 0. *)
Theorem course_north_refuted : right_handing_course (0, PI / 4) (0, PI / 2) = Ok (PI / 4) /\
  ~ is_bearing (0, PI / 4) (0, PI / 2) (PI / 4).
Proof.
  assert (0 < sqrt 2) as S2 by (apply sqrt_lt_R0; lra).
  split.
  - unfold right_handing_course. cbn [fst snd]. rewrite Rminus_0_r, cos_0, cos_PI2, sin_PI2.
    match goal with |- context [1 - ?d * ?d] => replace (1 - d * d) with 1 by ring end.
    rewrite sqrt_1, Rltb_false by lra. rewrite np_div_ok by lra. cbn [rbind].
    replace ((cos (PI / 4) * 1 - 1 * 0 * sin (PI / 4)) / 1) with (cos (PI / 4)) by field.
    rewrite np_arccos_ok by apply COS_bound. f_equal. apply acos_cos. pose proof PI_RGT_0. lra.
  - intros [k [K [_ B]]]. unfold bearing_sin in B. cbn in B. rewrite Rminus_0_r, sin_0, sin_PI4 in B.
    assert (0 < k * (1 / sqrt 2)) by (apply Rmult_lt_0_compat; auto; apply Rdiv_lt_0_compat; lra). lra.
Qed.
Print Assumptions course_north_refuted.

(** C103 fails: the way west gets the same course as the way east. *)
Theorem course_west_refuted : forall x y, right_handing_course (0, 0) (x, y) = right_handing_course (0, 0) (- x, y).
Proof.
  intros x y. unfold right_handing_course. cbn [fst snd].
  replace (cos (0 - - x)) with (cos (0 - x)); auto. rewrite <- cos_neg. f_equal. ring.
Qed.
Print Assumptions course_west_refuted.

(** ... for example, the way west on the equator. *)
Theorem course_west_equator_refuted : right_handing_course (0, 0) (-1, 0) = Ok (PI / 2) /\
  ~ is_bearing (0, 0) (-1, 0) (PI / 2).
Proof.
  assert (0 < sin 1) as S1 by (apply sin_gt_0; pose proof pi_bounds; lra). split.
  - unfold right_handing_course. cbn [fst snd]. rewrite cos_0, sin_0. replace (0 - -1) with 1 by ring.
    replace (cos 1 * 1 * 1 + 0 * 1) with (cos 1) by ring.
    pose proof (sin2_cos2 1) as S. unfold Rsqr in S. replace (1 - cos 1 * cos 1) with (sin 1 * sin 1) by lra.
    rewrite Rltb_false by nra. rewrite sqrt_square by lra. rewrite np_div_ok by lra. cbn [rbind].
    replace ((1 * 0 - cos 1 * 1 * 0) / sin 1) with 0 by (field; lra). rewrite np_arccos_ok by lra. f_equal. apply acos_0.
  - intros [k [K [_ B]]]. unfold bearing_sin in B. cbn in B. rewrite sin_PI2, cos_0 in B.
    replace (-1 - 0) with (- (1)) in B by ring. rewrite sin_neg in B. lra.
Qed.
Print Assumptions course_west_equator_refuted.

(** ** C104: the distance *)

(** The distance is symmetric: both ways, it is the same number or it is undefined. *)
Theorem distance_symmetric : forall a b, ellipsoid_distance a b = ellipsoid_distance b a.
Proof.
  intros [x y] [x' y']. unfold ellipsoid_distance. cbn [fst snd].
  replace ((y' + y) / 2) with ((y + y') / 2) by field. replace ((y' - y) / 2) with (- ((y - y') / 2)) by field.
  replace ((x' - x) / 2) with (- ((x - x') / 2)) by field. set (f := (y + y') / 2). set (g := (y - y') / 2). set (l := (x - x') / 2).
  rewrite !sin_neg, !cos_neg.
  replace ((- sin g * cos l) ^ 2 + (cos f * - sin l) ^ 2) with ((sin g * cos l) ^ 2 + (cos f * sin l) ^ 2) by ring.
  replace ((cos g * cos l) ^ 2 + (sin f * - sin l) ^ 2) with ((cos g * cos l) ^ 2 + (sin f * sin l) ^ 2) by ring.
  replace ((cos f * - sin g) ^ 2) with ((cos f * sin g) ^ 2) by ring. reflexivity.
Qed.
Print Assumptions distance_symmetric.

Lemma np_div_zero : forall x : R, np_div x 0 = Raise NonFinite.
Proof. intros x. unfold np_div. cbn. rewrite Reqb_true by auto. reflexivity. Qed.

(** The distance of a point to itself is undefined (nan) instead of 0. *)
Theorem distance_self_refuted : forall p, ellipsoid_distance p p = Raise NonFinite.
Proof.
  intros [x y]. unfold ellipsoid_distance. cbn [fst snd]. replace ((y - y) / 2) with 0 by field. replace ((x - x) / 2) with 0 by field.
  rewrite sin_0, cos_0. set (f := (y + y) / 2).
  replace ((0 * 1) ^ 2 + (cos f * 0) ^ 2) with 0 by ring. replace ((1 * 1) ^ 2 + (sin f * 0) ^ 2) with 1 by ring.
  rewrite np_div_ok by lra. cbn [rbind]. replace (0 / 1) with 0 by field. rewrite sqrt_0, atan_0, deg2rad_0, np_div_zero. reflexivity.
Qed.
Print Assumptions distance_self_refuted.

Lemma distance_equator : forall x y w, 0 < w < PI / 2 -> 
  sin ((x - y) / 2) * sin ((x - y) / 2) = sin w * sin w -> 
  ellipsoid_distance (x, 0) (y, 0) = Ok (EQUATOR_CIRCUMFERENCE * deg2rad w / PI).
Proof.
  intros x y w W E. assert (0 < sin w) as SP by (apply sin_gt_0; lra). assert (0 < cos w) as CP by (apply cos_gt_0; lra).
  pose proof (sin2_cos2 w) as S1. pose proof (sin2_cos2 ((x - y) / 2)) as S2. unfold Rsqr in S1, S2.
  unfold ellipsoid_distance. cbn [fst snd]. replace ((0 + 0) / 2) with 0 by field. replace ((0 - 0) / 2) with 0 by field.
  set (l := (x - y) / 2) in *. rewrite sin_0, cos_0.
  replace ((0 * cos l) ^ 2 + (1 * sin l) ^ 2) with (sin w * sin w) by lra.
  replace ((1 * cos l) ^ 2 + (0 * sin l) ^ 2) with (cos w * cos w) by (ring_simplify; lra).
  rewrite np_div_ok by nra. cbn [rbind].
  replace (sin w * sin w / (cos w * cos w)) with (tan w * tan w) by (unfold tan; field; lra).
  assert (0 < tan w) as TP by (apply tan_gt_0; lra). rewrite sqrt_square by lra. rewrite atan_tan by lra.
  assert (0 < deg2rad w) as DW by (rewrite <- deg2rad_0; apply deg2rad_lt; lra).
  rewrite np_div_ok by lra. cbn [rbind]. rewrite !np_div_ok by nra. cbn [rbind]. f_equal. ring.
Qed.

(** C104.  On the equator, the distance of two different points that are less than
    pi degrees apart is the length of the arc, where the angles are degrees
    ([_partial]: false for longer ways, see below; other ways are not treated). *)
Theorem distance_equator_partial : forall x y, 0 < Rabs (x - y) < PI ->
  ellipsoid_distance (x, 0) (y, 0) = Ok (40075.017 * Rabs (x - y) / 360).
Proof.
  intros x y H. rewrite (distance_equator x y (Rabs (x - y) / 2)).
  - f_equal. unfold deg2rad, EQUATOR_CIRCUMFERENCE. field. pose proof PI_RGT_0. lra.
  - lra.
  - unfold Rabs. destruct (Rcase_abs (x - y)); auto. replace (- (x - y) / 2) with (- ((x - y) / 2)) by field. rewrite sin_neg. ring.
Qed.
Print Assumptions distance_equator_partial.

(** C104.  Along a meridian, between the latitudes [y1] and [y2] less than pi apart: the length of the arc
    in degrees, corrected by the flattening ([_partial]: other ways are not treated, and see below). *)
Theorem distance_meridian_partial : forall x y1 y2, 0 < Rabs (y1 - y2) < PI ->
  let m := (y1 + y2) / 2 in
  let t := 180 * sin (Rabs (y1 - y2)) / (PI * Rabs (y1 - y2)) in
  ellipsoid_distance (x, y1) (x, y2) =
    Ok (40075.017 * Rabs (y1 - y2) / 360 *
        (1 + 1 / 298.257223563 * ((3 * t - 1) / 2 * (sin m * sin m) - (3 * t + 1) / 2 * (cos m * cos m)))).
Proof.
  assert (forall x y1 y2, y2 < y1 < y2 + PI ->
    let m := (y1 + y2) / 2 in
    let t := 180 * sin (y1 - y2) / (PI * (y1 - y2)) in
    ellipsoid_distance (x, y1) (x, y2) =
    Ok (EQUATOR_CIRCUMFERENCE * (y1 - y2) / 360 *
        (1 + 1 / 298.257223563 * ((3 * t - 1) / 2 * (sin m * sin m) - (3 * t + 1) / 2 * (cos m * cos m))))) as P.
  { intros x y1 y2 H m t. unfold ellipsoid_distance. cbn [fst snd]. fold m. replace ((x - x) / 2) with 0 by field.
    set (g := (y1 - y2) / 2). assert (0 < g < PI / 2) as G by (unfold g; lra). rewrite sin_0, cos_0.
    assert (0 < sin g) as SG by (apply sin_gt_0; lra). assert (0 < cos g) as CG by (apply cos_gt_0; lra).
    replace ((sin g * 1) ^ 2 + (cos m * 0) ^ 2) with (sin g * sin g) by ring.
    replace ((cos g * 1) ^ 2 + (sin m * 0) ^ 2) with (cos g * cos g) by ring.
    rewrite np_div_ok by nra. cbn [rbind].
    replace (sin g * sin g / (cos g * cos g)) with (tan g * tan g) by (unfold tan; field; lra).
    assert (0 < tan g) as TP by (apply tan_gt_0; lra). rewrite sqrt_square by lra. rewrite atan_tan by lra.
    replace (sin g * sin g * (cos g * cos g)) with ((sin g * cos g) * (sin g * cos g)) by ring. rewrite sqrt_square by nra.
    pose proof PI_RGT_0 as PI0. assert (0 < deg2rad g) as DW by (rewrite <- deg2rad_0; apply deg2rad_lt; lra).
    rewrite np_div_ok by lra. cbn [rbind]. rewrite !np_div_ok by nra. cbn [rbind]. f_equal.
    assert (sin g * cos g / deg2rad g = t) as ->.
    { unfold t. replace (y1 - y2) with (2 * g) by (unfold g; field). rewrite sin_2a. unfold deg2rad. field. split; lra. }
    replace (y1 - y2) with (2 * g) by (unfold g; field). unfold EARTH_FLATTENING, deg2rad. field. repeat split; try lra. }
  intros x y1 y2 H. cbv zeta. destruct (Rle_dec y1 y2) as [L|L].
  - rewrite Rabs_left1 in * by lra. rewrite distance_symmetric. rewrite P by lra. cbv zeta.
    replace (- (y1 - y2)) with (y2 - y1) by ring. replace ((y1 + y2) / 2) with ((y2 + y1) / 2) by field. reflexivity.
  - rewrite Rabs_right in * by lra. apply P. lra.
Qed.
Print Assumptions distance_meridian_partial.

(** A tenth of a degree north of the equator: the distance is less than 0.72 times the length of the arc of
    the equator, though the flattening changes lengths by less than one percent. *)
Theorem distance_meridian_refuted : exists d, ellipsoid_distance (0, 0) (0, 1 / 10) = Ok d /\
  d < 72 / 100 * (40075.017 * (1 / 10) / 360).
Proof.
  pose proof pi_bounds as [PL PU]. assert (Rabs (0 - 1 / 10) = 1 / 10) as RA by (rewrite Rabs_left; lra).
  eexists. split; [apply distance_meridian_partial; rewrite RA; lra|]. rewrite RA. cbv zeta.
  set (m := (0 + 1 / 10) / 2). set (t := 180 * sin (1 / 10) / (PI * (1 / 10))).
  assert (0 <= sin m <= 1 / 20) as SM.
  { split; [apply sin_ge_0; unfold m; lra|]. left. eapply Rlt_le_trans; [apply sin_lt_x; unfold m; lra|]. unfold m. lra. }
  assert (cos m * cos m >= 1 - 1 / 400) as CM.
  { pose proof (sin2_cos2 m) as S. unfold Rsqr in S. nra. }
  assert (cos m * cos m <= 1) as CM1 by (pose proof (sin2_cos2 m) as S; unfold Rsqr in S; nra).
  assert (998 / 10000 <= sin (1 / 10) <= 1 / 10) as SB.
  { destruct (pre_sin_bound (1 / 10) 0) as [S1 S2]; try lra. unfold sin_approx, sin_term in S1, S2. cbn in S1, S2. split.
    - eapply Rle_trans; [|exact S1]. lra.
    - left. apply sin_lt_x. lra. }
  assert (56 <= t <= 58) as T.
  { unfold t. split.
    - apply Rmult_le_reg_r with (PI * (1 / 10)); [lra|]. unfold Rdiv at 2. rewrite Rmult_assoc, Rinv_l by lra. lra.
    - apply Rmult_le_reg_r with (PI * (1 / 10)); [lra|]. unfold Rdiv at 1. rewrite Rmult_assoc, Rinv_l by lra. lra. }
  unfold EQUATOR_CIRCUMFERENCE. set (A := sin m * sin m). assert (0 <= A <= 1 / 400) as AB by (unfold A; nra).
  set (B := cos m * cos m) in *.
  assert ((3 * t - 1) / 2 * A <= 1 / 4) by nra. assert ((3 * t + 1) / 2 * B >= 84) by nra. nra.
Qed.
Print Assumptions distance_meridian_refuted.

(** Between 0 and 4 degrees, the distance is smaller than between 0 and 3 degrees. *)
Theorem distance_equator_refuted : exists d3 d4, ellipsoid_distance (0, 0) (3, 0) = Ok d3 /\
  ellipsoid_distance (0, 0) (4, 0) = Ok d4 /\ d4 < d3.
Proof.
  pose proof pi_bounds as [PL PU].
  exists (EQUATOR_CIRCUMFERENCE * deg2rad (3 / 2) / PI), (EQUATOR_CIRCUMFERENCE * deg2rad (PI - 2) / PI).
  split; [|split].
  - apply distance_equator; [lra|]. replace ((0 - 3) / 2) with (- (3 / 2)) by field. rewrite sin_neg. ring.
  - apply distance_equator; [lra|]. replace ((0 - 4) / 2) with (- (2)) by field. rewrite sin_neg, sin_PI_x. ring.
  - assert (deg2rad (PI - 2) < deg2rad (3 / 2)) by (apply deg2rad_lt; lra).
    assert (0 < / PI) by (apply Rinv_0_lt_compat; lra). unfold EQUATOR_CIRCUMFERENCE, Rdiv. nra.
Qed.
Print Assumptions distance_equator_refuted.

(** Points 360 degrees apart are the same, but have a positive distance. *)
Theorem distance_period_refuted : exists d, ellipsoid_distance (0, 0) (360, 0) = Ok d /\ 0 < d.
Proof.
  pose proof pi_bounds as [PL PU]. exists (EQUATOR_CIRCUMFERENCE * deg2rad (180 - 57 * PI) / PI). split.
  - apply distance_equator; [lra|]. replace ((0 - 360) / 2) with (- (180)) by field. rewrite sin_neg.
    replace (180 - 57 * PI) with (180 - PI + 2 * IZR (-28) * PI) by (simpl; ring). rewrite sin_period_Z.
    rewrite sin_minus, cos_PI, sin_PI. ring.
  - assert (0 < deg2rad (180 - 57 * PI)) by (rewrite <- deg2rad_0; apply deg2rad_lt; lra).
    unfold EQUATOR_CIRCUMFERENCE. apply Rdiv_lt_0_compat; lra.
Qed.
Print Assumptions distance_period_refuted.

(** ** C106 and C109: the influence data *)

(** The dictionary after a call with an influence model: every old value is
    replaced by a list of copies (one per wind angle), and the wind is stored. *)
Theorem cruise_influence_data : forall hull pd start end_ wind fmt add d ws wdir sl r i,
  wind_relative_to_north wind fmt = Ok (ws, wdir) -> pd_slices pd [ws] = Ok (sl :: r, i) ->
  exists d', fst (cruise hull pd start end_ wind fmt (Some add) (Some d)) = Some d' /\
    dget "TWA" d' = Some (PList (map (fun p => PNum (pt_wa p)) sl)) /\
    dget "TWS" d' = Some (PList (repeat (PList (map (fun p => PNum (pt_ws p)) sl)) (length sl))) /\
    forall k v, k <> "TWA" -> k <> "TWS" -> dget k d = Some v -> dget k d' = Some (PList (repeat v (length sl))).
Proof.
  intros hull pd start end_ wind fmt add d ws wdir sl r i W S.
  exists (prepare_influence sl d). unfold cruise. rewrite W, S. cbn [rbind fst py_nth nth_error]. split; auto.
  unfold prepare_influence. split; [apply dget_dset_same|]. split.
  - rewrite dget_dset_other by discriminate. apply dget_dset_same.
  - intros k v N1 N2 E. rewrite !dget_dset_other by auto. rewrite dget_dmap, E. reflexivity.
Qed.
Print Assumptions cruise_influence_data.

(** C106 fails: the caller's dictionary is changed, and with every call its values
    are wrapped in one more list. *)
Theorem cruise_influence_data_refuted : forall hull pd start end_ wind fmt add d ws wdir sl r i k x,
  wind_relative_to_north wind fmt = Ok (ws, wdir) -> pd_slices pd [ws] = Ok (sl :: r, i) -> sl <> [] -> k <> "TWA" -> k <> "TWS" ->
  dget k d = Some (PNum x) ->
  let once := fst (cruise hull pd start end_ wind fmt (Some add) (Some d)) in
  let twice := fst (cruise hull pd start end_ wind fmt (Some add) once) in
  once <> Some d /\ twice <> once.
Proof.
  intros hull pd start end_ wind fmt add d ws wdir sl r i k x W S NE N1 N2 E once twice.
  destruct (cruise_influence_data hull pd start end_ wind fmt add d ws wdir sl r i W S) as [d1 [E1 [_ [_ K1]]]].
  destruct (cruise_influence_data hull pd start end_ wind fmt add d1 ws wdir sl r i W S) as [d2 [E2 [_ [_ K2]]]].
  unfold twice, once. rewrite E1, E2. split.
  - intros Z. injection Z as ->. specialize (K1 k _ N1 N2 E). congruence.
  - intros Z. injection Z as ->. specialize (K1 k _ N1 N2 E). specialize (K2 k _ N1 N2 K1).
    rewrite K1 in K2. injection K2 as K2.
    destruct sl as [|p sl]; [auto|]. cbn in K2. discriminate.
Qed.
Print Assumptions cruise_influence_data_refuted.

Example cruise_influence_data_example :
  fst (cruise hull5f pd5 (0, 0) (0, PI / 2) [10; 0] "ws_wan" (Some (fun _ => Ok bsp5)) (Some [("HEEL", PNum 3)])) =
  Some [("HEEL", PList [PNum 3; PNum 3; PNum 3; PNum 3; PNum 3]);
        ("TWS", PList (repeat (PList [PNum 10; PNum 10; PNum 10; PNum 10; PNum 10]) 5));
        ("TWA", PList [PNum 45; PNum 135; PNum 180; PNum 225; PNum 315])].
Proof. reflexivity. Qed.

(** Without an influence model, the dictionary is not touched. *)
Theorem cruise_influence_data_unused : forall hull pd start end_ wind fmt data,
  fst (cruise hull pd start end_ wind fmt None data) = data.
Proof.
  intros. unfold cruise. destruct (wind_relative_to_north wind fmt) as [[ws wdir]|]; auto.
  destruct (do si <- pd_slices pd [ws]; py_nth (fst si) 0); auto.
Qed.
Print Assumptions cruise_influence_data_unused.

(** C109 fails: the influence model changes the boat speeds, but the directions
    are chosen as if there were no influence; only the times depend on it. *)
Theorem cruise_ignores_influence_refuted : forall hull pd start end_ wind fmt add d add' d' legs legs',
  snd (cruise hull pd start end_ wind fmt (Some add) (Some d)) = Ok legs ->
  snd (cruise hull pd start end_ wind fmt (Some add') (Some d')) = Ok legs' ->
  map fst legs = map fst legs'.
Proof.
  intros hull pd start end_ wind fmt add d add' d' legs legs' E E'. unfold cruise in *.
  destruct (wind_relative_to_north wind fmt) as [[ws wdir]|]; [|discriminate].
  destruct (do si <- pd_slices pd [ws]; py_nth (fst si) 0) as [sl|]; [|discriminate].
  cbn [snd] in *. destruct (add _) as [b|]; [|discriminate]. destruct (add' _) as [b'|]; [|discriminate]. cbn [rbind] in *.
  unfold cruise_on in *. destruct (right_handing_course start end_) as [rhc|]; [|discriminate]. cbn [rbind] in *.
  destruct (np_arccos _) as [h|]; [|discriminate]. cbn [rbind] in *.
  destruct (convex_direction _ _ _ _ _) as [ds|]; [|discriminate]. cbn [rbind] in *.
  destruct (ellipsoid_distance start end_) as [dist|]; [|discriminate]. cbn [rbind] in *.
  destruct ds as [|d1 [|d2 ds]]; [discriminate| |].
  - destruct (speeds_at _ b _) as [|x [|? ?]]; try discriminate. destruct (speeds_at _ b' _) as [|x' [|? ?]]; try discriminate.
    destruct (np_div dist x); [|discriminate]. destruct (np_div dist x'); [|discriminate]. cbn in *.
    injection E as <-. injection E' as <-. reflexivity.
  - destruct (speeds_at _ b (d_angle d1)) as [|x [|? ?]]; try discriminate.
    destruct (speeds_at _ b (d_angle d2)) as [|y [|? ?]]; try discriminate.
    destruct (speeds_at _ b' (d_angle d1)) as [|x' [|? ?]]; try discriminate.
    destruct (speeds_at _ b' (d_angle d2)) as [|y' [|? ?]]; try discriminate.
    destruct (np_div dist (_ * x + _ * y)); [|discriminate]. destruct (np_div dist (_ * x' + _ * y')); [|discriminate]. cbn in *.
    injection E as <-. injection E' as <-. reflexivity.
Qed.
Print Assumptions cruise_ignores_influence_refuted.

(** For example, an influence that doubles the speed downwind: straight downwind
    would be better than gybing, but the boat gybes. *)
Definition fast_downwind : list R := [sqrt 2; sqrt 2; 2; sqrt 2; sqrt 2].

Theorem cruise_ignores_influence_example_refuted : exists t1 t2,
  snd (cruise hull5f pd5 (0, 0) (0, PI / 2) [10; 0] "ws_wan" (Some (fun _ => Ok fast_downwind)) (Some [])) =
    Ok [(135, t1); (225, t2)] /\
  recorded wa5 fast_downwind 180 2 /\
  exists m, vadd2 (vscale t1 (velocity 135 (sqrt 2))) (vscale t2 (velocity 225 (sqrt 2))) = velocity 180 m /\ m < (t1 + t2) * 2.
Proof.
  destruct distance_example as [d [D P]].
  assert (0 < sqrt 2) as S2 by (apply sqrt_lt_R0; lra).
  exists (1 / 2 * (d / sqrt 2)), (1 / 2 * (d / sqrt 2)). split; [|split].
  - unfold cruise. cbn [wind_relative_to_north String.eqb Ascii.eqb Bool.eqb]. cbn [pd_slices pd5 rbind fst py_nth nth_error snd].
    unfold cruise_on. rewrite course_example. cbn [rbind]. rewrite cos_of_course, Rminus_0_r, cos_0, np_arccos_ok by lra.
    cbn [rbind]. rewrite acos_1, rad2deg_0, Rminus_0_r.
    assert (convex_direction hull5f pd5 (map pt_ws slice5) 180 None = Ok [mkDir 135 (1 / 2) None; mkDir 225 (1 - 1 / 2) None]) as ->.
    { unfold convex_direction. cbn [pd_slices pd5 rbind py_nth nth_error]. rewrite slice5_wa, slice5_bsp. exact convex5_180. }
    cbn [rbind]. rewrite D. cbn [rbind d_angle d_prop]. rewrite slice5_wa.
    rewrite (speeds_at_unique wa5 fast_downwind 135 (sqrt 2)), (speeds_at_unique wa5 fast_downwind 225 (sqrt 2));
      try (apply good5); try (unfold recorded; cbn; auto 6).
    rewrite np_div_ok by lra. cbn [rbind].
    replace (1 / 2 * sqrt 2 + (1 - 1 / 2) * sqrt 2) with (sqrt 2) by field. replace (1 - 1 / 2) with (1 / 2) by field. reflexivity.
  - unfold recorded. cbn. auto.
  - exists (d / sqrt 2). split.
    + assert (velocity 135 (sqrt 2) = (-1, 1)) as V1.
      { pose proof square5_polar as E. apply (f_equal (fun l => nth 1 l (0, 0))) in E. cbn in E. rewrite <- polar_velocity. exact E. }
      assert (velocity 225 (sqrt 2) = (-1, -1)) as V2.
      { pose proof square5_polar as E. apply (f_equal (fun l => nth 3 l (0, 0))) in E. cbn in E. rewrite <- polar_velocity. exact E. }
      rewrite V1, V2. unfold velocity, heading_vec, vadd2, vscale. cbn [fst snd]. rewrite deg2rad_180, cos_PI, sin_PI. f_equal; field; lra.
    + assert (0 < d / sqrt 2) by (apply Rdiv_lt_0_compat; auto). lra.
Qed.
Print Assumptions cruise_ignores_influence_example_refuted.
