(** * Properties C72 and C73: the globe models *)

From Coq Require Import List Bool Arith ZArith Reals Lra Lia Psatz.
From Verif Require Import Py Num Trig WindModel WindSpec WindProofs BaseModel BaseProps GlobeModel GlobeSpec GlobeProofs.
Import ListNotations.
Open Scope R_scope.

Ltac vec3 := repeat match goal with |- (_, _) = (_, _) => apply f_equal2 end.

(** ** C72: the spherical globe *)

Lemma central_dot : forall a b, dot3 (on_ball a) (on_ball b) = central_cos a b.
Proof.
  intros [a1 a2] [b1 b2]. unfold dot3, on_ball, central_cos. cbn [fst snd].
  replace (deg2rad (a2 - b2)) with (deg2rad a2 - deg2rad b2) by (unfold deg2rad; ring).
  rewrite cos_minus. ring.
Qed.

Lemma central_range : forall a b, -1 <= central_cos a b <= 1.
Proof. intros. rewrite <- central_dot. apply unit_dot_range; apply on_ball_unit. Qed.

Lemma central_sym : forall a b, central_cos a b = central_cos b a.
Proof. intros. rewrite <- !central_dot. apply dot3_sym. Qed.

Lemma same_place_ball : forall a b, same_place a b <-> on_ball a = on_ball b.
Proof.
  intros a b. unfold same_place. rewrite <- central_dot. split.
  - apply unit_dot_1; apply on_ball_unit.
  - intros ->. apply on_ball_unit.
Qed.

(** Proper positions denote the same place only if they are equal. *)
Theorem same_place_proper : forall a b, proper a -> proper b -> same_place a b -> a = b.
Proof.
  intros [a1 a2] [b1 b2] [A1 A2] [B1 B2] H. cbn [fst snd] in *. apply same_place_ball in H.
  pose proof (on_lat_lon_on_ball a1 a2 A1 A2) as E. rewrite H, on_lat_lon_on_ball in E by auto.
  congruence.
Qed.
Print Assumptions same_place_proper.

Lemma mapM_map_ok : forall A B C (f : B -> result C) (g : A -> B) (h : A -> C) l,
  (forall x, In x l -> f (g x) = Ok (h x)) -> mapM f (map g l) = Ok (map h l).
Proof.
  intros A B C f g h l. induction l as [|x l IH]; intros H; [reflexivity|].
  cbn [map mapM]. rewrite (H x) by (left; reflexivity). cbn [rbind].
  rewrite IH by (intros y Y; apply H; right; auto). reflexivity.
Qed.

(** C72.  [lat_lon (project points) = points] for every list of positions off the
    poles with longitudes in (-180, 180]. *)
Theorem spherical_round_trip : forall r pts, r <> 0 -> Forall proper pts ->
  sph_lat_lon r (sph_project r pts) = Ok pts.
Proof.
  intros r pts H F. unfold sph_lat_lon, sph_project.
  rewrite (mapM_map_ok _ _ _ _ _ (fun p => p)); [rewrite map_id; reflexivity|].
  intros [a b] I. rewrite Forall_forall in F. destruct (F _ I) as [A B]. cbn [fst snd] in *.
  rewrite div3_scale by auto. cbn [rbind]. apply on_lat_lon_on_ball; auto.
Qed.
Print Assumptions spherical_round_trip.

(** Every other latitude and longitude comes back as a name of the same place
    in the usual ranges. *)
Theorem spherical_round_trip_place : forall r p, r <> 0 ->
  exists q, sph_lat_lon r (sph_project r [p]) = Ok [q] /\ in_range q /\ same_place p q.
Proof.
  intros r p H. unfold sph_lat_lon, sph_project. cbn [map mapM].
  rewrite div3_scale by auto. cbn [rbind].
  destruct (on_lat_lon_unit (on_ball p) (on_ball_unit p)) as [q [E [B [R1 R2]]]].
  rewrite E. cbn [rbind]. exists q. split; [reflexivity|]. split; [split; auto|].
  apply same_place_ball. auto.
Qed.
Print Assumptions spherical_round_trip_place.

(** Points of the sphere (of positive radius) are projections of their latitude and longitude. *)
Theorem spherical_round_trip_points : forall r pts, 0 < r ->
  Forall (fun v => length3 v = r) pts ->
  exists l, sph_lat_lon r pts = Ok l /\ sph_project r l = pts /\ Forall in_range l.
Proof.
  intros r pts H F. induction F as [|v pts L F IH].
  - exists []. repeat split. constructor.
  - destruct IH as [l [E1 [E2 E3]]].
    assert (exists u, v = scale3 r u /\ dot3 u u = 1) as [u [-> U]].
    { exists (scale3 (/ r) v). rewrite scale3_scale, Rinv_r by lra.
      destruct v as [[x y] z]. unfold scale3, dot3. split; [vec3; ring|].
      unfold length3 in L. assert (x * x + y * y + z * z = r * r) as S.
      { rewrite <- L. symmetry. apply sqrt_sqrt. nra. }
      replace (/ r * x * (/ r * x) + / r * y * (/ r * y) + / r * z * (/ r * z))
        with ((x * x + y * y + z * z) / (r * r)) by (field; lra). rewrite S. field. lra. }
    destruct (on_lat_lon_unit u U) as [q [Q1 [Q2 [Q3 Q4]]]].
    exists (q :: l). unfold sph_lat_lon in *. cbn [mapM]. rewrite div3_scale by lra. cbn [rbind].
    rewrite Q1. cbn [rbind]. rewrite E1. split; [reflexivity|]. split.
    + unfold sph_project in *. cbn [map]. rewrite Q2, E2. reflexivity.
    + constructor; auto. split; auto.
Qed.
Print Assumptions spherical_round_trip_points.

(** C72.  Projections lie on the sphere of radius [|earth_radius|]. *)
Theorem spherical_project_norm : forall r pts v, In v (sph_project r pts) -> length3 v = Rabs r.
Proof.
  intros r pts v I. apply in_map_iff in I. destruct I as [p [<- _]].
  pose proof (norm3_scale r (on_ball p)) as E. rewrite (norm3_unit (on_ball p)) in E by apply on_ball_unit.
  rewrite Rmult_1_r in E. rewrite <- E. unfold norm3, length3, dot3.
  destruct (scale3 r (on_ball p)) as [[x y] z]. reflexivity.
Qed.
Print Assumptions spherical_project_norm.

(** C72.  The distance is the great circle distance, for all positions. *)
Theorem spherical_distance : forall r a b, sph_distance r a b = Ok (great_circle r a b).
Proof.
  intros r a b. unfold sph_distance. rewrite angle_units by apply on_ball_unit. cbn [rbind].
  rewrite central_dot. reflexivity.
Qed.
Print Assumptions spherical_distance.

(** C72.  It is a metric on places: symmetric, zero exactly between the same
    places, at most half the circumference, with the triangle inequality. *)
Theorem spherical_distance_metric : forall r a b c dab dba dac dbc, 0 < r ->
  sph_distance r a b = Ok dab -> sph_distance r b a = Ok dba ->
  sph_distance r a c = Ok dac -> sph_distance r b c = Ok dbc ->
  dab = dba /\ (dab = 0 <-> same_place a b) /\ 0 <= dab <= PI * r /\ dac <= dab + dbc.
Proof.
  intros r a b c dab dba dac dbc H. rewrite !spherical_distance.
  intros E1 E2 E3 E4. injection E1 as <-. injection E2 as <-. injection E3 as <-. injection E4 as <-.
  unfold great_circle. pose proof (acos_bound (central_cos a b)) as B.
  split; [rewrite central_sym; reflexivity|]. split; [|split].
  - unfold same_place. split.
    + intros E. apply acos_0_inv; [apply central_range|]. apply Rmult_eq_reg_l with r; lra.
    + intros ->. rewrite acos_1. ring.
  - split; [apply Rmult_le_pos; lra|]. rewrite Rmult_comm. apply Rmult_le_compat_r; lra.
  - rewrite <- Rmult_plus_distr_l. apply Rmult_le_compat_l; [lra|]. rewrite <- !central_dot.
    apply angle_triangle; apply on_ball_unit.
Qed.
Print Assumptions spherical_distance_metric.

Corollary spherical_distance_zero : forall r a b, 0 < r -> proper a -> proper b ->
  (sph_distance r a b = Ok 0 <-> a = b).
Proof.
  intros r a b H A B.
  destruct (spherical_distance_metric r a b a _ _ _ _ H (spherical_distance r a b) (spherical_distance r b a)
    (spherical_distance r a a) (spherical_distance r b a)) as [_ [Z _]].
  rewrite spherical_distance. split.
  - intros E. injection E as E. apply same_place_proper; auto. apply Z. auto.
  - intros ->. f_equal. apply Z. unfold same_place. rewrite <- central_dot. apply on_ball_unit.
Qed.
Print Assumptions spherical_distance_zero.

Lemma map_nth_error' : forall A B (f : A -> B) l i x, nth_error l i = Some x -> nth_error (map f l) i = Some (f x).
Proof. intros. rewrite nth_error_map, H. reflexivity. Qed.

Lemma mapM_nth : forall A B (f : A -> result B) l out i x, mapM f l = Ok out -> nth_error l i = Some x ->
  exists y, nth_error out i = Some y /\ f x = Ok y.
Proof.
  intros A B f. induction l as [|h l IH]; intros out i x E N; [destruct i; discriminate|].
  cbn [mapM] in E. destruct (f h) as [y|] eqn:F; [|discriminate]. cbn [rbind] in E.
  destruct (mapM f l) as [ys|] eqn:M; [|discriminate]. cbn [rbind] in E. injection E as <-.
  destruct i; cbn [nth_error] in *.
  - injection N as <-. eauto.
  - eapply IH; eauto.
Qed.

Lemma frac_range : forall i n, (2 <= n)%nat -> (i < n)%nat -> 0 <= INR i / INR (n - 1) <= 1.
Proof.
  intros i n N I. assert (0 < INR (n - 1)) as P by (apply lt_0_INR; lia).
  split.
  - apply Rmult_le_pos; [apply pos_INR|]. left. apply Rinv_0_lt_compat. auto.
  - apply Rmult_le_reg_r with (INR (n - 1)); auto. unfold Rdiv.
    rewrite Rmult_assoc, Rinv_l, Rmult_1_r, Rmult_1_l by lra. apply le_INR. lia.
Qed.

(** The central angle of two places that are neither equal nor antipodal. *)
Definition apart (a b : R * R) : Prop := -1 < central_cos a b < 1.

Lemma apart_angle : forall a b, apart a b ->
  let t := acos (central_cos a b) in 0 < t < PI /\ 0 < sin t /\ cos t = central_cos a b.
Proof.
  intros a b [L U] t. assert (-1 <= central_cos a b <= 1) as C by lra.
  assert (cos t = central_cos a b) as E by (apply cos_acos; auto).
  pose proof (acos_bound (central_cos a b)) as B. fold t in B.
  assert (0 < t < PI) as T.
  { split.
    - destruct (Req_dec t 0) as [Z|]; [|lra]. rewrite Z, cos_0 in E. lra.
    - destruct (Req_dec t PI) as [Z|]; [|lra]. rewrite Z, cos_PI in E. lra. }
  split; auto. split; auto. apply sin_gt_0; lra.
Qed.

(** C72.  The shortest path between places that are neither equal nor antipodal
    is a geodesic: [res] places, the i-th of which has done the fraction
    i/(res-1) of the great circle distance; it starts at [start] and ends at
    [end], and the projected path stays on the sphere.  (This is full: the two
    excluded cases raise, see below.) *)
Theorem spherical_path : forall r a b res, 0 < r -> apart a b -> (2 <= res)%nat ->
  exists path, sph_shortest_path r a b res = Ok path /\ geodesic a b res path /\
    (exists s e, hd_error path = Some s /\ same_place a s /\ (proper a -> s = a) /\
                 nth_error path (res - 1) = Some e /\ same_place b e /\ (proper b -> e = b)).
Proof.
  intros r a b res Hr AB N. destruct (apart_angle a b AB) as [T [SN C]].
  set (t := acos (central_cos a b)) in *.
  unfold sph_shortest_path, sph_project. cbn [map]. unfold sph_projected_path.
  rewrite angle_scaled by (auto using on_ball_unit). cbn [rbind]. rewrite central_dot. fold t.
  rewrite Reqb_false by lra. destruct res as [|n]; [lia|]. remember (S n) as m eqn:M.
  set (col := add3 (scale3 (- cos t / sin t) (on_ball a)) (scale3 (1 / sin t) (on_ball b))).
  set (pt := fun w => add3 (scale3 (cos w) (on_ball a)) (scale3 (sin w) col)).
  assert (forall w, dot3 (pt w) (pt w) = 1 /\ dot3 (on_ball a) (pt w) = cos w /\ dot3 (pt w) (on_ball b) = cos (t - w)) as P.
  { intros w. apply (slerp_dot (on_ball a) (on_ball b) t w); auto using on_ball_unit.
    - rewrite central_dot. auto.
    - lra. }
  cbn [rbind].
  match goal with |- context[map ?f (linspace 0 t m)] =>
    replace (map f (linspace 0 t m)) with (map (fun w => scale3 r (pt w)) (linspace 0 t m)) end.
  2: { apply map_ext. intros w. unfold pt, col. symmetry. apply slerp_scale. }
  unfold sph_lat_lon.
  assert (exists g, forall w, on_lat_lon (pt w) = Ok (g w) /\ on_ball (g w) = pt w /\ in_range (g w)) as [g G].
  { exists (fun w => match on_lat_lon (pt w) with Ok p => p | Raise _ => (0, 0) end). intros w.
    destruct (on_lat_lon_unit (pt w) (proj1 (P w))) as [p [E [B [R1 R2]]]]. rewrite E. repeat split; auto; tauto. }
  rewrite (mapM_map_ok _ _ _ _ _ g).
  2: { intros w _. rewrite div3_scale by lra. cbn [rbind]. apply G. }
  eexists. split; [reflexivity|].
  assert (forall i, (i < m)%nat -> nth_error (map g (linspace 0 t m)) i = Some (g (INR i / INR (m - 1) * t))) as NT.
  { intros i I. erewrite map_nth_error'; [|apply linspace_nth; auto]. f_equal. f_equal. unfold Rdiv. ring. }
  split; [split|].
  - rewrite map_length, linspace_length. reflexivity.
  - intros i I. exists (g (INR i / INR (m - 1) * t)). split; [auto|]. split; [apply G|].
    pose proof (frac_range i m N I) as F. set (f := INR i / INR (m - 1)) in *.
    assert (0 <= f * t <= PI) as W by nra.
    intros r'. unfold great_circle. fold t. rewrite <- !central_dot, (proj1 (proj2 (G _))).
    rewrite (proj1 (proj2 (P _))), (proj2 (proj2 (P _))).
    rewrite !acos_cos by nra. split; ring.
  - assert (pt 0 = on_ball a) as P0 by apply slerp_start.
    assert (pt t = on_ball b) as P1 by (apply slerp_end; lra).
    assert (forall p w, pt w = on_ball p -> same_place p (g w) /\ (proper p -> g w = p)) as SP.
    { intros p w E. split.
      - apply same_place_ball. rewrite (proj1 (proj2 (G w))). auto.
      - intros [Q1 Q2]. pose proof (proj1 (G w)) as Z. rewrite E in Z. destruct p as [p1 p2]. cbn [fst snd] in *.
        rewrite on_lat_lon_on_ball in Z by auto. congruence. }
    exists (g 0), (g t). split; [|split; [apply SP; auto|split; [apply SP; auto|]]].
    + assert (nth_error (map g (linspace 0 t m)) 0 = Some (g 0)) as Z.
      { rewrite NT by lia. f_equal. f_equal. simpl INR. unfold Rdiv. ring. }
      destruct (map g (linspace 0 t m)); auto.
    + split; [|split; apply SP; auto]. rewrite NT by lia. f_equal. f_equal. field.
      apply not_0_INR. lia.
Qed.
Print Assumptions spherical_path.

(** The projected path lies on the sphere. *)
Theorem spherical_projected_path_norm : forall r a b res path v, 0 < r ->
  (forall s e, sph_project r [a; b] = [s; e] -> sph_projected_path s e res = Ok path) ->
  In v path -> length3 v = r.
Proof.
  intros r a b res path v Hr E I. specialize (E _ _ eq_refl). unfold sph_projected_path in E.
  rewrite angle_scaled in E by (auto using on_ball_unit). cbn [rbind] in E. rewrite central_dot in E.
  set (t := acos (central_cos a b)) in *. destruct (Reqb_spec (sin t) 0) as [|S]; [discriminate|].
  assert (cos t = central_cos a b) as C by (apply cos_acos, central_range).
  assert (In v (map (fun w => add3 (scale3 (cos w) (scale3 r (on_ball a))) (scale3 (sin w)
     (add3 (scale3 (- cos t / sin t) (scale3 r (on_ball a))) (scale3 (1 / sin t) (scale3 r (on_ball b)))))) (linspace 0 t res))) as J.
  { destruct res; [discriminate|]. injection E as <-. exact I. }
  clear I E. apply in_map_iff in J. destruct J as [w [<- _]]. rewrite slerp_scale.
  destruct (slerp_dot (on_ball a) (on_ball b) t w (on_ball_unit a) (on_ball_unit b)) as [P _]; auto.
  { rewrite central_dot. auto. }
  match goal with |- length3 (scale3 r ?p) = r => pose proof (norm3_scale r p) as Q; rewrite (norm3_unit p) in Q by exact P;
    rewrite Rmult_1_r, Rabs_right in Q by lra; rewrite <- Q at 2; unfold norm3, length3, dot3; destruct (scale3 r p) as [[x y] z]; reflexivity end.
Qed.
Print Assumptions spherical_projected_path_norm.

(** C72 is refuted where the path is not unique or trivial: from a place to
    itself and to its antipode the call fails. *)
Theorem spherical_path_refuted : forall r a b res, 0 < r ->
  central_cos a b = 1 \/ central_cos a b = -1 ->
  sph_shortest_path r a b res = Raise LinAlgError.
Proof.
  intros r a b res Hr H. unfold sph_shortest_path, sph_project. cbn [map]. unfold sph_projected_path.
  rewrite angle_scaled by (auto using on_ball_unit). cbn [rbind]. rewrite central_dot.
  assert (sin (acos (central_cos a b)) = 0) as ->.
  { destruct H as [->| ->]; [rewrite acos_1; apply sin_0|].
    replace (-1) with (- (1)) by lra. rewrite acos_opp, acos_1, Rminus_0_r. apply sin_PI. }
  rewrite Reqb_true by reflexivity. reflexivity.
Qed.
Print Assumptions spherical_path_refuted.

Lemma central_self : forall a, central_cos a a = 1.
Proof. intros. rewrite <- central_dot. apply on_ball_unit. Qed.

(** The hypotheses are met: Hamburg-like and equatorial positions. *)
Example proper_ex : Forall proper [(53.5, 10); (-33.9, 151.2); (0, 180)].
Proof. repeat constructor; cbn; lra. Qed.
Example apart_ex : apart (0, 0) (0, 90).
Proof.
  unfold apart, central_cos. cbn [fst snd].
  replace (deg2rad (0 - 90)) with (- deg2rad 90) by (unfold deg2rad; field).
  rewrite deg2rad_0, sin_0, deg2rad_90, cos_neg, cos_PI2. lra.
Qed.
Example refuted_ex : sph_shortest_path 3440 (53.5, 10) (53.5, 10) 1000 = Raise LinAlgError.
Proof. apply spherical_path_refuted; [lra|]. left. apply central_self. Qed.

(** One quarter of the equator is one quarter of the circumference. *)
Example quarter_ex : forall r, sph_distance r (0, 0) (0, 90) = Ok (r * (PI / 2)).
Proof.
  intros r. rewrite spherical_distance. unfold great_circle, central_cos. cbn [fst snd].
  replace (deg2rad (0 - 90)) with (- deg2rad 90) by (unfold deg2rad; field).
  rewrite deg2rad_0, sin_0, deg2rad_90, cos_neg, cos_PI2.
  replace (0 * 0 + cos 0 * cos 0 * 0) with 0 by ring. rewrite acos_0. reflexivity.
Qed.

(** ** C73: the Mercator projection *)

Lemma mat_inv_sound : forall m i v, mat_inv m = Ok i ->
  mat_vec i (mat_vec m v) = v /\ mat_vec m (mat_vec i v) = v.
Proof.
  intros [[[[a1 a2] a3] [[b1 b2] b3]] [[c1 c2] c3]] i [[x y] z] H. unfold mat_inv in H.
  cbv [dot3 cross3 scale3 transpose3] in H.
  match type of H with (if Reqb ?d 0 then _ else _) = _ => set (det := d) in *; destruct (Reqb_spec det 0) as [|D]; [discriminate|] end.
  injection H as <-. cbv [mat_vec add3 scale3]. unfold det in D.
  split; vec3; unfold det; field; exact D.
Qed.

Lemma mat_orthonormal : forall z p, dot3 z z = 1 -> dot3 p p = 1 -> dot3 z p = 0 ->
  exists i, mat_inv (z, cross3 p z, p) = Ok i /\
  forall v, dot3 (mat_vec (z, cross3 p z, p) v) (mat_vec (z, cross3 p z, p) v) = dot3 v v /\
            dot3 (mat_vec i v) (mat_vec i v) = dot3 v v.
Proof.
  intros z p Z P ZP.
  assert (dot3 (cross3 p z) (cross3 p z) = 1) as E.
  { destruct z as [[z1 z2] z3], p as [[p1 p2] p3]. unfold dot3, cross3 in *.
    transitivity ((z1 * z1 + z2 * z2 + z3 * z3) * (p1 * p1 + p2 * p2 + p3 * p3) - (z1 * p1 + z2 * p2 + z3 * p3) ^ 2); [ring|].
    rewrite Z, P, ZP. ring. }
  assert (dot3 z (cross3 p z) = 0) as EZ by (destruct z as [[z1 z2] z3], p as [[p1 p2] p3]; unfold dot3, cross3; ring).
  assert (dot3 p (cross3 p z) = 0) as EP by (destruct z as [[z1 z2] z3], p as [[p1 p2] p3]; unfold dot3, cross3; ring).
  assert (dot3 z (cross3 (cross3 p z) p) = 1) as D.
  { destruct z as [[z1 z2] z3], p as [[p1 p2] p3]. unfold dot3, cross3 in *.
    transitivity ((z1 * z1 + z2 * z2 + z3 * z3) * (p1 * p1 + p2 * p2 + p3 * p3) - (z1 * p1 + z2 * p2 + z3 * p3) ^ 2); [ring|].
    rewrite Z, P, ZP. ring. }
  assert (forall v, dot3 (mat_vec (z, cross3 p z, p) v) (mat_vec (z, cross3 p z, p) v) = dot3 v v) as F.
  { intros [[x y] w]. set (e := cross3 p z) in *. clearbody e.
    transitivity (x * x * dot3 z z + y * y * dot3 e e + w * w * dot3 p p +
      2 * (x * y * dot3 z e + x * w * dot3 z p + y * w * dot3 p e)).
    - destruct z as [[z1 z2] z3], p as [[p1 p2] p3], e as [[e1 e2] e3]. cbv [mat_vec add3 scale3 dot3]. ring.
    - rewrite Z, P, ZP, E, EZ, EP. unfold dot3. ring. }
  unfold mat_inv. rewrite D, Reqb_false by lra. eexists. split; [reflexivity|]. intros v. split; [apply F|].
  match goal with |- dot3 (mat_vec ?i v) _ = _ => set (j := i) end.
  assert (mat_inv (z, cross3 p z, p) = Ok j) as J.
  { unfold mat_inv. rewrite D, Reqb_false by lra. reflexivity. }
  destruct (mat_inv_sound _ _ v J) as [_ S]. rewrite <- F, S. reflexivity.
Qed.

(** The virtual pole and the virtual zero are perpendicular (as they are for
    the default values). *)
Definition perpendicular (a b : R * R) : Prop := central_cos a b = 0.

Lemma flat_new_ok : forall pole zero r, perpendicular pole zero ->
  exists f, flat_new pole zero r = Ok f /\ fm_radius f = r.
Proof.
  intros pole zero r H. unfold flat_new.
  destruct (mat_orthonormal (on_ball zero) (on_ball pole)) as [i [E _]]; try apply on_ball_unit.
  { rewrite dot3_sym, central_dot. exact H. }
  rewrite E. cbn [rbind]. eauto.
Qed.

Lemma flat_new_mat : forall pole zero r f, perpendicular pole zero -> flat_new pole zero r = Ok f ->
  fm_radius f = r /\
  (forall v, mat_vec (fm_inv f) (mat_vec (fm_mat f) v) = v /\ mat_vec (fm_mat f) (mat_vec (fm_inv f) v) = v) /\
  (forall v, dot3 (mat_vec (fm_mat f) v) (mat_vec (fm_mat f) v) = dot3 v v /\
             dot3 (mat_vec (fm_inv f) v) (mat_vec (fm_inv f) v) = dot3 v v).
Proof.
  intros pole zero r f H E. unfold flat_new in E.
  destruct (mat_orthonormal (on_ball zero) (on_ball pole)) as [i [I F]]; try apply on_ball_unit.
  { rewrite dot3_sym, central_dot. exact H. }
  pose proof (fun v => mat_inv_sound _ _ v I) as G.
  rewrite I in E. cbn [rbind] in E. injection E as <-. cbn. auto.
Qed.

Lemma tanh_arcsinh : forall a, -90 < a < 90 -> tanh (arcsinh (tan (deg2rad a))) = sin (deg2rad a).
Proof.
  intros a A. pose proof (cos_lat_pos a A) as C. set (x := deg2rad a) in *.
  unfold tanh. rewrite sinh_arcsinh.
  assert (cosh (arcsinh (tan x)) = / cos x) as ->.
  { assert (0 < cosh (arcsinh (tan x))) as P.
    { unfold cosh. pose proof (exp_pos (arcsinh (tan x))). pose proof (exp_pos (- arcsinh (tan x))). lra. }
    assert (cosh (arcsinh (tan x)) * cosh (arcsinh (tan x)) = / cos x * / cos x) as Q.
    { assert (forall y, cosh y * cosh y = 1 + sinh y * sinh y) as CS.
      { intros y. unfold cosh, sinh. assert (exp y * exp (- y) = 1) as K by (rewrite <- exp_plus, Rplus_opp_r; apply exp_0). lra. }
      rewrite CS, sinh_arcsinh. unfold tan. pose proof (sin2_cos2 x) as S. unfold Rsqr in S.
      replace (1 + sin x / cos x * (sin x / cos x)) with ((sin x * sin x + cos x * cos x) / (cos x * cos x)) by (field; lra).
      rewrite S. field. lra. }
    assert (0 < / cos x) by (apply Rinv_0_lt_compat; auto). nra. }
  unfold tan. field. lra.
Qed.

Lemma np_tan_ok : forall a, -90 < a < 90 -> np_tan (deg2rad a) = Ok (tan (deg2rad a)).
Proof. intros a A. unfold np_tan. pose proof (cos_lat_pos a A). rewrite Reqb_false by lra. reflexivity. Qed.

Lemma np_tan_fail : forall a, a = 90 \/ a = -90 -> np_tan (deg2rad a) = Raise NonFinite.
Proof.
  intros a A. unfold np_tan. rewrite Reqb_true; auto. destruct A as [->| ->].
  - rewrite deg2rad_90. apply cos_PI2.
  - replace (deg2rad (-90)) with (- (PI / 2)) by (unfold deg2rad; field). rewrite cos_neg. apply cos_PI2.
Qed.

(** The projection of a position is the Mercator map of the turned position. *)
Lemma flat_project1_spec : forall pole zero r f p, perpendicular pole zero -> flat_new pole zero r = Ok f ->
  exists q, in_range q /\ on_ball q = mat_vec (fm_mat f) (on_ball p) /\
    (-90 < fst q < 90 -> flat_project1 f p = Ok (r * deg2rad (snd q), r * arcsinh (tan (deg2rad (fst q))))) /\
    (~ -90 < fst q < 90 -> flat_project1 f p = Raise NonFinite).
Proof.
  intros pole zero r f p H E. destruct (flat_new_mat _ _ _ _ H E) as [R [IN OR]].
  destruct (on_lat_lon_unit (mat_vec (fm_mat f) (on_ball p))) as [q [Q1 [Q2 [Q3 Q4]]]].
  { rewrite (proj1 (OR _)). apply on_ball_unit. }
  exists q. split; [split; auto|]. split; auto. unfold flat_project1, flat_transform. rewrite Q1, R. cbn [rbind]. split.
  - intros A. rewrite np_tan_ok by auto. reflexivity.
  - intros A. rewrite np_tan_fail by lra. reflexivity.
Qed.

(** C73.  Round trip, for every choice of perpendicular virtual pole and zero:
    whatever can be projected comes back. *)
Theorem mercator_round_trip : forall pole zero r f pts xs,
  perpendicular pole zero -> r <> 0 -> flat_new pole zero r = Ok f -> Forall proper pts ->
  flat_project f pts = Ok xs -> flat_lat_lon f xs = Ok pts.
Proof.
  intros pole zero r f pts xs H Hr E. destruct (flat_new_mat _ _ _ _ H E) as [R [IN OR]].
  revert xs. induction pts as [|p pts IH]; intros xs F PJ.
  - injection PJ as <-. reflexivity.
  - inversion F as [|? ? P F']; subst. unfold flat_project in PJ. cbn [mapM] in PJ.
    destruct (flat_project1_spec _ _ _ _ p H E) as [q [Q1 [Q2 [Q3 Q4]]]].
    destruct (Rlt_dec (-90) (fst q)) as [L|L]; [destruct (Rlt_dec (fst q) 90) as [U|U]|];
      [|rewrite Q4 in PJ by lra; discriminate|rewrite Q4 in PJ by lra; discriminate].
    rewrite Q3 in PJ by lra. cbn [rbind] in PJ. fold (flat_project f pts) in PJ.
    destruct (flat_project f pts) as [ys|] eqn:Y; [|discriminate]. cbn [rbind] in PJ. injection PJ as <-.
    unfold flat_lat_lon. cbn [mapM]. unfold flat_lat_lon1 at 1. rewrite !np_div_ok by auto. cbn [rbind fst snd].
    replace (fm_radius f * deg2rad (snd q) / fm_radius f) with (deg2rad (snd q)) by (field; auto).
    replace (fm_radius f * arcsinh (tan (deg2rad (fst q))) / fm_radius f) with (arcsinh (tan (deg2rad (fst q)))) by (field; auto).
    rewrite tanh_arcsinh by lra. rewrite np_arcsin_ok by apply SIN_bound. cbn [rbind].
    rewrite asin_sin.
    + rewrite !rad2deg_deg2rad. unfold flat_transform. destruct q as [q1 q2]. cbn [fst snd].
      rewrite Q2, (proj1 (IN _)). destruct p as [p1 p2]. destruct P as [P1 P2]. cbn [fst snd] in *.
      rewrite on_lat_lon_on_ball by auto. cbn [rbind]. fold (flat_lat_lon f ys). rewrite (IH ys) by auto. reflexivity.
    + split.
      * replace (- (PI / 2)) with (deg2rad (-90)) by (unfold deg2rad; field). apply deg2rad_le. lra.
      * rewrite <- deg2rad_90. apply deg2rad_le. lra.
Qed.
Print Assumptions mercator_round_trip.

(** With the default pole and zero: every position off the poles is projected to
    its point of the textbook Mercator map, and comes back. *)
Lemma default_ball : on_ball (90, 0) = (0, 0, 1) /\ on_ball (0, 0) = (1, 0, 0).
Proof.
  unfold on_ball. cbn [fst snd]. rewrite deg2rad_90, deg2rad_0, cos_PI2, sin_PI2, cos_0, sin_0.
  split; vec3; ring.
Qed.

Lemma perpendicular_default : perpendicular (90, 0) (0, 0).
Proof. unfold perpendicular. rewrite <- central_dot. destruct default_ball as [-> ->]. unfold dot3. ring. Qed.

Lemma mercator_log : forall a, -90 < a < 90 ->
  arcsinh (tan (deg2rad a)) = ln (tan (PI / 4 + deg2rad a / 2)).
Proof.
  intros a A. pose proof (cos_lat_pos a A) as C. set (x := deg2rad a) in *.
  assert (- (PI / 2) < x < PI / 2) as X.
  { split.
    - replace (- (PI / 2)) with (deg2rad (-90)) by (unfold deg2rad; field). apply deg2rad_lt. lra.
    - rewrite <- deg2rad_90. apply deg2rad_lt. lra. }
  set (y := PI / 4 + x / 2). assert (0 < y < PI / 2) as Y by (unfold y; lra).
  assert (0 < cos y) as CY by (apply cos_gt_0; lra). assert (0 < sin y) as SY by (apply sin_gt_0; lra).
  assert (cos x = 2 * sin y * cos y) as E1.
  { rewrite <- sin_2a. replace (2 * y) with (PI / 2 + x) by (unfold y; field). rewrite <- cos_sin. reflexivity. }
  assert (sin x = 2 * sin y * sin y - 1) as E2.
  { pose proof (cos_2a_sin y) as Q. replace (2 * y) with (PI / 2 + x) in Q by (unfold y; field).
    rewrite cos_plus, cos_PI2, sin_PI2 in Q. lra. }
  unfold arcsinh. f_equal.
  assert (sqrt (tan x ^ 2 + 1) = / cos x) as ->.
  { apply sqrt_cancel; [left; apply Rinv_0_lt_compat; auto|]. unfold tan. pose proof (sin2_cos2 x) as S. unfold Rsqr in S.
    replace ((sin x / cos x) ^ 2 + 1) with ((sin x * sin x + cos x * cos x) / (cos x * cos x)) by (field; lra).
    rewrite S. field. lra. }
  unfold tan. rewrite E2, E1. field. lra.
Qed.

Lemma default_identity : forall r f v, flat_new (90, 0) (0, 0) r = Ok f -> mat_vec (fm_mat f) v = v.
Proof.
  intros r f v E. unfold flat_new in E. destruct default_ball as [E1 E2]. rewrite E1, E2 in E.
  destruct (mat_inv _) as [i|]; [|discriminate]. cbn [rbind] in E. injection E as <-. cbn [fm_mat].
  destruct v as [[x y] z]. cbv [mat_vec cross3 add3 scale3]. vec3; ring.
Qed.

Theorem mercator_default : forall r f pts, r <> 0 -> flat_new (90, 0) (0, 0) r = Ok f -> Forall proper pts ->
  flat_project f pts = Ok (map (mercator r) pts) /\ flat_lat_lon f (map (mercator r) pts) = Ok pts.
Proof.
  intros r f pts Hr E F.
  assert (flat_project f pts = Ok (map (mercator r) pts)) as P.
  { unfold flat_project. rewrite <- (map_id pts) at 1. apply mapM_map_ok. intros p I.
    rewrite Forall_forall in F. destruct (F p I) as [A B].
    unfold flat_project1, flat_transform. rewrite (default_identity r) by auto.
    destruct p as [p1 p2]. cbn [fst snd] in *. rewrite on_lat_lon_on_ball by auto. cbn [rbind fst snd].
    rewrite np_tan_ok by auto. cbn [rbind]. rewrite mercator_log by auto.
    destruct (flat_new_mat _ _ _ _ perpendicular_default E) as [-> _]. reflexivity. }
  split; auto. eapply mercator_round_trip; eauto. apply perpendicular_default.
Qed.
Print Assumptions mercator_default.

Theorem mercator_constructor : exists f, flat_default = Ok f /\ fm_radius f = 3440.
Proof. apply flat_new_ok, perpendicular_default. Qed.
Print Assumptions mercator_constructor.

(** Points of the map (one turn around the globe wide) come back as well. *)
Theorem mercator_round_trip_points : forall pole zero r f xy,
  perpendicular pole zero -> 0 < r -> flat_new pole zero r = Ok f ->
  - PI * r < fst xy <= PI * r ->
  exists p, flat_lat_lon f [xy] = Ok [p] /\ in_range p /\ flat_project f [p] = Ok [xy].
Proof.
  intros pole zero r f [x y] H Hr E B. cbn [fst] in B. destruct (flat_new_mat _ _ _ _ H E) as [R [IN OR]].
  assert (forall u, -1 < tanh u < 1) as T.
  { intros u. unfold tanh. assert (0 < cosh u) as C.
    { unfold cosh. pose proof (exp_pos u). pose proof (exp_pos (- u)). lra. }
    assert (- cosh u < sinh u < cosh u) as S.
    { unfold cosh, sinh. pose proof (exp_pos u). pose proof (exp_pos (- u)). lra. }
    split; apply Rmult_lt_reg_r with (cosh u); auto; unfold Rdiv; rewrite Rmult_assoc, Rinv_l by lra; lra. }
  specialize (T (y / r)). set (w := tanh (y / r)) in *.
  assert (-1 <= w <= 1) as W by lra. pose proof (asin_bound_lt w T) as AB. pose proof PI_RGT_0 as Pi.
  unfold flat_lat_lon. cbn [mapM]. unfold flat_lat_lon1. cbn [fst snd]. rewrite R, !np_div_ok by lra. cbn [rbind].
  rewrite np_arcsin_ok by auto. cbn [rbind]. fold w. unfold flat_transform.
  set (q := (rad2deg (asin w), rad2deg (x / r))).
  destruct (on_lat_lon_unit (mat_vec (fm_inv f) (on_ball q))) as [p [P1 [P2 [P3 P4]]]].
  { rewrite (proj2 (OR _)). apply on_ball_unit. }
  rewrite P1. cbn [rbind]. exists p. split; [reflexivity|]. split; [split; auto|].
  unfold flat_project. cbn [mapM]. unfold flat_project1, flat_transform. rewrite P2, (proj2 (IN _)).
  assert (-90 < fst q < 90) as QA.
  { unfold q. cbn [fst]. split.
    - replace (-90) with (rad2deg (- (PI / 2))) by (unfold rad2deg; field; lra). apply rad2deg_lt. lra.
    - replace 90 with (rad2deg (PI / 2)) by (unfold rad2deg; field; lra). apply rad2deg_lt. lra. }
  assert (- PI < x / r <= PI) as XB.
  { split; [apply Rmult_lt_reg_r with r|apply Rmult_le_reg_r with r]; auto; unfold Rdiv; rewrite Rmult_assoc, Rinv_l; lra. }
  assert (-180 < snd q <= 180) as QB.
  { unfold q. cbn [snd]. split.
    - replace (-180) with (rad2deg (- PI)) by (unfold rad2deg; field; lra). apply rad2deg_lt. lra.
    - rewrite <- rad2deg_PI. apply rad2deg_le. lra. }
  unfold q in *. cbn [fst snd] in *. rewrite on_lat_lon_on_ball by auto. cbn [rbind fst snd]. rewrite np_tan_ok by auto.
  cbn [rbind]. rewrite R, !deg2rad_rad2deg. f_equal. f_equal. f_equal; [field; lra|].
  assert (arcsinh (tan (asin w)) = y / r) as ->; [|field; lra].
  rewrite <- (arcsinh_sinh (y / r)). f_equal. unfold tan. rewrite sin_asin, cos_asin by auto.
  assert (0 < cosh (y / r)) as C.
  { unfold cosh. pose proof (exp_pos (y / r)). pose proof (exp_pos (- (y / r))). lra. }
  assert (cosh (y / r) * cosh (y / r) = 1 + sinh (y / r) * sinh (y / r)) as CS.
  { unfold cosh, sinh. assert (exp (y / r) * exp (- (y / r)) = 1) as K by (rewrite <- exp_plus, Rplus_opp_r; apply exp_0). lra. }
  assert (sqrt (1 - w ²) = / cosh (y / r)) as ->.
  { apply sqrt_cancel; [left; apply Rinv_0_lt_compat; auto|]. unfold w, tanh, Rsqr. field_simplify; try lra.
    replace (cosh (y / r) ^ 2 - sinh (y / r) ^ 2) with 1 by (simpl; lra). reflexivity. }
  unfold w, tanh. field. lra.
Qed.
Print Assumptions mercator_round_trip_points.

(** C73.  The distance is symmetric and satisfies the triangle inequality; it is
    the distance of the points on the map. *)
Theorem mercator_distance : forall f a b dab, flat_distance f a b = Ok dab ->
  exists p q, flat_project f [a] = Ok [p] /\ flat_project f [b] = Ok [q] /\ dab = dist2 p q.
Proof.
  intros f a b dab E. unfold flat_distance in E. unfold flat_project. cbn [mapM].
  destruct (flat_project1 f a) as [p|]; [|discriminate]. cbn [rbind] in E |- *.
  destruct (flat_project1 f b) as [q|]; [|discriminate]. cbn [rbind] in E |- *.
  injection E as <-. exists p, q. auto.
Qed.
Print Assumptions mercator_distance.

Lemma dist2_triangle : forall p q s, dist2 p s <= dist2 p q + dist2 q s.
Proof.
  intros [p1 p2] [q1 q2] [s1 s2].
  pose proof (norm_triangle [p1 - q1; p2 - q2] [q1 - s1; q2 - s2] eq_refl) as T.
  unfold euclidean_norm, vadd in T. cbn in T. unfold dist2. cbn [fst snd].
  replace (0 + (p1 - q1 + (q1 - s1)) * (p1 - q1 + (q1 - s1)) + (p2 - q2 + (q2 - s2)) * (p2 - q2 + (q2 - s2)))
    with ((p1 - s1) * (p1 - s1) + (p2 - s2) * (p2 - s2)) in T by ring.
  replace (0 + (p1 - q1) * (p1 - q1) + (p2 - q2) * (p2 - q2)) with ((p1 - q1) * (p1 - q1) + (p2 - q2) * (p2 - q2)) in T by ring.
  replace (0 + (q1 - s1) * (q1 - s1) + (q2 - s2) * (q2 - s2)) with ((q1 - s1) * (q1 - s1) + (q2 - s2) * (q2 - s2)) in T by ring.
  exact T.
Qed.

Lemma dist2_sym : forall p q, dist2 p q = dist2 q p.
Proof. intros [a b] [c d]. unfold dist2. cbn. f_equal. ring. Qed.

Lemma dist2_zero : forall p q, dist2 p q = 0 -> p = q.
Proof.
  intros [a b] [c d] E. unfold dist2 in E. cbn [fst snd] in E.
  pose proof (Rle_0_sqr (a - c)) as P. pose proof (Rle_0_sqr (b - d)) as Q. unfold Rsqr in P, Q.
  apply sqrt_eq_0 in E; [|lra].
  assert ((a - c) * (a - c) = 0) as A by lra. assert ((b - d) * (b - d) = 0) as B by lra.
  f_equal; [destruct (Rmult_integral _ _ A)|destruct (Rmult_integral _ _ B)]; lra.
Qed.

Theorem mercator_distance_metric : forall f a b c dab dac dbc,
  flat_distance f a b = Ok dab -> flat_distance f a c = Ok dac -> flat_distance f b c = Ok dbc ->
  flat_distance f b a = Ok dab /\ 0 <= dab /\ dac <= dab + dbc /\ flat_distance f a a = Ok 0.
Proof.
  intros f a b c dab dac dbc. unfold flat_distance.
  destruct (flat_project1 f a) as [p|]; [|discriminate]. cbn [rbind].
  destruct (flat_project1 f b) as [q|]; [|discriminate]. cbn [rbind].
  destruct (flat_project1 f c) as [s|]; [|discriminate]. cbn [rbind].
  intros E1 E2 E3. injection E1 as <-. injection E2 as <-. injection E3 as <-. fold (dist2 p q) (dist2 p s) (dist2 q s) (dist2 q p).
  split; [rewrite dist2_sym; reflexivity|]. split; [apply sqrt_pos|]. split; [apply dist2_triangle|].
  f_equal. rewrite <- sqrt_0. f_equal. ring.
Qed.
Print Assumptions mercator_distance_metric.

Theorem mercator_distance_zero : forall pole zero r f a b,
  perpendicular pole zero -> r <> 0 -> flat_new pole zero r = Ok f -> proper a -> proper b ->
  flat_distance f a b = Ok 0 -> a = b.
Proof.
  intros pole zero r f a b H Hr E A B D. apply mercator_distance in D. destruct D as [p [q [P [Q D]]]].
  symmetry in D. apply dist2_zero in D. subst q.
  pose proof (mercator_round_trip _ _ _ _ _ _ H Hr E (Forall_cons _ A (Forall_nil _)) P) as X.
  pose proof (mercator_round_trip _ _ _ _ _ _ H Hr E (Forall_cons _ B (Forall_nil _)) Q) as Y.
  congruence.
Qed.
Print Assumptions mercator_distance_zero.

(** C73.  The shortest path: [res] positions which lie on the map equally spaced
    on the straight line from [start] to [end]; the first is [start], the last
    is [end]. *)
Definition on_line (p q : R * R) (t : R) : R * R :=
  ((1 - t) * fst p + t * fst q, (1 - t) * snd p + t * snd q).

Lemma nth_error_combine : forall A B (l : list A) (m : list B) i a b,
  nth_error l i = Some a -> nth_error m i = Some b -> nth_error (combine l m) i = Some (a, b).
Proof.
  induction l as [|x l IH]; intros [|y m] [|i] a b E F; try discriminate; cbn in *.
  - congruence.
  - apply IH; auto.
Qed.

Theorem mercator_path : forall pole zero r f a b p q res,
  perpendicular pole zero -> 0 < r -> flat_new pole zero r = Ok f -> proper a -> proper b ->
  flat_project f [a] = Ok [p] -> flat_project f [b] = Ok [q] -> (2 <= res)%nat ->
  exists path, flat_shortest_path f a b res = Ok path /\ length path = res /\
    (forall i, (i < res)%nat -> exists c, nth_error path i = Some c /\ in_range c /\
       flat_project f [c] = Ok [on_line p q (INR i / INR (res - 1))]) /\
    hd_error path = Some a /\ nth_error path (res - 1) = Some b.
Proof.
  intros pole zero r f a b p q res H Hr E A B P Q N.
  pose proof (flat_new_mat _ _ _ _ H E) as [R _].
  assert (forall c s, flat_project f [c] = Ok [s] -> - PI * r < fst s <= PI * r) as RG.
  { intros c s C. unfold flat_project in C. cbn [mapM] in C. destruct (flat_project1 f c) as [s'|] eqn:F; [|discriminate].
    cbn [rbind] in C. injection C as <-. unfold flat_project1, flat_transform, on_lat_lon in F.
    destruct (mat_vec (fm_mat f) (on_ball c)) as [[x y] z]. destruct (np_arcsin z); [|discriminate]. cbn [rbind fst snd] in F.
    destruct (np_tan _); [|discriminate]. cbn [rbind] in F. injection F as <-. cbn [fst]. rewrite R, deg2rad_rad2deg.
    pose proof (atan2_range x y). split; nra. }
  pose proof (RG _ _ P) as RP. pose proof (RG _ _ Q) as RQ.
  assert (forall t, 0 <= t <= 1 -> - PI * r < fst (on_line p q t) <= PI * r) as RL.
  { intros t T. unfold on_line. cbn [fst]. split; [|nra].
    destruct (Req_dec t 0) as [->|]; [lra|].
    assert (t * (- PI * r) < t * fst q) by (apply Rmult_lt_compat_l; lra).
    assert ((1 - t) * (- PI * r) <= (1 - t) * fst p) by (apply Rmult_le_compat_l; lra). lra. }
  assert (forall i, (i < res)%nat -> nth_error (flat_projected_path p q res) i = Some (on_line p q (INR i / INR (res - 1)))) as NL.
  { intros i I. unfold flat_projected_path. erewrite nth_error_combine; [|apply linspace_nth; auto|apply linspace_nth; auto].
    unfold on_line. f_equal. f_equal; unfold Rdiv; ring. }
  assert (length (flat_projected_path p q res) = res) as LL.
  { unfold flat_projected_path. rewrite combine_length, !linspace_length. lia. }
  assert (forall l, (forall s, In s l -> - PI * r < fst s <= PI * r) ->
     exists path, flat_lat_lon f l = Ok path /\ length path = length l /\
       forall i s, nth_error l i = Some s -> exists c, nth_error path i = Some c /\ in_range c /\
         flat_project f [c] = Ok [s] /\ flat_lat_lon f [s] = Ok [c]) as M.
  { induction l as [|s l IH]; intros F.
    - exists []. repeat split. intros [|i] s Z; discriminate.
    - destruct IH as [path [M1 [M2 M3]]]; [intros; apply F; right; auto|].
      destruct (mercator_round_trip_points _ _ _ _ s H Hr E) as [c [C1 [C2 C3]]]; [apply F; left; auto|].
      exists (c :: path). unfold flat_lat_lon in *. cbn [mapM] in *.
      destruct (flat_lat_lon1 f s) as [c'|] eqn:FS; [|discriminate]. cbn [rbind] in *. injection C1 as ->.
      rewrite M1. cbn [rbind]. split; [reflexivity|]. split; [cbn [length]; congruence|].
      intros [|i] s' Z; cbn [nth_error] in *; [|apply M3; auto]. injection Z as <-.
      exists c. rewrite FS. auto. }
  destruct (M (flat_projected_path p q res)) as [path [M1 [M2 M3]]].
  { intros s I. apply In_nth_error in I. destruct I as [i I].
    assert (i < res)%nat as L by (rewrite <- LL; apply nth_error_Some; congruence).
    rewrite NL in I by auto. injection I as <-. apply RL. apply frac_range; auto. }
  exists path. unfold flat_shortest_path, flat_project. cbn [mapM].
  assert (flat_project1 f a = Ok p) as PA.
  { unfold flat_project in P. cbn [mapM] in P. destruct (flat_project1 f a); [|discriminate]. cbn [rbind] in P. congruence. }
  assert (flat_project1 f b = Ok q) as QB.
  { unfold flat_project in Q. cbn [mapM] in Q. destruct (flat_project1 f b); [|discriminate]. cbn [rbind] in Q. congruence. }
  rewrite PA, QB. cbn [rbind]. split; [exact M1|]. split; [congruence|]. split.
  - intros i I. destruct (M3 i _ (NL i I)) as [c [C1 [C2 [C3 _]]]]. exists c. repeat split; auto; apply C2.
  - assert (on_line p q (INR 0 / INR (res - 1)) = p) as L0.
    { unfold on_line. simpl INR. destruct p. cbn. f_equal; unfold Rdiv; ring. }
    assert (on_line p q (INR (res - 1) / INR (res - 1)) = q) as L1.
    { unfold on_line. unfold Rdiv. rewrite Rinv_r by (apply not_0_INR; lia). destruct q. cbn. f_equal; ring. }
    assert (0 < res)%nat as Z0 by lia. assert (res - 1 < res)%nat as Z1 by lia.
    destruct (M3 0%nat _ (NL 0%nat Z0)) as [c [C1 [C2 [C3 C4]]]]. rewrite L0 in C4.
    destruct (M3 (res - 1)%nat _ (NL (res - 1)%nat Z1)) as [d [D1 [D2 [D3 D4]]]]. rewrite L1 in D4.
    assert (r <> 0) as Hr' by lra.
    rewrite (mercator_round_trip _ _ _ _ _ _ H Hr' E (Forall_cons _ A (Forall_nil _)) P) in C4. injection C4 as <-.
    rewrite (mercator_round_trip _ _ _ _ _ _ H Hr' E (Forall_cons _ B (Forall_nil _)) Q) in D4. injection D4 as <-.
    split; auto.
Qed.
Print Assumptions mercator_path.

(** C73 is refuted for a virtual zero that is not perpendicular to the virtual
    pole: the constructor accepts it, but positions cannot be projected. *)
Theorem mercator_round_trip_refuted : exists pole zero f p,
  flat_new pole zero 3440 = Ok f /\ proper p /\ flat_project f [p] = Raise NonFinite.
Proof.
  exists (90, 0), (60, 0).
  assert (on_ball (60, 0) = (1 / 2, 0, sqrt 3 / 2)) as Z.
  { unfold on_ball. cbn [fst snd]. rewrite deg2rad_0, cos_0, sin_0.
    replace (deg2rad 60) with (PI / 3) by (unfold deg2rad; field). rewrite cos_PI3, sin_PI3. vec3; ring. }
  assert (on_ball (30, 0) = (sqrt 3 / 2, 0, 1 / 2)) as P.
  { unfold on_ball. cbn [fst snd]. rewrite deg2rad_0, cos_0, sin_0.
    replace (deg2rad 30) with (PI / 6) by (unfold deg2rad; field). rewrite cos_PI6, sin_PI6. vec3; ring. }
  unfold flat_new. rewrite Z. destruct default_ball as [-> _].
  destruct (mat_inv (1 / 2, 0, sqrt 3 / 2, cross3 (0, 0, 1) (1 / 2, 0, sqrt 3 / 2), (0, 0, 1))) as [i|] eqn:I.
  2: { exfalso. unfold mat_inv in I. cbv [dot3 cross3] in I.
       match type of I with (if Reqb ?d 0 then _ else _) = _ => replace d with (1 / 4) in I by field end.
       rewrite Reqb_false in I by lra. discriminate. }
  eexists. exists (30, 0). split; [setoid_rewrite I; reflexivity|]. split; [split; cbn; lra|].
  unfold flat_project. cbn [mapM]. unfold flat_project1, flat_transform. cbn [fm_mat]. rewrite P.
  cbv [mat_vec cross3 add3 scale3 on_lat_lon]. unfold np_arcsin.
  match goal with |- context[Rleb (-1) ?z] => replace z with (5 / 4) end.
  - rewrite (Rleb_false (5 / 4) 1) by lra. rewrite andb_false_r. reflexivity.
  - assert (sqrt 3 * sqrt 3 = 3) as S by (apply sqrt_sqrt; lra). field_simplify. simpl (sqrt 3 ^ 2). lra.
Qed.
Print Assumptions mercator_round_trip_refuted.

(** C97.  The map is centred at the virtual zero: true for the default, refuted
    in general (perpendicular pole and zero, the zero lands half a turn away). *)
Theorem mercator_origin_default : forall r f, flat_new (90, 0) (0, 0) r = Ok f ->
  flat_project f [(0, 0)] = Ok [(0, 0)].
Proof.
  intros r f E. unfold flat_project. cbn [mapM]. unfold flat_project1, flat_transform. rewrite (default_identity r) by auto.
  rewrite on_lat_lon_on_ball by lra. cbn [rbind fst snd]. rewrite np_tan_ok by lra. cbn [rbind].
  rewrite deg2rad_0, tan_0, Rmult_0_r. replace (arcsinh 0) with 0; [rewrite Rmult_0_r; reflexivity|].
  rewrite <- (arcsinh_sinh 0) at 1. f_equal. unfold sinh. rewrite Ropp_0. lra.
Qed.
Print Assumptions mercator_origin_default.

Theorem mercator_origin_refuted : exists pole zero, perpendicular pole zero /\
  forall r f, flat_new pole zero r = Ok f -> flat_project f [zero] = Ok [(r * PI, 0)].
Proof.
  exists (90, 0), (0, 90).
  assert (on_ball (0, 90) = (0, 1, 0)) as Z.
  { unfold on_ball. cbn [fst snd]. rewrite deg2rad_0, deg2rad_90, cos_0, sin_0, cos_PI2, sin_PI2. vec3; ring. }
  split.
  { unfold perpendicular. rewrite <- central_dot, Z. destruct default_ball as [-> _]. unfold dot3. ring. }
  intros r f E. unfold flat_new in E. rewrite Z in E. destruct default_ball as [D _]. rewrite D in E.
  destruct (mat_inv _) as [i|]; [|discriminate]. cbn [rbind] in E. injection E as <-.
  unfold flat_project. cbn [mapM]. unfold flat_project1, flat_transform. cbn [fm_mat fm_radius]. rewrite Z.
  match goal with |- context[on_lat_lon ?v] => replace v with (on_ball (0, 180)) end.
  - rewrite on_lat_lon_on_ball by lra. cbn [rbind fst snd]. rewrite np_tan_ok by lra. cbn [rbind].
    rewrite deg2rad_0, deg2rad_180, tan_0. replace (arcsinh 0) with 0; [rewrite Rmult_0_r; reflexivity|].
    rewrite <- (arcsinh_sinh 0) at 1. f_equal. unfold sinh. rewrite Ropp_0. lra.
  - unfold on_ball. cbn [fst snd]. rewrite deg2rad_0, deg2rad_180, cos_0, sin_0, cos_PI, sin_PI.
    cbv [mat_vec cross3 add3 scale3]. vec3; ring.
Qed.
Print Assumptions mercator_origin_refuted.

(** C98.  On the equator both globe models agree, as long as the way does not
    cross the 180th meridian ([_partial]: the full claim would take the shorter
    way around the globe); across it the Mercator distance is the long way. *)
Lemma mercator_equator : forall r f x y, 0 < r -> flat_new (90, 0) (0, 0) r = Ok f ->
  -180 < x <= 180 -> -180 < y <= 180 -> flat_distance f (0, x) (0, y) = Ok (r * Rabs (deg2rad (x - y))).
Proof.
  intros r f x y Hr E X Y.
  assert (forall z, -180 < z <= 180 -> flat_project1 f (0, z) = Ok (r * deg2rad z, 0)) as P.
  { intros z Z. unfold flat_project1, flat_transform. rewrite (default_identity r) by auto.
    rewrite on_lat_lon_on_ball by lra. cbn [rbind fst snd]. rewrite np_tan_ok by lra. cbn [rbind].
    destruct (flat_new_mat _ _ _ _ perpendicular_default E) as [-> _].
    rewrite deg2rad_0, tan_0. replace (arcsinh 0) with 0; [rewrite Rmult_0_r; reflexivity|].
    rewrite <- (arcsinh_sinh 0) at 1. f_equal. unfold sinh. rewrite Ropp_0. lra. }
  unfold flat_distance. rewrite !P by auto. cbn [rbind fst snd]. f_equal.
  replace ((r * deg2rad x - r * deg2rad y) * (r * deg2rad x - r * deg2rad y) + (0 - 0) * (0 - 0))
    with ((r * deg2rad (x - y)) * (r * deg2rad (x - y))) by (unfold deg2rad; ring).
  replace (sqrt (r * deg2rad (x - y) * (r * deg2rad (x - y)))) with (Rabs (r * deg2rad (x - y))) by (symmetry; apply sqrt_Rsqr_abs).
  rewrite Rabs_mult, (Rabs_right r) by lra. reflexivity.
Qed.

Lemma equator_great_circle : forall r x y, -180 <= x - y <= 180 ->
  great_circle r (0, x) (0, y) = r * Rabs (deg2rad (x - y)).
Proof.
  intros r x y H. unfold great_circle, central_cos. cbn [fst snd]. rewrite deg2rad_0, sin_0, cos_0.
  replace (0 * 0 + 1 * 1 * cos (deg2rad (x - y))) with (cos (deg2rad (x - y))) by ring. f_equal.
  assert (Rabs (deg2rad (x - y)) <= PI) as B.
  { apply Rabs_le. rewrite <- deg2rad_180. split; [|apply deg2rad_le; lra].
    replace (- deg2rad 180) with (deg2rad (-180)) by (unfold deg2rad; field). apply deg2rad_le. lra. }
  pose proof (Rabs_pos (deg2rad (x - y))) as P0.
  replace (cos (deg2rad (x - y))) with (cos (Rabs (deg2rad (x - y)))).
  - apply acos_cos. lra.
  - unfold Rabs. destruct (Rcase_abs _); auto. apply cos_neg.
Qed.

Theorem globes_agree_on_equator_partial : forall r f x y, 0 < r -> flat_new (90, 0) (0, 0) r = Ok f ->
  -180 < x <= 180 -> -180 < y <= 180 -> -180 <= x - y <= 180 ->
  exists d, flat_distance f (0, x) (0, y) = Ok d /\ sph_distance r (0, x) (0, y) = Ok d.
Proof.
  intros r f x y Hr E X Y D. exists (r * Rabs (deg2rad (x - y))). split; [apply mercator_equator; auto|].
  rewrite spherical_distance, equator_great_circle by auto. reflexivity.
Qed.
Print Assumptions globes_agree_on_equator_partial.

Theorem globes_agree_on_equator_refuted : exists x y, -180 < x <= 180 /\ -180 < y <= 180 /\
  forall r f, 0 < r -> flat_new (90, 0) (0, 0) r = Ok f ->
  flat_distance f (0, x) (0, y) = Ok (r * deg2rad 359) /\ sph_distance r (0, x) (0, y) = Ok (r * deg2rad 1).
Proof.
  exists 180, (-179). split; [lra|]. split; [lra|]. intros r f Hr E. split.
  - rewrite (mercator_equator r) by (auto; lra). replace (180 - -179) with 359 by ring.
    rewrite Rabs_right; auto. rewrite <- deg2rad_0. apply Rle_ge, deg2rad_le. lra.
  - rewrite spherical_distance. replace (great_circle r (0, 180) (0, -179)) with (great_circle r (0, -180) (0, -179)).
    + rewrite equator_great_circle by lra. replace (-180 - -179) with (- (1)) by ring.
      replace (deg2rad (- (1))) with (- deg2rad 1) by (unfold deg2rad; ring).
      rewrite Rabs_Ropp, Rabs_right; auto. rewrite <- deg2rad_0. apply Rle_ge, deg2rad_le. lra.
    + unfold great_circle, central_cos. cbn [fst snd]. do 4 f_equal.
      replace (deg2rad (180 - -179)) with (deg2rad (-180 - -179) + 2 * IZR 1 * PI) by (unfold deg2rad; field).
      symmetry. apply cos_period_Z.
Qed.
Print Assumptions globes_agree_on_equator_refuted.
