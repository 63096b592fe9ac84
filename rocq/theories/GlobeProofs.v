(** * Lemmas about the globe models: polar angles, unit vectors, great circles *)

From Coq Require Import List Bool Arith ZArith Reals Lra Lia Psatz.
From Verif Require Import Py Num Trig BaseModel BaseProps GlobeModel.
Import ListNotations.
Open Scope R_scope.

(** ** Polar angles *)

Lemma angle_close : forall a b, Rabs (a - b) < 2 * PI ->
  cos a = cos b -> sin a = sin b -> a = b.
Proof.
  intros a b L Hc Hs. apply Rabs_def2 in L. destruct L as [L1 L2].
  assert (cos (a - b) = 1) as C.
  { rewrite cos_minus, Hc, Hs. pose proof (sin2_cos2 b) as S. unfold Rsqr in S. lra. }
  destruct (Rtotal_order a b) as [L|[E|G]]; auto; exfalso.
  - assert (0 < (b - a) / 2 < PI) as I by lra.
    pose proof (sin_gt_0 _ (proj1 I) (proj2 I)) as P.
    replace (a - b) with (- (2 * ((b - a) / 2))) in C by lra.
    rewrite cos_neg, cos_2a_sin in C. nra.
  - assert (0 < (a - b) / 2 < PI) as I by lra.
    pose proof (sin_gt_0 _ (proj1 I) (proj2 I)) as P.
    replace (a - b) with (2 * ((a - b) / 2)) in C by lra.
    rewrite cos_2a_sin in C. nra.
Qed.

Lemma sqrt_ratio : forall x y, 0 < x -> sqrt (x * x + y * y) = x * sqrt (1 + (y / x) ^ 2).
Proof.
  intros x y H. replace (x * sqrt (1 + (y / x) ^ 2)) with (sqrt (x * x) * sqrt (1 + (y / x) ^ 2)).
  - rewrite <- sqrt_mult_alt by nra. f_equal. field. lra.
  - rewrite sqrt_square by lra. reflexivity.
Qed.

Lemma sqrt_1_pos : forall u, 0 < sqrt (1 + u ^ 2).
Proof. intros u. apply sqrt_lt_R0. nra. Qed.

(** [atan2] is the angle of the vector (x, y) in (-pi, pi]. *)
Lemma atan2_polar : forall x y,
  sqrt (x * x + y * y) * cos (atan2 y x) = x /\ sqrt (x * x + y * y) * sin (atan2 y x) = y.
Proof.
  intros x y. unfold atan2. destruct (Rltb_spec 0 x) as [P|P].
  { rewrite sqrt_ratio, cos_atan, sin_atan by auto. pose proof (sqrt_1_pos (y / x)).
    unfold Rsqr. replace (1 + y / x * (y / x)) with (1 + (y / x) ^ 2) by ring. split; field; lra. }
  destruct (Rltb_spec x 0) as [N|N].
  { replace (x * x + y * y) with ((- x) * (- x) + (- y) * (- y)) by ring.
    rewrite sqrt_ratio by lra. replace (- y / - x) with (y / x) by (field; lra).
    pose proof (sqrt_1_pos (y / x)).
    assert (cos (atan (y / x)) = / sqrt (1 + (y / x) ^ 2)) as C.
    { rewrite cos_atan. unfold Rsqr. replace (1 + y / x * (y / x)) with (1 + (y / x) ^ 2) by ring. field. lra. }
    assert (sin (atan (y / x)) = y / x / sqrt (1 + (y / x) ^ 2)) as S.
    { rewrite sin_atan. unfold Rsqr. replace (1 + y / x * (y / x)) with (1 + (y / x) ^ 2) by ring. reflexivity. }
    destruct (Rltb_spec y 0).
    - rewrite cos_minus, sin_minus, cos_PI, sin_PI, C, S. split; field; repeat split; lra.
    - rewrite neg_cos, neg_sin, C, S. split; field; repeat split; lra. }
  assert (x = 0) as -> by lra. replace (0 * 0 + y * y) with (y * y) by ring.
  destruct (Rltb_spec 0 y).
  { rewrite sqrt_square, cos_PI2, sin_PI2 by lra. lra. }
  destruct (Rltb_spec y 0).
  { replace (y * y) with ((- y) * (- y)) by ring.
    rewrite sqrt_square, cos_neg, sin_neg, cos_PI2, sin_PI2 by lra. lra. }
  assert (y = 0) as -> by lra. rewrite Rmult_0_l, sqrt_0. lra.
Qed.

Lemma atan2_range : forall x y, - PI < atan2 y x <= PI.
Proof.
  intros x y. unfold atan2. pose proof PI_RGT_0. destruct (Rltb_spec 0 x) as [P|P].
  { pose proof (atan_bound (y / x)). lra. }
  destruct (Rltb_spec x 0) as [N|N].
  { pose proof (atan_bound (y / x)). destruct (Rltb_spec y 0) as [Y|Y].
    - assert (0 < atan (y / x)); [|lra]. rewrite <- atan_0. apply atan_increasing.
      replace (y / x) with ((- y) / (- x)) by (field; lra). apply Rdiv_lt_0_compat; lra.
    - assert (atan (y / x) <= 0); [|lra]. rewrite <- atan_0.
      destruct (Req_dec y 0) as [->|]; [unfold Rdiv; rewrite Rmult_0_l; lra|].
      left. apply atan_increasing. assert (0 < y / (- x)) by (apply Rdiv_lt_0_compat; lra).
      replace (y / x) with (- (y / - x)) by (field; lra). lra. }
  destruct (Rltb_spec 0 y); [lra|]. destruct (Rltb_spec y 0); lra.
Qed.

(** The angle of a vector given in polar coordinates. *)
Lemma atan2_unique : forall r t, 0 < r -> - PI < t <= PI -> atan2 (r * sin t) (r * cos t) = t.
Proof.
  intros r t Hr Ht. destruct (atan2_polar (r * cos t) (r * sin t)) as [A B].
  assert (sqrt (r * cos t * (r * cos t) + r * sin t * (r * sin t)) = r) as E.
  { apply sqrt_cancel; [lra|]. pose proof (sin2_cos2 t) as S. unfold Rsqr in S. nra. }
  rewrite E in A, B. pose proof (atan2_range (r * cos t) (r * sin t)).
  apply angle_close.
  - apply Rabs_def1; lra.
  - apply Rmult_eq_reg_l with r; lra.
  - apply Rmult_eq_reg_l with r; lra.
Qed.

(** ** Unit vectors *)

Lemma on_ball_unit : forall p, dot3 (on_ball p) (on_ball p) = 1.
Proof.
  intros [a b]. unfold on_ball, dot3. cbn [fst snd].
  pose proof (sin2_cos2 (deg2rad a)) as A. pose proof (sin2_cos2 (deg2rad b)) as B. unfold Rsqr in *.
  set (ca := cos (deg2rad a)) in *. set (sa := sin (deg2rad a)) in *.
  set (cb := cos (deg2rad b)) in *. set (sb := sin (deg2rad b)) in *.
  replace (ca * cb * (ca * cb) + ca * sb * (ca * sb) + sa * sa)
    with (ca * ca * (sb * sb + cb * cb) + sa * sa) by ring. rewrite B. lra.
Qed.

Lemma dot3_sym : forall p q, dot3 p q = dot3 q p.
Proof. intros [[a b] c] [[d e] f]. unfold dot3. ring. Qed.
Lemma dot3_nonneg : forall p, 0 <= dot3 p p.
Proof. intros [[a b] c]. unfold dot3. nra. Qed.
Lemma dot3_scale : forall c p q, dot3 (scale3 c p) q = c * dot3 p q.
Proof. intros k [[a b] c] [[d e] f]. unfold dot3, scale3. ring. Qed.
Lemma dot3_add : forall p q u, dot3 (add3 p q) u = dot3 p u + dot3 q u.
Proof. intros [[a b] c] [[d e] f] [[g h] i]. unfold dot3, add3. ring. Qed.
Lemma norm3_scale : forall r p, norm3 (scale3 r p) = Rabs r * norm3 p.
Proof.
  intros r p. unfold norm3. rewrite dot3_scale, dot3_sym, dot3_scale.
  rewrite <- Rmult_assoc, sqrt_mult_alt by apply Rle_0_sqr.
  f_equal. apply sqrt_Rsqr_abs.
Qed.

(** Cauchy-Schwarz, also for the parts orthogonal to a unit vector. *)
Lemma cauchy3 : forall p q, dot3 p q * dot3 p q <= dot3 p p * dot3 q q.
Proof.
  intros [[a b] c] [[d e] f]. unfold dot3.
  pose proof (pow2_ge_0 (a * e - b * d)) as A. pose proof (pow2_ge_0 (a * f - c * d)) as B.
  pose proof (pow2_ge_0 (b * f - c * e)) as C. simpl in A, B, C. lra.
Qed.

Lemma zero3 : forall p, dot3 p p = 0 -> p = (0, 0, 0).
Proof.
  intros [[a b] c] H. unfold dot3 in H.
  pose proof (Rle_0_sqr a) as A. pose proof (Rle_0_sqr b) as B. pose proof (Rle_0_sqr c) as C. unfold Rsqr in *.
  assert (forall x, x * x = 0 -> x = 0) as Z by (intros x E; destruct (Rmult_integral _ _ E); auto).
  rewrite (Z a), (Z b), (Z c) by lra. reflexivity.
Qed.

Definition sub3 (p q : v3) : v3 := add3 p (scale3 (-1) q).
Lemma sub3_eq : forall p q, dot3 (sub3 p q) (sub3 p q) = 0 -> p = q.
Proof.
  intros p q H. apply zero3 in H. destruct p as [[a b] c], q as [[d e] f].
  unfold sub3, add3, scale3 in H. injection H as A B C. f_equal; [f_equal|]; lra.
Qed.
Lemma dot3_sub : forall p q, dot3 (sub3 p q) (sub3 p q) = dot3 p p - 2 * dot3 p q + dot3 q q.
Proof. intros [[a b] c] [[d e] f]. unfold sub3, add3, scale3, dot3. ring. Qed.

Lemma unit_dot_range : forall p q, dot3 p p = 1 -> dot3 q q = 1 -> -1 <= dot3 p q <= 1.
Proof.
  intros p q P Q. pose proof (cauchy3 p q) as C. rewrite P, Q in C. split; nra.
Qed.

Lemma unit_dot_1 : forall p q, dot3 p p = 1 -> dot3 q q = 1 -> dot3 p q = 1 -> p = q.
Proof. intros p q P Q E. apply sub3_eq. rewrite dot3_sub. lra. Qed.

Lemma np_arccos_ok : forall x, -1 <= x <= 1 -> np_arccos x = Ok (acos x).
Proof. intros x H. unfold np_arccos. rewrite !Rleb_true by lra. reflexivity. Qed.
Lemma np_arcsin_ok : forall x, -1 <= x <= 1 -> np_arcsin x = Ok (asin x).
Proof. intros x H. unfold np_arcsin. rewrite !Rleb_true by lra. reflexivity. Qed.
Lemma np_div_ok : forall x y : R, y <> 0 -> np_div x y = Ok (x / y).
Proof. intros x y H. unfold np_div. rnum. rewrite Reqb_false by auto. reflexivity. Qed.

Lemma norm3_unit : forall p, dot3 p p = 1 -> norm3 p = 1.
Proof. intros p H. unfold norm3. rewrite H. apply sqrt_1. Qed.

Lemma angle_units : forall p q, dot3 p p = 1 -> dot3 q q = 1 -> angle p q = Ok (acos (dot3 p q)).
Proof.
  intros p q P Q. unfold angle. rewrite !norm3_unit by auto.
  rewrite np_div_ok by lra. cbn [rbind]. rewrite np_div_ok by lra. cbn [rbind].
  replace (dot3 p q / 1 / 1) with (dot3 p q) by field. apply np_arccos_ok. apply unit_dot_range; auto.
Qed.

Lemma angle_scaled : forall r p q, 0 < r -> dot3 p p = 1 -> dot3 q q = 1 ->
  angle (scale3 r p) (scale3 r q) = Ok (acos (dot3 p q)).
Proof.
  intros r p q H P Q. unfold angle. rewrite !norm3_scale, !norm3_unit, Rabs_right by (auto; lra).
  rewrite dot3_scale, dot3_sym, dot3_scale, dot3_sym.
  rewrite np_div_ok by lra. cbn [rbind]. rewrite np_div_ok by lra. cbn [rbind].
  replace (r * (r * dot3 p q) / (r * 1) / (r * 1)) with (dot3 p q) by (field; lra).
  apply np_arccos_ok. apply unit_dot_range; auto.
Qed.

(** Every unit vector is the ball point of its latitude and longitude. *)
Lemma on_lat_lon_unit : forall v, dot3 v v = 1 ->
  exists p, on_lat_lon v = Ok p /\ on_ball p = v /\ -90 <= fst p <= 90 /\ -180 < snd p <= 180.
Proof.
  intros [[x y] z] H. unfold dot3 in H. assert (-1 <= z <= 1) as Z by (split; nra).
  unfold on_lat_lon. rewrite np_arcsin_ok by auto. cbn [rbind]. eexists. split; [reflexivity|].
  pose proof (asin_bound z) as B. pose proof (atan2_range x y) as T. pose proof PI_RGT_0 as Pi.
  split; [|split]; cbn [fst snd].
  - unfold on_ball. cbn [fst snd]. rewrite !deg2rad_rad2deg.
    rewrite sin_asin, cos_asin by auto.
    replace (1 - z ²) with (x * x + y * y) by (unfold Rsqr; lra).
    destruct (atan2_polar x y) as [-> ->]. reflexivity.
  - split.
    + replace (-90) with (rad2deg (- (PI / 2))) by (unfold rad2deg; field; lra). apply rad2deg_le. lra.
    + replace 90 with (rad2deg (PI / 2)) by (unfold rad2deg; field; lra). apply rad2deg_le. lra.
  - split.
    + replace (-180) with (rad2deg (- PI)) by (unfold rad2deg; field; lra). apply rad2deg_lt. lra.
    + rewrite <- rad2deg_PI. apply rad2deg_le. lra.
Qed.

Lemma deg2rad_range : forall a b x, a < x < b -> deg2rad a < deg2rad x < deg2rad b.
Proof. intros. split; apply deg2rad_lt; lra. Qed.

Lemma cos_lat_pos : forall a, -90 < a < 90 -> 0 < cos (deg2rad a).
Proof.
  intros a H. apply cos_gt_0.
  - replace (- (PI / 2)) with (deg2rad (-90)) by (unfold deg2rad; field). apply deg2rad_lt. lra.
  - rewrite <- deg2rad_90. apply deg2rad_lt. lra.
Qed.

(** Latitude and longitude of a ball point. *)
Lemma on_lat_lon_on_ball : forall a b, -90 < a < 90 -> -180 < b <= 180 ->
  on_lat_lon (on_ball (a, b)) = Ok (a, b).
Proof.
  intros a b A B. unfold on_ball, on_lat_lon. cbn [fst snd].
  pose proof (cos_lat_pos a A) as C. pose proof PI_RGT_0 as Pi.
  rewrite np_arcsin_ok by apply SIN_bound. cbn [rbind].
  rewrite asin_sin.
  - rewrite atan2_unique, !rad2deg_deg2rad; auto. split.
    + replace (- PI) with (deg2rad (-180)) by (unfold deg2rad; field). apply deg2rad_lt. lra.
    + rewrite <- deg2rad_180. apply deg2rad_le. lra.
  - split.
    + replace (- (PI / 2)) with (deg2rad (-90)) by (unfold deg2rad; field). apply deg2rad_le. lra.
    + rewrite <- deg2rad_90. apply deg2rad_le. lra.
Qed.

(** ** Angles between unit vectors *)

Lemma acos_0_inv : forall x, -1 <= x <= 1 -> acos x = 0 -> x = 1.
Proof. intros x H E. rewrite <- (cos_acos x H), E. apply cos_0. Qed.

(** Spherical triangle inequality. *)
Lemma angle_triangle : forall a b c, dot3 a a = 1 -> dot3 b b = 1 -> dot3 c c = 1 ->
  acos (dot3 a c) <= acos (dot3 a b) + acos (dot3 b c).
Proof.
  intros a b c A B C.
  pose proof (unit_dot_range a b A B) as R1. pose proof (unit_dot_range b c B C) as R2.
  pose proof (unit_dot_range a c A C) as R3.
  pose proof (acos_bound (dot3 a b)) as B1. pose proof (acos_bound (dot3 b c)) as B2.
  pose proof (acos_bound (dot3 a c)) as B3.
  destruct (Rle_lt_dec PI (acos (dot3 a b) + acos (dot3 b c))) as [L|L]; [lra|].
  set (al := acos (dot3 a b)) in *. set (be := acos (dot3 b c)) in *.
  apply Rnot_lt_le. intros G.
  assert (cos (acos (dot3 a c)) < cos (al + be)) as K by (apply cos_decreasing_1; lra).
  rewrite cos_acos in K by auto. rewrite cos_plus in K.
  unfold al, be in K. rewrite !cos_acos, !sin_acos in K by auto.
  set (x := dot3 a b) in *. set (y := dot3 b c) in *.
  (* the parts of a and c orthogonal to b *)
  set (u := sub3 a (scale3 x b)). set (v := sub3 c (scale3 y b)).
  assert (dot3 u u = 1 - x ²) as U.
  { unfold u. rewrite dot3_sub, dot3_scale, (dot3_sym a (scale3 x b)), dot3_scale, (dot3_sym b (scale3 x b)), dot3_scale,
    (dot3_sym b a), A, B. fold x. unfold Rsqr. ring. }
  assert (dot3 v v = 1 - y ²) as V.
  { unfold v. rewrite dot3_sub, dot3_scale, (dot3_sym c (scale3 y b)), dot3_scale, (dot3_sym b (scale3 y b)), dot3_scale,
    C, B. fold y. unfold Rsqr. ring. }
  assert (dot3 u v = dot3 a c - x * y) as W.
  { unfold u, v, sub3. rewrite dot3_add, !dot3_scale, (dot3_sym a), (dot3_sym b), !dot3_add, !dot3_scale.
    rewrite (dot3_sym b a), B. fold x. rewrite (dot3_sym c b), (dot3_sym c a). fold y. ring. }
  pose proof (cauchy3 u v) as CS. rewrite U, V, W in CS.
  assert (0 <= sqrt (1 - x ²)) as S1 by apply sqrt_pos.
  assert (0 <= sqrt (1 - y ²)) as S2 by apply sqrt_pos.
  assert (sqrt (1 - x ²) * sqrt (1 - x ²) = 1 - x ²) as Q1 by (apply sqrt_sqrt; unfold Rsqr; nra).
  assert (sqrt (1 - y ²) * sqrt (1 - y ²) = 1 - y ²) as Q2 by (apply sqrt_sqrt; unfold Rsqr; nra).
  set (p := sqrt (1 - x ²)) in *. set (q := sqrt (1 - y ²)) in *.
  assert (0 <= p * q) as PQ by (apply Rmult_le_pos; auto).
  assert ((dot3 a c - x * y) * (dot3 a c - x * y) <= (p * q) * (p * q)) as M.
  { replace (p * q * (p * q)) with ((p * p) * (q * q)) by ring. rewrite Q1, Q2. exact CS. }
  assert (dot3 a c - x * y < - (p * q)) as N by lra. nra.
Qed.

(** The points of the great circle from [a] to [b]. *)
Lemma slerp_dot : forall a b t w, dot3 a a = 1 -> dot3 b b = 1 -> dot3 a b = cos t -> sin t <> 0 ->
  let col2 := add3 (scale3 (- cos t / sin t) a) (scale3 (1 / sin t) b) in
  let p := add3 (scale3 (cos w) a) (scale3 (sin w) col2) in
  dot3 p p = 1 /\ dot3 a p = cos w /\ dot3 p b = cos (t - w).
Proof.
  intros a b t w A B D S col2 p.
  assert (dot3 a col2 = 0) as E1.
  { unfold col2. rewrite dot3_sym, dot3_add, !dot3_scale, (dot3_sym b a), A, D. field. auto. }
  assert (dot3 col2 col2 = 1) as E2.
  { unfold col2 at 1. rewrite dot3_add, !dot3_scale, E1. unfold col2.
    rewrite (dot3_sym b), dot3_add, !dot3_scale, D, B.
    pose proof (sin2_cos2 t) as T. unfold Rsqr in T. field_simplify; auto.
    replace (- cos t ^ 2 + 1) with (sin t ^ 2) by (simpl; lra). field. auto. }
  assert (dot3 col2 b = sin t) as E3.
  { unfold col2. rewrite dot3_add, !dot3_scale, D, B. pose proof (sin2_cos2 t) as T. unfold Rsqr in T.
    apply Rmult_eq_reg_r with (sin t); auto. field_simplify; auto. simpl. lra. }
  assert (dot3 a p = cos w) as P1.
  { unfold p. rewrite dot3_sym, dot3_add, !dot3_scale, A, (dot3_sym col2 a), E1. ring. }
  assert (dot3 col2 p = sin w) as P2.
  { unfold p. rewrite dot3_sym, dot3_add, !dot3_scale, E1, E2. ring. }
  split; [|split; [exact P1|]].
  - unfold p at 1. rewrite dot3_add, !dot3_scale, P1, P2. pose proof (sin2_cos2 w) as W. unfold Rsqr in W. lra.
  - unfold p. rewrite dot3_add, !dot3_scale, D, E3, cos_minus. ring.
Qed.

Lemma scale3_add : forall c p q, scale3 c (add3 p q) = add3 (scale3 c p) (scale3 c q).
Proof. intros k [[a b] c] [[d e] f]. unfold scale3, add3. f_equal; [f_equal|]; ring. Qed.
Lemma scale3_scale : forall c d p, scale3 c (scale3 d p) = scale3 (c * d) p.
Proof. intros k l [[a b] c]. unfold scale3. f_equal; [f_equal|]; ring. Qed.

(** The scaled path is the path on the unit sphere, scaled. *)
Lemma slerp_scale : forall r a b t w,
  add3 (scale3 (cos w) (scale3 r a))
    (scale3 (sin w) (add3 (scale3 (- cos t / sin t) (scale3 r a)) (scale3 (1 / sin t) (scale3 r b)))) =
  scale3 r (add3 (scale3 (cos w) a)
    (scale3 (sin w) (add3 (scale3 (- cos t / sin t) a) (scale3 (1 / sin t) b)))).
Proof.
  intros r [[a1 a2] a3] [[b1 b2] b3] t w. unfold add3, scale3. f_equal; [f_equal|]; ring.
Qed.

Lemma slerp_start : forall a c, add3 (scale3 (cos 0) a) (scale3 (sin 0) c) = a.
Proof.
  intros [[a b] c] [[d e] f]. rewrite cos_0, sin_0. unfold add3, scale3. f_equal; [f_equal|]; ring.
Qed.

Lemma slerp_end : forall a b t, sin t <> 0 ->
  add3 (scale3 (cos t) a) (scale3 (sin t) (add3 (scale3 (- cos t / sin t) a) (scale3 (1 / sin t) b))) = b.
Proof.
  intros [[a b] c] [[d e] f] t H. unfold add3, scale3. f_equal; [f_equal|]; field; auto.
Qed.

Lemma div3_scale : forall r p, r <> 0 -> div3 (scale3 r p) r = Ok p.
Proof.
  intros r [[x y] z] H. unfold div3, scale3. rewrite !np_div_ok by auto. cbn [rbind].
  f_equal. f_equal; [f_equal|]; field; auto.
Qed.
