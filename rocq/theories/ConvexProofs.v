(** * Plane geometry for [convex_direction] *)

From Coq Require Import List Bool Arith ZArith Reals Lra Lia Psatz Sorted.
From Verif Require Import Py Num Trig PySort ListX GlobeModel CruiseModel CruiseSpec.
Import ListNotations.
Open Scope R_scope.

Lemma vdot_add_r : forall n p q, vdot n (vadd2 p q) = vdot n p + vdot n q.
Proof. intros. unfold vdot, vadd2. cbn. ring. Qed.
Lemma vdot_scale_r : forall n c p, vdot n (vscale c p) = c * vdot n p.
Proof. intros. unfold vdot, vscale. cbn. ring. Qed.
Lemma vdot_zero_r : forall n, vdot n (0, 0) = 0.
Proof. intros. unfold vdot. cbn. ring. Qed.

Lemma weighted_dot : forall n c w pts, Forall (fun x => 0 <= x) w -> length w = length pts ->
  (forall p, In p pts -> vdot n p <= c) -> vdot n (weighted w pts) <= total w * c.
Proof.
  intros n c w. induction w as [|x w IH]; intros [|p pts] F L H; try discriminate; cbn [weighted total].
  - rewrite vdot_zero_r. lra.
  - inversion F; subst. rewrite vdot_add_r, vdot_scale_r.
    assert (vdot n p <= c) by (apply H; left; auto).
    assert (vdot n (weighted w pts) <= total w * c) by (apply IH; auto; intros; apply H; right; auto).
    nra.
Qed.

(** A linear function is at most [c] on what can be reached if it is on the points. *)
Lemma reachable_dot : forall n c pts q, reachable pts q -> (forall p, In p pts -> vdot n p <= c) -> vdot n q <= c.
Proof.
  intros n c pts q [w [L [F [T <-]]]] H. pose proof (weighted_dot n c w pts F L H). rewrite T in *. lra.
Qed.

Lemma reachable_dot_lt : forall n c pts q, reachable pts q -> c < vdot n q -> exists p, In p pts /\ c < vdot n p.
Proof.
  intros n c pts q H L.
  destruct (existsb (fun p => Rltb c (vdot n p)) pts) eqn:E.
  - apply existsb_exists in E. destruct E as [p [I P]]. exists p. split; auto.
    destruct (Rltb_spec c (vdot n p)); [auto|discriminate].
  - exfalso. assert (vdot n q <= c); [|lra]. eapply reachable_dot; eauto. intros p I.
    destruct (Rlt_dec c (vdot n p)) as [K|K]; [|lra]. exfalso.
    assert (existsb (fun p => Rltb c (vdot n p)) pts = true) as T; [|congruence].
    apply existsb_exists. exists p. split; auto. rewrite Rltb_true; auto.
Qed.

(** An exposed point is a corner. *)
Lemma exposed_corner : forall pts vs i p n, hull_of pts vs -> nth_error pts i = Some p ->
  (forall j q, nth_error pts j = Some q -> j <> i -> vdot n q < vdot n p) -> In i vs.
Proof.
  intros pts vs i p n [ND [EX CO]] N H.
  assert (In p pts) as I by (eapply nth_error_In; eauto).
  destruct (in_dec Nat.eq_dec i vs) as [|NI]; auto. exfalso.
  pose proof (CO p I) as RP.
  destruct RP as [w [L [F [T W]]]].
  assert (forall q, In q (map (fun i => nth i pts (0, 0)) vs) -> vdot n q < vdot n p) as LT.
  { intros q J. apply in_map_iff in J. destruct J as [j [<- J]].
    destruct (EX j J) as [q [n' [Q _]]]. rewrite (nth_error_nth _ _ _ Q). apply (H j); auto. congruence. }
  clear CO. set (l := map (fun i => nth i pts (0, 0)) vs) in *. clearbody l.
  assert (vdot n (weighted w l) < total w * vdot n p \/ total w = 0) as D.
  { clear W T. revert l LT L. induction F as [|x w X F IH]; intros [|q l] LT L; try discriminate; cbn [weighted total].
    - right. auto.
    - rewrite vdot_add_r, vdot_scale_r. assert (vdot n q < vdot n p) as Q by (apply LT; left; auto).
      destruct (IH l) as [D|D]; auto.
      + intros; apply LT; right; auto.
      + left. assert (x * vdot n q <= x * vdot n p) by (apply Rmult_le_compat_l; lra). lra.
      + assert (length w = length l) as L' by (cbn in L; congruence).
        assert (vdot n (weighted w l) <= total w * vdot n p) as Z.
        { apply weighted_dot; auto. intros. left. apply LT. right. auto. }
        destruct (Req_dec x 0) as [->|NX]; [right; lra|]. left. rewrite D in *.
        assert (x * vdot n q < x * vdot n p) by (apply Rmult_lt_compat_l; lra). lra. }
  rewrite T, W in D. lra.
Qed.

(** ** Angles *)

Lemma polar_velocity : forall a b, polar_pt a b = velocity a b.
Proof. reflexivity. Qed.

Lemma velocity_dot : forall a b v w, vdot (velocity a v) (velocity b w) = v * w * cos (deg2rad (a - b)).
Proof.
  intros. unfold vdot, velocity, vscale, heading_vec. cbn [fst snd].
  replace (deg2rad (a - b)) with (deg2rad a - deg2rad b) by (unfold deg2rad; ring). rewrite cos_minus. ring.
Qed.

Definition vdet (p q : vec) : R := fst p * snd q - snd p * fst q.

Lemma velocity_det : forall a b v w, vdet (velocity a v) (velocity b w) = v * w * sin (deg2rad (b - a)).
Proof.
  intros. unfold vdet, velocity, vscale, heading_vec. cbn [fst snd].
  replace (deg2rad (b - a)) with (deg2rad b - deg2rad a) by (unfold deg2rad; ring). rewrite sin_minus. ring.
Qed.

Lemma velocity_period : forall a v k, velocity (a + 360 * IZR k) v = velocity a v.
Proof.
  intros. unfold velocity, heading_vec.
  replace (deg2rad (a + 360 * IZR k)) with (deg2rad a + 2 * IZR k * PI) by (unfold deg2rad; field).
  rewrite cos_period_Z, sin_period_Z. reflexivity.
Qed.

Lemma sin_deg_pos : forall x, 0 < x < 180 -> 0 < sin (deg2rad x).
Proof.
  intros x H. apply sin_gt_0; [rewrite <- deg2rad_0|rewrite <- deg2rad_180]; apply deg2rad_lt; lra.
Qed.
Lemma sin_deg_nonneg : forall x, 0 <= x <= 180 -> 0 <= sin (deg2rad x).
Proof.
  intros x H. apply sin_ge_0; [rewrite <- deg2rad_0|rewrite <- deg2rad_180]; apply deg2rad_le; lra.
Qed.
Lemma sin_deg_neg : forall x, 180 < x < 360 -> sin (deg2rad x) < 0.
Proof.
  intros x H. apply sin_lt_0.
  - rewrite <- deg2rad_180. apply deg2rad_lt; lra.
  - replace (2 * PI) with (deg2rad 360) by (unfold deg2rad; field). apply deg2rad_lt; lra.
Qed.
Lemma cos_deg_pos : forall x, -90 < x < 90 -> 0 < cos (deg2rad x).
Proof.
  intros x H. apply cos_gt_0.
  - replace (- (PI / 2)) with (deg2rad (-90)) by (unfold deg2rad; field). apply deg2rad_lt. lra.
  - rewrite <- deg2rad_90. apply deg2rad_lt. lra.
Qed.
Lemma cos_deg_nonneg : forall x, -90 <= x <= 90 -> 0 <= cos (deg2rad x).
Proof.
  intros x H. apply cos_ge_0.
  - replace (- (PI / 2)) with (deg2rad (-90)) by (unfold deg2rad; field). apply deg2rad_le. lra.
  - rewrite <- deg2rad_90. apply deg2rad_le. lra.
Qed.

(** Coordinates with respect to two vectors. *)
Lemma two_coordinates : forall p1 p2 v, vdet p1 p2 <> 0 ->
  v = vadd2 (vscale (vdet v p2 / vdet p1 p2) p1) (vscale (vdet p1 v / vdet p1 p2) p2).
Proof.
  intros [a b] [c d] [x y] H. unfold vadd2, vscale, vdet in *. cbn [fst snd] in *. f_equal; field; auto.
Qed.

(** ** Edges of the hull *)

(** [t1 < t2 < t1 + 360] are the angles of two neighbouring corners [p1], [p2]:
    all corners have an angle from [t2] on to [t1 + 360]. *)
Definition neighbours (corners : list vec) (t1 t2 : R) : Prop :=
  t1 < t2 < t1 + 360 /\
  forall v, In v corners -> exists r t, 0 <= r /\ t2 <= t <= t1 + 360 /\ v = velocity t r.

Lemma corner_positive : forall pts p n, all_round pts ->
  (forall q, In q pts -> q <> p -> vdot n q < vdot n p) -> (exists q, In q pts /\ q <> p) -> 0 < vdot n p.
Proof.
  intros pts p n A H [q [Q N]].
  destruct (Req_dec (fst n) 0) as [E1|E1]; [destruct (Req_dec (snd n) 0) as [E2|E2]|].
  - exfalso. pose proof (H q Q N) as K. unfold vdot in K. rewrite E1, E2 in K. lra.
  - destruct (A n) as [s [S1 S2]]; [intros ->; apply E2; reflexivity|].
    destruct (Req_dec (vdot n s) (vdot n p)) as [E|E]; [lra|].
    assert (vdot n s < vdot n p); [apply H; auto; congruence|lra].
  - destruct (A n) as [s [S1 S2]]; [intros ->; apply E1; reflexivity|].
    destruct (Req_dec (vdot n s) (vdot n p)) as [E|E]; [lra|].
    assert (vdot n s < vdot n p); [apply H; auto; congruence|lra].
Qed.

(** Neighbouring corners are less than half a turn apart. *)
Lemma neighbours_gap : forall pts corners t1 t2, all_round pts ->
  (forall q, In q pts -> reachable corners q) -> neighbours corners t1 t2 -> t2 - t1 < 180.
Proof.
  intros pts corners t1 t2 A C [[L U] NB]. apply Rnot_le_lt. intros G.
  set (m := (t2 + t1 + 360) / 2).
  assert (heading_vec (m + 180) <> (0, 0)) as NZ.
  { intros E. unfold heading_vec in E. injection E as E1 E2. pose proof (sin2_cos2 (deg2rad (m + 180))) as S.
    rewrite E1, E2 in S. unfold Rsqr in S. lra. }
  destruct (A _ NZ) as [p [P1 P2]].
  destruct (reachable_dot_lt _ _ _ _ (C p P1) P2) as [v [V1 V2]].
  destruct (NB v V1) as [r [t [R1 [R2 ->]]]].
  replace (heading_vec (m + 180)) with (velocity (m + 180) 1) in V2.
  2: { unfold velocity, vscale, heading_vec. cbn. f_equal; ring. }
  rewrite velocity_dot in V2.
  replace (m + 180 - t) with ((m - t) + 180) in V2 by ring.
  replace (deg2rad (m - t + 180)) with (deg2rad (m - t) + PI) in V2 by (unfold deg2rad; field).
  rewrite neg_cos in V2. assert (0 <= cos (deg2rad (m - t))) by (apply cos_deg_nonneg; unfold m; lra).
  nra.
Qed.

(** The line through neighbouring corners supports the hull. *)
Lemma neighbours_support : forall pts corners t1 t2 r1 r2 n1 n2, all_round pts ->
  (forall q, In q pts -> reachable corners q) -> neighbours corners t1 t2 ->
  let p1 := velocity t1 r1 in let p2 := velocity t2 r2 in
  0 < r1 -> 0 < r2 ->
  (forall q, In q corners -> In q pts) -> In p1 pts -> In p2 pts ->
  (forall q, In q pts -> q <> p1 -> vdot n1 q < vdot n1 p1) ->
  (forall q, In q pts -> q <> p2 -> vdot n2 q < vdot n2 p2) ->
  0 < vdet p1 p2 /\
  exists n, vdot n p1 = 1 /\ vdot n p2 = 1 /\ forall q, In q pts -> vdot n q <= 1.
Proof.
  intros pts corners t1 t2 r1 r2 n1 n2 A C NB p1 p2 R1 R2 SUB I1 I2 X1 X2.
  pose proof (neighbours_gap _ _ _ _ A C NB) as G. destruct NB as [[L U] NB].
  assert (0 < sin (deg2rad (t2 - t1))) as SP by (apply sin_deg_pos; lra).
  assert (0 < vdet p1 p2) as D.
  { unfold p1, p2. rewrite velocity_det. apply Rmult_lt_0_compat; auto. apply Rmult_lt_0_compat; auto. }
  split; auto.
  assert (p1 <> p2) as NE.
  { intros E. rewrite E in D. unfold vdet in D. lra. }
  pose proof (corner_positive _ _ _ A X1 (ex_intro _ p2 (conj I2 (fun E => NE (eq_sym E))))) as Y1.
  pose proof (corner_positive _ _ _ A X2 (ex_intro _ p1 (conj I1 NE))) as Y2.
  (* n = ((y2 - y1), (x1 - x2)) / det *)
  set (n := ((snd p2 - snd p1) / vdet p1 p2, (fst p1 - fst p2) / vdet p1 p2) : vec).
  assert (vdot n p1 = 1) as N1 by (unfold n, vdot, vdet in *; cbn [fst snd]; field; lra).
  assert (vdot n p2 = 1) as N2 by (unfold n, vdot, vdet in *; cbn [fst snd]; field; lra).
  exists n. split; auto. split; auto. intros q Q. apply Rnot_lt_le. intros K.
  destruct (reachable_dot_lt _ _ _ _ (C q Q) K) as [v [V1 V2]].
  pose proof (SUB v V1) as V3. destruct (NB v V1) as [r [t [Hr [Ht E]]]].
  assert (v <> p1) as VN1 by (intros ->; lra). assert (v <> p2) as VN2 by (intros ->; lra).
  pose proof (two_coordinates p1 p2 v ltac:(lra)) as TC.
  set (a := vdet v p2 / vdet p1 p2) in *. set (b := vdet p1 v / vdet p1 p2) in *.
  assert (vdot n v = a + b) as AB.
  { rewrite TC at 1. rewrite vdot_add_r, !vdot_scale_r, N1, N2. ring. }
  assert (0 < r) as Hr'.
  { destruct (Req_dec r 0) as [->|]; [|lra]. exfalso. rewrite E in V2. unfold velocity, vscale, vdot in V2. cbn in V2. lra. }
  assert (t2 < t < t1 + 360) as Ht'.
  { split.
    - destruct (Req_dec t2 t) as [<-|]; [|lra]. exfalso. (* same direction as p2, farther *)
      assert (v = vscale (r / r2) p2) as EV.
      { rewrite E. unfold p2, velocity, vscale. cbn. f_equal; field; lra. }
      assert (1 < r / r2) as RR by (rewrite EV, vdot_scale_r, N2 in V2; lra).
      pose proof (X2 v V3 VN2) as Z. rewrite EV, vdot_scale_r in Z. nra.
    - destruct (Req_dec t (t1 + 360)) as [->|]; [|lra]. exfalso.
      replace (t1 + 360) with (t1 + 360 * IZR 1) in E by (rewrite Rmult_1_r; ring).
      rewrite velocity_period in E.
      assert (v = vscale (r / r1) p1) as EV.
      { rewrite E. unfold p1, velocity, vscale. cbn. f_equal; field; lra. }
      assert (1 < r / r1) as RR by (rewrite EV, vdot_scale_r, N1 in V2; lra).
      pose proof (X1 v V3 VN1) as Z. rewrite EV, vdot_scale_r in Z. nra. }
  assert (a < 0 \/ b < 0) as NEG.
  { destruct (Rlt_dec (t - t2) 180) as [LT|GE].
    - left. unfold a. assert (vdet v p2 < 0).
      { rewrite E. unfold p2. rewrite velocity_det. replace (t2 - t) with (- (t - t2)) by ring.
        replace (deg2rad (- (t - t2))) with (- deg2rad (t - t2)) by (unfold deg2rad; ring). rewrite sin_neg.
        assert (0 < sin (deg2rad (t - t2))) by (apply sin_deg_pos; lra).
        assert (0 < r * r2) by (apply Rmult_lt_0_compat; auto). nra. }
      unfold Rdiv. assert (0 < / vdet p1 p2) by (apply Rinv_0_lt_compat; auto). nra.
    - right. unfold b. assert (vdet p1 v < 0).
      { rewrite E. unfold p1. rewrite velocity_det.
        assert (sin (deg2rad (t - t1)) < 0) by (apply sin_deg_neg; lra).
        assert (0 < r1 * r) by (apply Rmult_lt_0_compat; auto). nra. }
      unfold Rdiv. assert (0 < / vdet p1 p2) by (apply Rinv_0_lt_compat; auto). nra. }
  destruct NEG as [NA|NB'].
  - (* p2 is a combination of v and p1 *)
    assert (vdot n2 v < vdot n2 p2) as Z1 by (apply X2; auto).
    assert (vdot n2 p1 < vdot n2 p2) as Z2 by (apply X2; auto).
    assert (vdot n2 v = a * vdot n2 p1 + b * vdot n2 p2) as Z3.
    { rewrite TC at 1. rewrite vdot_add_r, !vdot_scale_r. reflexivity. }
    assert (1 < a + b) by lra.
    assert (- a * vdot n2 p1 < - a * vdot n2 p2) by (apply Rmult_lt_compat_l; lra).
    assert ((a + b - 1) * vdot n2 p2 < 0) by nra. nra.
  - assert (vdot n1 v < vdot n1 p1) as Z1 by (apply X1; auto).
    assert (vdot n1 p2 < vdot n1 p1) as Z2 by (apply X1; auto).
    assert (vdot n1 v = a * vdot n1 p1 + b * vdot n1 p2) as Z3.
    { rewrite TC at 1. rewrite vdot_add_r, !vdot_scale_r. reflexivity. }
    assert (1 < a + b) by lra.
    assert (- b * vdot n1 p2 < - b * vdot n1 p1) by (apply Rmult_lt_compat_l; lra).
    assert ((a + b - 1) * vdot n1 p1 < 0) by nra. nra.
Qed.

(** ** Proportions *)

(** The first proportion in terms of determinants. *)
Lemma first_proportion_det : forall p1 p2 dir, vdet p1 p2 <> 0 ->
  let u := heading_vec dir in
  first_proportion p1 p2 dir =
    if Reqb (vdet u p2 / vdet p1 p2 + vdet p1 u / vdet p1 p2) 0 then Ok None
    else Ok (Some (vdet u p2 / vdet p1 p2 / (vdet u p2 / vdet p1 p2 + vdet p1 u / vdet p1 p2))).
Proof.
  intros p1 p2 dir H u. unfold first_proportion.
  assert (fst p1 * snd p2 - fst p2 * snd p1 = vdet p1 p2) as -> by (unfold vdet; ring).
  rewrite Reqb_false by auto.
  replace ((cos (deg2rad dir) * snd p2 - sin (deg2rad dir) * fst p2) / vdet p1 p2) with (vdet u p2 / vdet p1 p2).
  2: { unfold vdet at 1, u, heading_vec. cbn [fst snd]. reflexivity. }
  replace ((fst p1 * sin (deg2rad dir) - snd p1 * cos (deg2rad dir)) / vdet p1 p2) with (vdet p1 u / vdet p1 p2).
  2: { unfold vdet at 1, u, heading_vec. cbn [fst snd]. reflexivity. }
  reflexivity.
Qed.

(** If the direction lies in the cone of the two points, the proportion is in
    [0, 1] and splits the time so that the boat goes in this direction. *)
Lemma cone_proportion : forall p1 p2 dir, 0 < vdet p1 p2 ->
  0 <= vdet (heading_vec dir) p2 -> 0 <= vdet p1 (heading_vec dir) ->
  exists lam c, first_proportion p1 p2 dir = Ok (Some lam) /\ 0 <= lam <= 1 /\ 0 < c /\
    vadd2 (vscale lam p1) (vscale (1 - lam) p2) = velocity dir c.
Proof.
  intros p1 p2 dir D U1 U2. set (u := heading_vec dir) in *.
  assert (0 < / vdet p1 p2) as ID by (apply Rinv_0_lt_compat; auto).
  rewrite first_proportion_det by lra. fold u.
  pose proof (two_coordinates p1 p2 u ltac:(lra)) as TC.
  set (x0 := vdet u p2 / vdet p1 p2) in *. set (x1 := vdet p1 u / vdet p1 p2) in *.
  assert (0 <= x0) as X0 by (unfold x0, Rdiv; nra). assert (0 <= x1) as X1 by (unfold x1, Rdiv; nra).
  assert (0 < x0 + x1) as S.
  { destruct (Req_dec (x0 + x1) 0) as [E|]; [|lra]. exfalso.
    assert (x0 = 0) by lra. assert (x1 = 0) by lra. rewrite H, H0 in TC.
    unfold u, heading_vec, vadd2, vscale in TC. cbn in TC. injection TC as T1 T2.
    pose proof (sin2_cos2 (deg2rad dir)) as Q. rewrite T1, T2 in Q. unfold Rsqr in Q. lra. }
  rewrite Reqb_false by lra. exists (x0 / (x0 + x1)), (/ (x0 + x1)).
  split; [reflexivity|]. assert (0 < / (x0 + x1)) as IS by (apply Rinv_0_lt_compat; auto). split; [split|split; auto].
  - unfold Rdiv. nra.
  - apply Rmult_le_reg_r with (x0 + x1); auto. unfold Rdiv. rewrite Rmult_assoc, Rinv_l by lra. lra.
  - unfold velocity. fold u. rewrite TC. unfold vadd2, vscale. cbn [fst snd]. f_equal; field; lra.
Qed.

Lemma total_zeros : forall k, total (repeat 0 k) = 0.
Proof. induction k; cbn; lra. Qed.
Lemma weighted_zeros : forall k pts, weighted (repeat 0 k) pts = (0, 0).
Proof.
  induction k as [|k IH]; intros [|p pts]; cbn; auto. rewrite IH. unfold vadd2, vscale. cbn. f_equal; ring.
Qed.

(** Reachability is convex and contains the points. *)
Lemma reachable_point : forall pts p, In p pts -> reachable pts p.
Proof.
  induction pts as [|q pts IH]; intros p J; [destruct J|]. destruct J as [E|I].
  - subst q. exists (1 :: repeat 0 (length pts)). cbn. rewrite repeat_length, weighted_zeros, total_zeros.
    split; auto. split; [constructor; [lra|]; apply Forall_forall; intros x X; apply repeat_spec in X; lra|].
    split; [ring|]. unfold vadd2, vscale. destruct p. cbn. f_equal; ring.
  - destruct (IH p I) as [w [L [F [T W]]]]. exists (0 :: w). cbn. split; auto. split; [constructor; auto; lra|].
    split; [lra|]. rewrite W. unfold vadd2, vscale. destruct p. cbn. f_equal; ring.
Qed.

Lemma combination_exists : forall lam w1 w2 pts, length w1 = length pts -> length w2 = length pts ->
  0 <= lam <= 1 -> Forall (fun c => 0 <= c) w1 -> Forall (fun c => 0 <= c) w2 ->
  exists w, length w = length pts /\ Forall (fun c => 0 <= c) w /\
    total w = lam * total w1 + (1 - lam) * total w2 /\
    weighted w pts = vadd2 (vscale lam (weighted w1 pts)) (vscale (1 - lam) (weighted w2 pts)).
Proof.
  intros lam w1. induction w1 as [|a w1 IH]; intros [|b w2] [|p pts] L1 L2 HL F1 F2; try discriminate.
  - exists []. cbn. repeat split; auto; try lra. unfold vadd2, vscale. cbn. f_equal; ring.
  - inversion F1; inversion F2; subst. destruct (IH w2 pts) as [w [L [F [T W]]]]; auto.
    exists (lam * a + (1 - lam) * b :: w). cbn. split; auto. split; [constructor; auto; nra|].
    split; [lra|]. rewrite W. unfold vadd2, vscale. cbn [fst snd]. f_equal; ring.
Qed.

Lemma reachable_combination : forall pts p q lam, reachable pts p -> reachable pts q -> 0 <= lam <= 1 ->
  reachable pts (vadd2 (vscale lam p) (vscale (1 - lam) q)).
Proof.
  intros pts p q lam [w1 [L1 [F1 [T1 W1]]]] [w2 [L2 [F2 [T2 W2]]]] HL.
  destruct (combination_exists lam w1 w2 pts) as [w [L [F [T W]]]]; auto.
  exists w. repeat split; auto; [rewrite T, T1, T2; ring|]. rewrite W, W1, W2. reflexivity.
Qed.

(** Sailing along a supporting edge is optimal. *)
Lemma support_best : forall pts p1 p2 n lam dir c, In p1 pts -> In p2 pts -> 0 <= lam <= 1 -> 0 < c ->
  vdot n p1 = 1 -> vdot n p2 = 1 -> (forall q, In q pts -> vdot n q <= 1) ->
  vadd2 (vscale lam p1) (vscale (1 - lam) p2) = velocity dir c -> best pts dir c.
Proof.
  intros pts p1 p2 n lam dir c I1 I2 HL HC N1 N2 SUP E. split.
  - rewrite <- E. apply reachable_combination; auto using reachable_point.
  - intros c' RC. assert (vdot n (velocity dir c') <= 1) as K by (eapply reachable_dot; eauto).
    assert (vdot n (velocity dir c) = 1) as M.
    { rewrite <- E, vdot_add_r, !vdot_scale_r, N1, N2. ring. }
    unfold velocity in K, M. rewrite vdot_scale_r in K, M.
    set (d := vdot n (heading_vec dir)) in *.
    assert (0 < d) by nra. nra.
Qed.
