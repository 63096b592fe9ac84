From Coq Require Import List Bool Arith ZArith Reals Lra Lia Psatz.
From Verif Require Import Py Num Trig WindModel WindSpec.
Import ListNotations.
Open Scope R_scope.

Lemma dir_sq : forall d, dir_value d * dir_value d = 1.
Proof. destruct d; simpl; lra. Qed.

Lemma clip1_id : forall t, -1 <= t <= 1 -> clip1 t = t.
Proof.
  intros t H. unfold clip1. rewrite (Rltb_false 1 t) by lra.
  rewrite Rltb_false by lra. reflexivity.
Qed.

(** Law of cosines: the radicand is the squared length of the sum vector. *)
Lemma radicand : forall d ws w bsp,
  ws * ws + bsp * bsp + 2 * dir_value d * ws * bsp * cos w =
  (ws * cos w + dir_value d * bsp) * (ws * cos w + dir_value d * bsp) +
  (ws * sin w) * (ws * sin w).
Proof.
  intros. pose proof (sin2_cos2 w) as S. unfold Rsqr in S. pose proof (dir_sq d) as D.
  replace (ws * ws) with (ws * ws * (sin w * sin w + cos w * cos w)) by (rewrite S; ring).
  replace (bsp * bsp) with (dir_value d * dir_value d * (bsp * bsp)) by (rewrite D; ring).
  ring.
Qed.

Lemma sqrt_nonneg_sum : forall x y, 0 <= x * x + y * y.
Proof. intros. nra. Qed.

Lemma cws_sq : forall d ws w bsp,
  convert_wind_speed d ws w bsp * convert_wind_speed d ws w bsp =
  (ws * cos w + dir_value d * bsp) * (ws * cos w + dir_value d * bsp) +
  (ws * sin w) * (ws * sin w).
Proof.
  intros. unfold convert_wind_speed. rewrite radicand. apply sqrt_sqrt. apply sqrt_nonneg_sum.
Qed.

Lemma cws_nonneg : forall d ws w bsp, 0 <= convert_wind_speed d ws w bsp.
Proof. intros. apply sqrt_pos. Qed.

Lemma ratio_bounds : forall x y c, 0 < c -> c * c = x * x + y * y -> -1 <= x / c <= 1.
Proof.
  intros x y c Hc E.
  assert (- c <= x <= c) as [L U] by nra.
  split.
  - apply Rmult_le_reg_r with c; [lra|]. unfold Rdiv. rewrite Rmult_assoc, Rinv_l by lra. lra.
  - apply Rmult_le_reg_r with c; [lra|]. unfold Rdiv. rewrite Rmult_assoc, Rinv_l by lra. lra.
Qed.

Lemma sin_of_acos : forall x y c, 0 < c -> c * c = x * x + y * y -> 0 <= y ->
  c * sin (acos (x / c)) = y.
Proof.
  intros x y c Hc E Hy. pose proof (ratio_bounds x y c Hc E) as B.
  rewrite sin_acos by auto.
  replace y with (c * (y / c)) at 1 by (field; lra). f_equal.
  apply sqrt_cancel.
  - unfold Rdiv. apply Rmult_le_pos; auto. left. apply Rinv_0_lt_compat; auto.
  - unfold Rsqr. apply Rmult_eq_reg_r with (c * c); [|nra].
    replace ((1 - x / c * (x / c)) * (c * c)) with (c * c - x * x) by (field; lra).
    replace (y / c * (y / c) * (c * c)) with (y * y) by (field; lra). lra.
Qed.

(** The angle that belongs to a vector, in the form the code computes it. *)
Lemma sin_range_above : forall a, 180 < a < 360 -> sin (deg2rad a) < 0.
Proof.
  intros a H. apply sin_lt_0.
  - rewrite <- deg2rad_180. apply deg2rad_lt; lra.
  - replace (2 * PI) with (deg2rad 360) by (unfold deg2rad; field). apply deg2rad_lt; lra.
Qed.
Lemma sin_range_below : forall a, 0 <= a <= 180 -> 0 <= sin (deg2rad a).
Proof.
  intros a H. apply sin_ge_0.
  - rewrite <- deg2rad_0. apply deg2rad_le; lra.
  - rewrite <- deg2rad_180. apply deg2rad_le; lra.
Qed.

Lemma acos_deg_range : forall t, 0 <= rad2deg (acos t) <= 180.
Proof.
  intros. pose proof (acos_bound t). split.
  - rewrite <- rad2deg_0. apply rad2deg_le; lra.
  - rewrite <- rad2deg_PI. apply rad2deg_le; lra.
Qed.

Lemma convert_row_vector : forall d ws wa bsp cws cwa b,
  0 <= ws -> convert_row d ws wa bsp = (cws, Some cwa, b) ->
  b = bsp /\ 0 < cws /\ 0 <= cwa <= 360 /\
  along cws cwa = along ws wa + dir_value d * bsp /\
  across cws cwa = across ws wa /\
  (0 < ws -> cwa < 360).
Proof.
  intros d ws wa bsp cws cwa b Hws H. unfold convert_row in H.
  set (a := nmod wa 360) in *.
  assert (0 <= a < 360) as Ha by (apply nmod_range; lra).
  set (c := convert_wind_speed d ws (deg2rad a) bsp) in *.
  unfold convert_wind_angle in H.
  destruct (Reqb_spec c 0) as [E|E]; [discriminate|].
  inversion H as [[H1 H2 H3]]; clear H. subst b.
  pose proof (cws_nonneg d ws (deg2rad a) bsp) as Hc. fold c in Hc.
  assert (0 < c) as Pc by lra. subst cws.
  pose proof (cws_sq d ws (deg2rad a) bsp) as Sq. fold c in Sq.
  set (x := ws * cos (deg2rad a) + dir_value d * bsp) in *.
  set (y := ws * sin (deg2rad a)) in *.
  pose proof (ratio_bounds x y c Pc Sq) as B.
  rewrite (clip1_id _ B) in *.
  pose proof (acos_deg_range (x / c)) as AR.
  assert (along ws wa = ws * cos (deg2rad a)) as E1
    by (unfold along, a; rewrite cos_deg_mod; reflexivity).
  assert (across ws wa = y) as E2
    by (unfold across, y, a; rewrite sin_deg_mod; reflexivity).
  rewrite E1, E2. fold x.
  destruct (Rltb_spec 180 a) as [Hab|Hab].
  - assert (y <= 0) as Hy.
    { unfold y. pose proof (sin_range_above a ltac:(lra)). nra. }
    repeat split; auto; try lra.
    + unfold along. rewrite deg2rad_360, deg2rad_rad2deg.
      rewrite cos_minus, cos_2PI, sin_2PI, cos_acos by auto. field. lra.
    + unfold across. rewrite deg2rad_360, deg2rad_rad2deg.
      rewrite sin_minus, cos_2PI, sin_2PI.
      assert (c * c = x * x + (- y) * (- y)) as Sq' by lra.
      pose proof (sin_of_acos x (- y) c Pc Sq' ltac:(lra)). nra.
    + intros P. assert (rad2deg (acos (x / c)) <> 0); [|lra].
      intros Z. assert (acos (x / c) = 0) as Z0.
      { rewrite <- (deg2rad_rad2deg (acos (x / c))), Z. apply deg2rad_0. }
      assert (c * c = x * x + (- y) * (- y)) as Sq' by lra.
      pose proof (sin_of_acos x (- y) c Pc Sq' ltac:(lra)) as S.
      rewrite Z0, sin_0 in S.
      assert (y < 0). { unfold y. pose proof (sin_range_above a ltac:(lra)). nra. }
      lra.
  - assert (0 <= y) as Hy.
    { unfold y. pose proof (sin_range_below a ltac:(lra)). nra. }
    repeat split; auto; try lra.
    + unfold along. rewrite deg2rad_rad2deg, cos_acos by auto. field. lra.
    + unfold across. rewrite deg2rad_rad2deg. apply sin_of_acos; auto.
Qed.

Lemma convert_row_nan : forall d ws wa bsp cws b,
  convert_row d ws wa bsp = (cws, None, b) <->
  cws = 0 /\ b = bsp /\ along ws wa + dir_value d * bsp = 0 /\ across ws wa = 0.
Proof.
  intros. unfold convert_row, along, across.
  rewrite <- (cos_deg_mod wa), <- (sin_deg_mod wa).
  set (w := deg2rad (nmod wa 360)).
  pose proof (cws_sq d ws w bsp) as Sq.
  set (c := convert_wind_speed d ws w bsp) in *. unfold convert_wind_angle.
  destruct (Reqb_spec c 0) as [E|E].
  - rewrite E in Sq. split.
    + intros H. inversion H; subst.
      set (x := ws * cos w + dir_value d * b) in *. set (y := ws * sin w) in *.
      repeat split; auto; nra.
    + intros [-> [-> _]]. rewrite E. reflexivity.
  - split; [discriminate|]. intros [_ [_ [X Y]]]. exfalso.
    rewrite X, Y in Sq. apply E. nra.
Qed.

Lemma convert_row_finite : forall d ws wa bsp,
  along ws wa + dir_value d * bsp <> 0 \/ across ws wa <> 0 ->
  exists cws cwa, convert_row d ws wa bsp = (cws, Some cwa, bsp).
Proof.
  intros d ws wa bsp H.
  destruct (convert_row d ws wa bsp) as [[c o] b] eqn:E. destruct o as [a|].
  - exists c, a. unfold convert_row in E. inversion E. reflexivity.
  - apply convert_row_nan in E. destruct H; tauto.
Qed.

Lemma polar_unique : forall s1 a1 s2 a2, 0 < s1 -> 0 <= s2 ->
  0 <= a1 < 360 -> 0 <= a2 < 360 ->
  along s1 a1 = along s2 a2 -> across s1 a1 = across s2 a2 -> s1 = s2 /\ a1 = a2.
Proof.
  intros s1 a1 s2 a2 H1 H2 A1 A2 E1 E2. unfold along, across in *.
  pose proof (sin2_cos2 (deg2rad a1)) as S1. pose proof (sin2_cos2 (deg2rad a2)) as S2.
  unfold Rsqr in *.
  assert (s1 = s2) as E.
  { assert (s1 * s1 = s2 * s2) as Q.
    { replace (s1 * s1) with ((s1 * cos (deg2rad a1)) * (s1 * cos (deg2rad a1)) +
                              (s1 * sin (deg2rad a1)) * (s1 * sin (deg2rad a1)))
        by (transitivity (s1 * s1 * (sin (deg2rad a1) * sin (deg2rad a1) +
                                     cos (deg2rad a1) * cos (deg2rad a1))); [ring|rewrite S1; ring]).
      rewrite E1, E2.
      transitivity (s2 * s2 * (sin (deg2rad a2) * sin (deg2rad a2) +
                               cos (deg2rad a2) * cos (deg2rad a2))); [ring|rewrite S2; ring]. }
    nra. }
  split; auto. subst s2.
  apply angle_unique_deg; auto.
  - apply Rmult_eq_reg_l with s1; lra.
  - apply Rmult_eq_reg_l with s1; lra.
Qed.

Lemma round_trip : forall d ws wa bsp,
  0 < ws -> along ws wa + dir_value d * bsp <> 0 \/ across ws wa <> 0 ->
  exists cws cwa,
    convert_row d ws wa bsp = (cws, Some cwa, bsp) /\
    convert_row (opposite d) cws cwa bsp = (ws, Some (nmod wa 360), bsp).
Proof.
  intros d ws wa bsp Hws H.
  destruct (convert_row_finite d ws wa bsp H) as [cws [cwa E]].
  exists cws, cwa. split; auto.
  destruct (convert_row_vector d ws wa bsp cws cwa bsp ltac:(lra) E)
    as [_ [Pc [Ra [V1 [V2 _]]]]].
  assert (dir_value (opposite d) = - dir_value d) as O by (destruct d; simpl; lra).
  assert (along cws cwa + dir_value (opposite d) * bsp = along ws wa) as W1
    by (rewrite V1, O; ring).
  assert (nmod wa 360 < 360 /\ 0 <= nmod wa 360) as R by (pose proof (nmod_range wa 360); lra).
  assert (along ws (nmod wa 360) = along ws wa) as M1 by (unfold along; rewrite cos_deg_mod; auto).
  assert (across ws (nmod wa 360) = across ws wa) as M2 by (unfold across; rewrite sin_deg_mod; auto).
  assert (along ws wa <> 0 \/ across ws wa <> 0) as NZ.
  { unfold along, across. pose proof (sin2_cos2 (deg2rad wa)) as S. unfold Rsqr in S.
    destruct (Req_dec (cos (deg2rad wa)) 0) as [Z|Z].
    - right. intros C. apply Rmult_integral in C. destruct C as [C|C]; [lra|]. rewrite Z, C in S. lra.
    - left. intros C. apply Rmult_integral in C. destruct C; lra. }
  destruct (convert_row_finite (opposite d) cws cwa bsp) as [c2 [a2 E2]].
  { rewrite W1, V2. auto. }
  destruct (convert_row_vector (opposite d) cws cwa bsp c2 a2 bsp ltac:(lra) E2)
    as [_ [P2 [R2 [X1 [X2 L2]]]]].
  rewrite W1 in X1. rewrite V2 in X2. specialize (L2 Pc).
  destruct (polar_unique c2 a2 ws (nmod wa 360)) as [Es Ea]; try lra.
  rewrite E2, Es, Ea. reflexivity.
Qed.

(* ------------------------------------------------------------------ *)
(** ** Whole arrays *)

Lemma neg_speed_spec : forall rows,
  existsb (fun r => Rltb (nth 0 r 0) 0) rows = true <->
  exists r, In r rows /\ nth 0 r 0 < 0.
Proof.
  intros. rewrite existsb_exists. split; intros [r [H1 H2]]; exists r; split; auto.
  - apply Rltb_lt; auto.
  - apply Rltb_lt; auto.
Qed.

Lemma convert_wind_ok : forall d shared rows,
  (forall r, In r rows -> 0 <= nth 0 r 0) ->
  snd (convert_wind d shared (Arr2 3 rows)) =
  Ok (map (fun r => convert_row d (nth 0 r 0) (nth 1 r 0) (nth 2 r 0)) rows).
Proof.
  intros d shared rows H. simpl.
  destruct (existsb (fun r => Rltb (nth 0 r 0) 0) rows) eqn:E; [|reflexivity].
  apply neg_speed_spec in E. destruct E as [r [H1 H2]]. specialize (H r H1). lra.
Qed.

Lemma convert_wind_raises : forall d shared wind,
  (forall e, snd (convert_wind d shared wind) = Raise e -> e = TypeError) /\
  ((exists e, snd (convert_wind d shared wind) = Raise e) <->
   ~ (exists rows, wind = Arr2 3 rows /\ forall r, In r rows -> 0 <= nth 0 r 0)).
Proof.
  intros d shared wind. destruct wind as [l|w rows|]; simpl.
  - split; [intros e H; inversion H; auto|]. split; [|eauto].
    intros _ [rows [H _]]. discriminate.
  - destruct (Nat.eqb_spec w 3) as [->|N].
    + destruct (existsb (fun r => Rltb (nth 0 r 0) 0) rows) eqn:E; simpl.
      * split; [intros e H; inversion H; auto|]. split; [|eauto].
        intros _ [rows' [H1 H2]]. inversion H1; subst rows'.
        apply neg_speed_spec in E. destruct E as [r [H3 H4]]. specialize (H2 r H3). lra.
      * split; [intros e H; inversion H|]. split.
        -- intros [e H]. discriminate.
        -- intros H. exfalso. apply H. exists rows. split; auto. intros r Hr.
           destruct (Rlt_dec (nth 0 r 0) 0) as [L|L]; [|lra].
           assert (existsb (fun r => Rltb (nth 0 r 0) 0) rows = true); [|congruence].
           apply neg_speed_spec. exists r. auto.
    + simpl. split; [intros e H; inversion H; auto|]. split; [|eauto].
      intros _ [rows' [H _]]. inversion H. contradiction.
  - split; [intros e H; inversion H; auto|]. split; [|eauto].
    intros _ [rows [H _]]. discriminate.
Qed.

Lemma normalise_angle_id : forall r,
  length r = 3%nat -> 0 <= nth 1 r 0 < 360 -> normalise_angle r = r.
Proof.
  intros [|a [|b [|c [|]]]] L H; simpl in *; try discriminate.
  rewrite nmod_small by auto. reflexivity.
Qed.

Lemma convert_wind_array : forall d shared wind,
  (shared = false \/
   exists rows, wind = Arr2 3 rows /\
     forall r, In r rows -> length r = 3%nat /\ 0 <= nth 1 r 0 < 360) ->
  fst (convert_wind d shared wind) = wind.
Proof.
  intros d shared wind [->|[rows [-> H]]].
  - destruct wind as [|w rows|]; simpl; auto.
    destruct (Nat.eqb w 3); auto. destruct (existsb _ rows); auto.
  - simpl. destruct (existsb _ rows); auto. destruct shared; auto. simpl. f_equal.
    rewrite <- (map_id rows) at 2. apply map_ext_in. intros r Hr. destruct (H r Hr).
    apply normalise_angle_id; auto.
Qed.

(* ------------------------------------------------------------------ *)
(** ** Norms *)

Definition dot (u v : list R) : R := Rsum (map (fun p => fst p * snd p) (combine u v)).

Lemma dot_cons : forall a u b v, dot (a :: u) (b :: v) = a * b + dot u v.
Proof. reflexivity. Qed.

Lemma dot_self_nonneg : forall u, 0 <= dot u u.
Proof.
  induction u as [|a u IH]; [unfold dot; simpl; lra|]. rewrite dot_cons. nra.
Qed.

Lemma cauchy_schwarz : forall u v, length u = length v ->
  dot u v * dot u v <= dot u u * dot v v.
Proof.
  induction u as [|a u IH]; intros [|b v] L; simpl in L; try discriminate.
  - unfold dot; simpl; lra.
  - injection L as L. specialize (IH v L). rewrite !dot_cons.
    pose proof (dot_self_nonneg u) as P. pose proof (dot_self_nonneg v) as Q.
    set (p := dot u u) in *. set (q := dot v v) in *. set (r := dot u v) in *.
    assert (2 * (a * b) * r <= a * a * q + b * b * p) as K.
    { assert (0 <= (a * a * q + b * b * p)) by nra.
      assert ((2 * (a * b) * r) * (2 * (a * b) * r) <=
              (a * a * q + b * b * p) * (a * a * q + b * b * p)) as S.
      { assert ((a * b) * (a * b) * (r * r) <= (a * b) * (a * b) * (p * q)) by
          (apply Rmult_le_compat_l; [nra|auto]).
        assert (4 * ((a * b) * (a * b) * (p * q)) <=
                (a * a * q + b * b * p) * (a * a * q + b * b * p)).
        { pose proof (Rle_0_sqr (a * a * q - b * b * p)) as Z. unfold Rsqr in Z. nra. }
        nra. }
      nra. }
    nra.
Qed.

Lemma euclid_dot : forall v, euclidean_norm v = sqrt (dot v v).
Proof.
  intros. unfold euclidean_norm. rewrite nsum_R. f_equal. unfold dot.
  induction v as [|a v IH]; simpl; auto. rewrite IH. reflexivity.
Qed.

Lemma dot_vadd : forall u v, length u = length v ->
  dot (vadd u v) (vadd u v) = dot u u + 2 * dot u v + dot v v.
Proof.
  induction u as [|a u IH]; intros [|b v] L; simpl in L; try discriminate.
  - unfold dot; simpl; lra.
  - injection L as L. unfold vadd. simpl. fold (vadd u v). rewrite !dot_cons, IH by auto. lra.
Qed.

Lemma dot_vscale : forall c v, dot (vscale c v) (vscale c v) = c * c * dot v v.
Proof.
  induction v as [|a v IH]; unfold vscale; simpl; [unfold dot; simpl; lra|].
  fold (vscale c v). rewrite !dot_cons, IH. lra.
Qed.

Lemma norm_triangle : forall u v, length u = length v ->
  euclidean_norm (vadd u v) <= euclidean_norm u + euclidean_norm v.
Proof.
  intros u v L. rewrite !euclid_dot.
  pose proof (dot_self_nonneg u) as P. pose proof (dot_self_nonneg v) as Q.
  pose proof (sqrt_pos (dot u u)) as A. pose proof (sqrt_pos (dot v v)) as B.
  pose proof (sqrt_sqrt _ P) as A2. pose proof (sqrt_sqrt _ Q) as B2.
  apply Rsqr_incr_0_var; [|lra]. unfold Rsqr.
  rewrite sqrt_sqrt by apply dot_self_nonneg. rewrite dot_vadd by auto.
  pose proof (cauchy_schwarz u v L) as C.
  assert (dot u v <= sqrt (dot u u) * sqrt (dot v v)) as D.
  { rewrite <- sqrt_mult by auto.
    destruct (Rle_dec (dot u v) 0) as [H|H].
    - pose proof (sqrt_pos (dot u u * dot v v)). lra.
    - apply Rsqr_incr_0_var; [|apply sqrt_pos]. unfold Rsqr. rewrite sqrt_sqrt by nra. auto. }
  nra.
Qed.

Lemma norm_scale : forall c v, euclidean_norm (vscale c v) = Rabs c * euclidean_norm v.
Proof.
  intros. rewrite !euclid_dot, dot_vscale. rewrite sqrt_mult.
  - rewrite <- (sqrt_Rsqr_abs c). reflexivity.
  - nra.
  - apply dot_self_nonneg.
Qed.

Lemma dot_self_zero : forall v, dot v v = 0 -> forall x, In x v -> x = 0.
Proof.
  induction v as [|a v IH]; intros H x Hx; [destruct Hx|].
  rewrite dot_cons in H. pose proof (dot_self_nonneg v).
  destruct Hx as [<-|Hx]; [nra|]. apply IH; auto. nra.
Qed.

Lemma norm_zero : forall v, euclidean_norm v = 0 -> forall x, In x v -> x = 0.
Proof.
  intros v H. apply dot_self_zero. rewrite euclid_dot in H.
  apply sqrt_eq_0; auto. apply dot_self_nonneg.
Qed.

Lemma norm_nonneg : forall v, 0 <= euclidean_norm v.
Proof. intros. apply sqrt_pos. Qed.

(** Componentwise scaling commutes with the vector operations. *)
Definition hadamard (f v : list R) : list R := map (fun p => fst p * snd p) (combine f v).

Lemma hadamard_vadd : forall f u v, length f = length u -> length u = length v ->
  hadamard f (vadd u v) = vadd (hadamard f u) (hadamard f v).
Proof.
  induction f as [|a f IH]; intros [|b u] [|c v] L1 L2; simpl in *; try discriminate; auto.
  unfold hadamard, vadd in *. simpl. rewrite IH by lia. f_equal. ring.
Qed.
Lemma hadamard_vscale : forall f c v, hadamard f (vscale c v) = vscale c (hadamard f v).
Proof.
  induction f as [|a f IH]; intros c [|b v]; simpl; auto.
  unfold hadamard, vscale in *. simpl. rewrite IH. f_equal. ring.
Qed.
Lemma hadamard_length : forall f v, length f = length v -> length (hadamard f v) = length v.
Proof. intros. unfold hadamard. rewrite map_length, combine_length. lia. Qed.

Lemma hadamard_zero : forall f v, length f = length v ->
  (forall x, In x f -> x <> 0) ->
  (forall x, In x (hadamard f v) -> x = 0) -> forall x, In x v -> x = 0.
Proof.
  induction f as [|a f IH]; intros [|b v] L Hf H x Hx; simpl in *; try discriminate.
  - destruct Hx.
  - unfold hadamard in H. simpl in H. destruct Hx as [<-|Hx].
    + specialize (H (a * b) (or_introl eq_refl)). apply Rmult_integral in H.
      specialize (Hf a (or_introl eq_refl)). tauto.
    + apply (IH v); auto.
Qed.

Lemma scaled_norm_ok : forall f, (forall x, In x f -> x <> 0) ->
  let n := scaled_norm euclidean_norm f in
  (forall v, 0 <= n v) /\
  (forall v, length v = length f -> n v = 0 -> forall x, In x v -> x = 0) /\
  (forall c v, n (vscale c v) = Rabs c * n v) /\
  (forall u v, length u = length f -> length v = length f -> n (vadd u v) <= n u + n v).
Proof.
  intros f Hf n. unfold n, scaled_norm. split; [|split; [|split]].
  - intros. apply norm_nonneg.
  - intros v L H. apply (hadamard_zero f); auto. apply norm_zero. exact H.
  - intros c v. change (euclidean_norm (hadamard f (vscale c v)) = Rabs c * euclidean_norm (hadamard f v)).
    rewrite hadamard_vscale. apply norm_scale.
  - intros u v L1 L2.
    change (euclidean_norm (hadamard f (vadd u v)) <=
            euclidean_norm (hadamard f u) + euclidean_norm (hadamard f v)).
    rewrite hadamard_vadd by congruence. apply norm_triangle.
    rewrite !hadamard_length; congruence.
Qed.
