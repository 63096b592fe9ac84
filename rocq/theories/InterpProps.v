(** * Properties of the interpolators (C36-C40) *)

From Coq Require Import List Bool Arith ZArith QArith Reals Lra Lia Permutation.
From Verif Require Import Py Num WindModel NhoodModel NhoodSpec InterpModel InterpSpec InterpProofs.
Import ListNotations.
Open Scope R_scope.

(** Three points around the wind (10, 90), used in the examples. *)
Definition ex_pts : list (pt3 R) := [(8, 90, 5); (12, 90, 7); (10, 180, 6)].

Lemma ex_pts_off : forall p, In p ex_pts -> 0 < dist_to std_norm (10, 90) p.
Proof.
  intros p Hp. destruct (Rle_lt_or_eq_dec 0 (dist_to std_norm (10, 90) p)) as [L|E].
  - apply std_norm_nonneg.
  - auto.
  - symmetry in E. apply std_norm_dist0 in E. unfold ex_pts in Hp. simpl in Hp.
    destruct Hp as [<-|[<-|[<-|[]]]]; unfold pws, pwa in E; simpl in E; inversion E; lra.
Qed.

(** The default norm acts row by row and vanishes only at the query point
    itself, so it may be used below. *)
Theorem default_norm_applies :
  rowwise std_norm std_norm_all /\ (forall v, 0 <= std_norm v) /\
  (forall g p, dist_to std_norm g p = 0 <-> (pws p, pwa p) = g).
Proof.
  split; [exact std_norm_rowwise|]. split; [exact std_norm_nonneg|exact std_norm_dist0].
Qed.
Print Assumptions default_norm_applies.

(* ------------------------------------------------------------------ *)
(** ** C36 *)

Theorem idw_reproduces : forall norm norm_all, rowwise norm norm_all ->
  forall p (pts : list (pt3 R)) g q, first_at norm g pts q ->
  idw norm_all p pts g = Ok (pbs q).
Proof. exact idw_first. Qed.
Print Assumptions idw_reproduces.

Example idw_reproduces_case : idw std_norm_all 2 ex_pts (12, 90) = Ok 7.
Proof.
  apply (idw_reproduces std_norm std_norm_all std_norm_rowwise 2 ex_pts (12, 90) (12, 90, 7)).
  exists [(8, 90, 5)], [(10, 180, 6)]. split; [reflexivity|]. split.
  - apply std_norm_dist0. reflexivity.
  - intros q [<-|[]] E. apply std_norm_dist0 in E. unfold pws, pwa in E. simpl in E. inversion E. lra.
Qed.

(** Otherwise the value is the mean weighted with [1 / distance ^ p] and stays
    in the range of the boat speeds. *)
Theorem idw_weighted_mean : forall norm norm_all, rowwise norm norm_all ->
  forall p (pts : list (pt3 R)) g, pts <> [] ->
  (forall x, In x pts -> 0 < dist_to norm g x) ->
  idw norm_all p pts g = Ok (wmean (fun x => 1 / dist_to norm g x ^ p) pbs pts) /\
  in_range (map pbs pts) (wmean (fun x => 1 / dist_to norm g x ^ p) pbs pts).
Proof. exact idw_value. Qed.
Print Assumptions idw_weighted_mean.

Theorem idw_order_independent : forall norm norm_all, rowwise norm norm_all ->
  forall p (pts pts' : list (pt3 R)) g, Permutation pts pts' ->
  (forall x, In x pts -> 0 < dist_to norm g x) ->
  idw norm_all p pts g = idw norm_all p pts' g.
Proof.
  intros norm norm_all RW p pts pts' g P D. destruct pts as [|a pts].
  - apply Permutation_nil in P. subst. reflexivity.
  - assert (pts' <> []) as NE.
    { intros ->. apply Permutation_sym in P. apply Permutation_nil in P. discriminate. }
    rewrite (proj1 (idw_value norm norm_all RW p (a :: pts) g ltac:(discriminate) D)).
    rewrite (proj1 (idw_value norm norm_all RW p pts' g NE
      (fun x Hx => D x (Permutation_in _ (Permutation_sym P) Hx)))).
    f_equal. apply wmean_perm. auto.
Qed.
Print Assumptions idw_order_independent.

Example idw_weighted_case :
  exists v, idw std_norm_all 2 ex_pts (10, 90) = Ok v /\ 5 <= v <= 7 /\
            idw std_norm_all 2 (rev ex_pts) (10, 90) = Ok v.
Proof.
  destruct (idw_weighted_mean std_norm std_norm_all std_norm_rowwise 2 ex_pts (10, 90)
              ltac:(discriminate) ex_pts_off) as [E B].
  eexists. split; [exact E|]. split.
  - apply B. intros b Hb. simpl in Hb. unfold pbs in Hb. simpl in Hb.
    destruct Hb as [<-|[<-|[<-|[]]]]; lra.
  - rewrite <- E. symmetry.
    apply (idw_order_independent std_norm std_norm_all std_norm_rowwise).
    + apply Permutation_rev.
    + exact ex_pts_off.
Qed.

Theorem idw_rejects : forall (norm_all : list (R * R) -> result (list R)) p g,
  idw norm_all p [] g = Raise ValueError /\
  (forall z, idw_new z = Raise ValueError <-> (z < 0)%Z) /\
  (forall z, (0 <= z)%Z -> idw_new z = Ok (Z.to_nat z)).
Proof.
  intros. split; [reflexivity|]. unfold idw_new. split; intros z.
  - destruct (Z.ltb_spec z 0); split; auto; try discriminate; lia.
  - intros Hz. destruct (Z.ltb_spec z 0); auto; lia.
Qed.
Print Assumptions idw_rejects.

(** The same function run on rationals with the 1-norm. *)
Example idw_run :
  idw (T:=Q) (fun l => Ok (map (fun v => nabs (fst v) + nabs (snd v))%num l)) 2
    [(8, 90, 5); (12, 90, 7); (10, 94, 6)]%Q (10, 90)%Q = Ok (4586471424 # 764411904)%Q.
Proof. vm_compute. reflexivity. Qed.

(* ------------------------------------------------------------------ *)
(** ** C37 *)

Theorem amean_reproduces : forall norm norm_all, rowwise norm norm_all ->
  forall s distr (pts : list (pt3 R)) wts g q, first_at norm g pts q ->
  amean norm_all s distr pts wts g = Ok (pbs q).
Proof. exact amean_first. Qed.
Print Assumptions amean_reproduces.

(** For any distribution: [s] times the weighted mean, the weights being what
    the distribution returns for the distances and the old weights. *)
Theorem amean_weighted_mean : forall norm norm_all, rowwise norm norm_all ->
  forall s distr (pts : list (pt3 R)) wts g,
  (forall x, In x pts -> dist_to norm g x <> 0) ->
  length (distr (map (dist_to norm g) pts) wts) = length pts ->
  (Rsum (distr (map (dist_to norm g) pts) wts) <> 0 ->
   amean norm_all s distr pts wts g =
   Ok (s * wmean snd (fun q => pbs (fst q)) (combine pts (distr (map (dist_to norm g) pts) wts)))) /\
  (Rsum (distr (map (dist_to norm g) pts) wts) = 0 ->
   amean norm_all s distr pts wts g = Raise ZeroDivisionError).
Proof.
  intros norm norm_all RW s distr pts wts g NZ L. split; intros S.
  - apply (amean_value norm norm_all RW); auto.
  - apply (amean_zero_weights norm norm_all RW); auto.
Qed.
Print Assumptions amean_weighted_mean.

Theorem amean_default_in_range : forall norm norm_all, rowwise norm norm_all ->
  forall params (pts : list (pt3 R)) wts g,
  (forall x, In x pts -> dist_to norm g x <> 0) -> length wts = length pts -> pts <> [] ->
  exists v, amean norm_all 1 (default_distr params) pts wts g = Ok v /\ in_range (map pbs pts) v.
Proof.
  intros norm norm_all RW params pts wts g NZ L NE.
  destruct (amean_default norm norm_all RW params pts wts g NZ L NE) as [w [_ [_ [E B]]]]. eauto.
Qed.
Print Assumptions amean_default_in_range.

(** The default distribution weighs a point by [exp (- alpha * weight * distance)]. *)
Theorem default_distribution : forall params d w i a x,
  nth_error d i = Some a -> nth_error w i = Some x ->
  nth_error (default_distr params d w) i =
  Some (exp (- (match params with [] => 100 | p :: _ => p end) * x * a)).
Proof.
  intros params d w i a x Ha Hx. unfold default_distr, gauss_potential.
  assert (nth_error (combine d w) i = Some (a, x)) as E.
  { revert d w Ha Hx. induction i as [|i IH]; intros [|d0 d] [|w0 w] Ha Hx; simpl in *; try discriminate.
    - inversion Ha; inversion Hx; auto.
    - auto. }
  rewrite (map_nth_error _ _ _ E). reflexivity.
Qed.
Print Assumptions default_distribution.

Example amean_case : exists v,
  amean std_norm_all 1 (default_distr []) ex_pts [1; 1; 1] (10, 90) = Ok v /\ 5 <= v <= 7.
Proof.
  destruct (amean_default_in_range std_norm std_norm_all std_norm_rowwise [] ex_pts [1; 1; 1] (10, 90))
    as [v [E B]]; auto.
  - intros x Hx. pose proof (ex_pts_off x Hx). lra.
  - discriminate.
  - exists v. split; auto. apply B. intros b Hb. simpl in Hb. unfold pbs in Hb. simpl in Hb.
    destruct Hb as [<-|[<-|[<-|[]]]]; lra.
Qed.

(** With another [s] the value leaves the range: the first positional argument
    of the class is this factor. *)
Theorem amean_scaled_refuted : exists s params (pts : list (pt3 R)) wts g v,
  amean_new s = Ok s /\ length wts = length pts /\
  amean std_norm_all s (default_distr params) pts wts g = Ok v /\ ~ in_range (map pbs pts) v.
Proof.
  exists 50, [], ex_pts, [1; 1; 1], (10, 90).
  destruct (amean_default std_norm std_norm_all std_norm_rowwise [] ex_pts [1; 1; 1] (10, 90))
    as [w [P [L [E B]]]]; auto.
  { intros x Hx. pose proof (ex_pts_off x Hx). lra. }
  { discriminate. }
  unfold amean in *. destruct (distances std_norm_all ex_pts (10, 90)) as [d|] eqn:D; [|discriminate].
  cbn [rbind] in *. destruct (at_zero d ex_pts) as [b|] eqn:A.
  { rewrite (distances_ok std_norm std_norm_all std_norm_rowwise) in D. injection D as D. rewrite <- D in A.
    change (at_zero (map (dist_to std_norm (10, 90)) ex_pts) ex_pts = Some b) in A.
    rewrite (at_zero_none std_norm (10, 90) ex_pts) in A; [discriminate|].
    intros x Hx. pose proof (ex_pts_off x Hx). lra. }
  destruct (np_average _ _) as [m|] eqn:M; cbn [rbind] in *; [|discriminate].
  exists (50 * m). split.
  { unfold amean_new. rnum. rewrite Rleb_false by lra. reflexivity. }
  split; [reflexivity|]. split; [reflexivity|].
  intros C. assert (E' : m = wmean snd (fun q => pbs (fst q)) (combine ex_pts w)).
  { assert (forall a b : R, Ok a = Ok b -> a = b) as J by (intros a b Hab; congruence).
    apply J in E. rewrite <- E. rnum. lra. }
  rewrite <- E' in B.
  assert (forall b, In b (map pbs ex_pts) -> 5 <= b <= 7) as R.
  { intros b Hb. simpl in Hb. unfold pbs in Hb. simpl in Hb. destruct Hb as [<-|[<-|[<-|[]]]]; lra. }
  specialize (B _ _ R). specialize (C _ _ R). lra.
Qed.
Print Assumptions amean_scaled_refuted.

(* ------------------------------------------------------------------ *)
(** ** C38 *)

(** Partial: finite and in range if the points are not all equally far away;
    [shepard_weight] is the published weight function. *)
Theorem improved_idw_partial : forall norm norm_all, rowwise norm norm_all ->
  forall (pts : list (pt3 R)) g,
  (forall q, first_at norm g pts q -> improved_idw norm_all pts g = Ok (pbs q)) /\
  (forall r,
   (forall x, In x pts -> 0 < dist_to norm g x <= r) ->
   (exists x, In x pts /\ dist_to norm g x = r) ->
   (exists x, In x pts /\ dist_to norm g x < r) ->
   let w := fun x => (let d := dist_to norm g x in
                      if Rle_dec d (r / 3) then 1 / d else 27 / (4 * r) * (d / r - 1) ^ 2) ^ 2 in
   improved_idw norm_all pts g = Ok (wmean w pbs pts) /\
   in_range (map pbs pts) (wmean w pbs pts)) /\
  improved_idw norm_all [] g = Raise ValueError.
Proof.
  intros norm norm_all RW pts g. split; [|split].
  - intros q F. apply (improved_first norm norm_all RW). auto.
  - intros r P E1 E2 w.
    destruct (improved_value norm norm_all RW pts g r P E1 E2) as [V B].
    assert (wmean (iidw_weight norm g r) pbs pts = wmean w pbs pts) as E.
    { assert (forall x, In x pts -> iidw_weight norm g r x = w x) as W.
      { intros x Hx. unfold iidw_weight, w, shepard_weight. specialize (P x Hx). rnum.
        rewrite (Rltb_true 0) by lra. simpl andb. unfold Rleb at 1 3.
        destruct (Rle_dec (dist_to norm g x) (r / 3)) as [L|L]; [ring|].
        rewrite Rltb_true, Rleb_true by lra. simpl. ring. }
      unfold wmean. rewrite (Rsum_ext _ (iidw_weight norm g r) w) by auto. f_equal.
      apply Rsum_ext. intros x Hx. rewrite W; auto. }
    rewrite <- E. auto.
  - apply (improved_empty norm norm_all RW).
Qed.
Print Assumptions improved_idw_partial.

Example improved_idw_case : exists v, improved_idw std_norm_all ex_pts (10, 90) = Ok v /\ 5 <= v <= 7.
Proof.
  assert (forall x y b, dist_to std_norm (10, 90) (x, y, b) =
    sqrt (((x - 10) / 40) ^ 2 + ((y - 90) / 360) ^ 2)) as D by reflexivity.
  assert (dist_to std_norm (10, 90) (10, 180, 6) = / 4) as D3.
  { rewrite D. replace (_ + _) with (/ 4 * / 4) by field. apply sqrt_square. lra. }
  assert (dist_to std_norm (10, 90) (8, 90, 5) = / 20) as D1.
  { rewrite D. replace (_ + _) with (/ 20 * / 20) by field. apply sqrt_square. lra. }
  assert (dist_to std_norm (10, 90) (12, 90, 7) = / 20) as D2.
  { rewrite D. replace (_ + _) with (/ 20 * / 20) by field. apply sqrt_square. lra. }
  destruct (proj1 (proj2 (improved_idw_partial std_norm std_norm_all std_norm_rowwise ex_pts (10, 90)))
    (/ 4)) as [E B].
  - intros x Hx. simpl in Hx. destruct Hx as [<-|[<-|[<-|[]]]];
      [rewrite D1|rewrite D2|rewrite D3]; lra.
  - exists (10, 180, 6). split; [right; right; left; auto|exact D3].
  - exists (8, 90, 5). split; [left; auto|]. rewrite D1. lra.
  - eexists. split; [exact E|]. apply B. intros b Hb. simpl in Hb. unfold pbs in Hb. simpl in Hb.
    destruct Hb as [<-|[<-|[<-|[]]]]; lra.
Qed.

(** The full claim is false: equally distant points, in particular a single
    point, give nan. *)
Theorem improved_idw_equidistant : forall norm norm_all, rowwise norm norm_all ->
  forall (pts : list (pt3 R)) g r, pts <> [] -> 0 < r ->
  (forall x, In x pts -> dist_to norm g x = r) ->
  improved_idw norm_all pts g = Raise NonFinite.
Proof. exact improved_equidistant. Qed.
Print Assumptions improved_idw_equidistant.

Theorem improved_idw_single_refuted : exists (pts : list (pt3 R)) g,
  pts <> [] /\ forall v, improved_idw std_norm_all pts g <> Ok v.
Proof.
  exists [(8, 90, 5)], (10, 90). split; [discriminate|]. intros v.
  rewrite (improved_idw_equidistant std_norm std_norm_all std_norm_rowwise _ _ (/ 20)).
  - discriminate.
  - discriminate.
  - lra.
  - intros x [<-|[]]. unfold dist_to, std_norm, pws, pwa. simpl.
    replace (_ + _) with (/ 20 * / 20) by field. apply sqrt_square. lra.
Qed.
Print Assumptions improved_idw_single_refuted.

(* ------------------------------------------------------------------ *)
(** ** C39 *)

(** The interpolators with a non-positive size, tolerance or slope cannot be made. *)
Theorem interpolator_parameters : forall x y : R,
  (amean_new x = Ok x <-> 0 < x) /\ (amean_new x = Raise ValueError <-> x <= 0) /\
  (shepard_new x y = Ok (x, y) <-> 0 < x /\ 0 < y) /\
  (shepard_new x y = Raise ValueError <-> x <= 0 \/ y <= 0).
Proof.
  intros x y. unfold amean_new, shepard_new. rnum.
  destruct (Rleb_spec x 0), (Rleb_spec y 0); repeat split; try discriminate; auto; try lra; intros; try lra.
Qed.
Print Assumptions interpolator_parameters.

Theorem shepard_reproduces_partial : forall norm norm_all, rowwise norm norm_all ->
  forall nsqrt nhood norm3 tol slope (pts : list (pt3 R)) g q, first_at norm g pts q ->
  shepard norm_all nsqrt nhood norm3 tol slope pts g = Ok (pbs q).
Proof. exact shepard_first. Qed.
Print Assumptions shepard_reproduces_partial.

Example shepard_reproduces_case : forall nhood norm3,
  shepard std_norm_all sqrt nhood norm3 1 1 ex_pts (12, 90) = Ok 7.
Proof.
  intros. apply (shepard_reproduces_partial std_norm std_norm_all std_norm_rowwise sqrt nhood norm3 1 1
           ex_pts (12, 90) (12, 90, 7)).
  exists [(8, 90, 5)], [(10, 180, 6)]. split; [reflexivity|]. split.
  - apply std_norm_dist0. reflexivity.
  - intros q [<-|[]] E. apply std_norm_dist0 in E. unfold pws, pwa in E. simpl in E. inversion E. lra.
Qed.

(** The direction term is not a cosine: with euclidean distances it exceeds 1. *)
Theorem shepard_direction_refuted : exists (g : R * R) (p q : pt3 R) t,
  direction_term g p q (euclidean_norm [fst g - pws p; snd g - pwa p])
                       (euclidean_norm [fst g - pws q; snd g - pwa q]) = Ok t /\ 1 < t.
Proof.
  exists (0, 0), (3, 4, 0), (4, 3, 0), (28 / 25).
  assert (euclidean_norm [0 - 3; 0 - 4] = 5) as E1.
  { unfold euclidean_norm. rewrite nsum_R. simpl. replace (_ + _) with (5 * 5) by ring. apply sqrt_square. lra. }
  assert (euclidean_norm [0 - 4; 0 - 3] = 5) as E2.
  { unfold euclidean_norm. rewrite nsum_R. simpl. replace (_ + _) with (5 * 5) by ring. apply sqrt_square. lra. }
  unfold pws, pwa. simpl fst. simpl snd. rewrite E1, E2.
  unfold direction_term, np_div, pws, pwa. simpl. rnum. rewrite Reqb_false by lra.
  split; [f_equal; field|lra].
Qed.
Print Assumptions shepard_direction_refuted.

(** Constant boat speeds away from the query never give a number (0 / 0 in the
    slope scaling). *)
Theorem shepard_constant_undefined :
  forall norm norm_all nhood norm3 tol slope (pts : list (pt3 R)) g c,
  rowwise norm norm_all -> pts <> [] ->
  (forall p, In p pts -> pbs p = c) ->
  (forall p, In p pts -> dist_to norm g p <> 0) ->
  (forall p, In p pts -> tol <= dist_to norm g p) ->
  forall v, shepard norm_all sqrt nhood norm3 tol slope pts g <> Ok v.
Proof. intros. apply (shepard_constant norm norm_all) with (c := c); auto. apply sqrt_0. Qed.
Print Assumptions shepard_constant_undefined.

Example shepard_constant_case : forall nhood norm3 v,
  shepard std_norm_all sqrt nhood norm3 (/ 100) 1 [(8, 90, 5); (10, 180, 5)] (10, 90) <> Ok v.
Proof.
  intros. apply (shepard_constant_undefined std_norm) with (c := 5).
  - exact std_norm_rowwise.
  - discriminate.
  - intros p [<-|[<-|[]]]; reflexivity.
  - intros p [<-|[<-|[]]] E; apply std_norm_dist0 in E; unfold pws, pwa in E; simpl in E; inversion E; lra.
  - assert (dist_to std_norm (10, 90) (10, 180, 5) = / 4) as D3.
    { unfold dist_to, std_norm, pws, pwa. simpl.
      replace (_ + _) with (/ 4 * / 4) by field. apply sqrt_square. lra. }
    assert (dist_to std_norm (10, 90) (8, 90, 5) = / 20) as D1.
    { unfold dist_to, std_norm, pws, pwa. simpl.
      replace (_ + _) with (/ 20 * / 20) by field. apply sqrt_square. lra. }
    intros p [<-|[<-|[]]]; [rewrite D1|rewrite D3]; lra.
Qed.

(* ------------------------------------------------------------------ *)
(** ** C40 *)

(** The value is the bilinear combination of four stored values whose winds
    enclose the query and leave no stored wind speed or angle strictly in
    between. *)
Theorem bilinear_is_bilinear : forall (pts : list (pt3 R)) x y v,
  bilinear 3 pts (x, y) = Ok v ->
  exists x0 x1 y0 y1 a b c d f g,
    In (x0, y0, a) pts /\ In (x0, y1, b) pts /\ In (x1, y0, c) pts /\ In (x1, y1, d) pts /\
    0 <= f <= 1 /\ 0 <= g <= 1 /\ x0 <= x <= x1 /\ y0 <= y <= y1 /\
    (forall p, In p pts -> (pws p <= x -> pws p <= x0) /\ (x <= pws p -> x1 <= pws p)) /\
    (forall p, In p pts -> (pwa p <= y -> pwa p <= y0) /\ (y <= pwa p -> y1 <= pwa p)) /\
    x = (1 - f) * x0 + f * x1 /\ y = (1 - g) * y0 + g * y1 /\
    v = (1 - f) * ((1 - g) * a + g * b) + f * ((1 - g) * c + g * d).
Proof. exact bilinear_shape. Qed.
Print Assumptions bilinear_is_bilinear.

(** Hence it is exact on bilinear functions ... *)
Theorem bilinear_exact : forall (pts : list (pt3 R)) x y v a b c d,
  bilinear 3 pts (x, y) = Ok v ->
  (forall p, In p pts -> pbs p = a + b * pws p + c * pwa p + d * pws p * pwa p) ->
  v = a + b * x + c * y + d * x * y.
Proof.
  intros pts x y v a b c d H F. apply bilinear_shape in H.
  destruct H as [x0 [x1 [y0 [y1 [p [q [r [s [f [g [Ia [Ib [Ic [Id [Bf [Bg [BX [BY [OX [OY [Ex [Ey Ev]]]]]]]]]]]]]]]]]]]]]].
  apply F in Ia. apply F in Ib. apply F in Ic. apply F in Id.
  unfold pbs, pws, pwa in *. simpl in *. subst. ring.
Qed.
Print Assumptions bilinear_exact.

(** ... stays in the range of the stored values ... *)
Theorem bilinear_in_range : forall (pts : list (pt3 R)) x y v,
  bilinear 3 pts (x, y) = Ok v -> in_range (map pbs pts) v.
Proof.
  intros pts x y v H lo hi B. apply bilinear_shape in H.
  destruct H as [x0 [x1 [y0 [y1 [p [q [r [s [f [g [Ia [Ib [Ic [Id [Bf [Bg [BX [BY [OX [OY [Ex [Ey Ev]]]]]]]]]]]]]]]]]]]]]].
  assert (forall u w t, In (u, w, t) pts -> lo <= t <= hi) as A.
  { intros u w t I. apply B. change t with (pbs (u, w, t)). apply in_map. auto. }
  apply A in Ia. apply A in Ib. apply A in Ic. apply A in Id.
  assert (lo <= (1 - g) * p + g * q <= hi) by nra.
  assert (lo <= (1 - g) * r + g * s <= hi) by nra.
  set (u := (1 - g) * p + g * q) in *. set (w := (1 - g) * r + g * s) in *. nra.
Qed.
Print Assumptions bilinear_in_range.

(** ... and returns the stored value at a grid point. *)
Theorem bilinear_reproduces : forall (pts : list (pt3 R)) x y b v, In (x, y, b) pts ->
  (forall b', In (x, y, b') pts -> b' = b) ->
  bilinear 3 pts (x, y) = Ok v -> v = b.
Proof. exact bilinear_grid_point. Qed.
Print Assumptions bilinear_reproduces.

(** On a complete grid it is defined everywhere inside, and only there. *)
Theorem bilinear_defined : forall xs ys (pts : list (pt3 R)) x y, full_grid xs ys pts ->
  (exists x0 x1, In x0 xs /\ In x1 xs /\ x0 <= x <= x1) ->
  (exists y0 y1, In y0 ys /\ In y1 ys /\ y0 <= y <= y1) ->
  exists v, bilinear 3 pts (x, y) = Ok v.
Proof. exact bilinear_total. Qed.
Print Assumptions bilinear_defined.

Theorem bilinear_outside : forall (pts : list (pt3 R)) x y,
  (forall p, In p pts -> pws p < x) \/ (forall p, In p pts -> x < pws p) \/
  (forall p, In p pts -> pwa p < y) \/ (forall p, In p pts -> y < pwa p) ->
  bilinear 3 pts (x, y) = Raise OutsideGridException.
Proof. exact bilinear_out. Qed.
Print Assumptions bilinear_outside.

Theorem bilinear_other_width : forall width (pts : list (pt3 R)) g, width <> 3%nat ->
  bilinear width pts g = Raise NoGridException.
Proof.
  intros width pts g H. unfold bilinear. apply Nat.eqb_neq in H. rewrite H. reflexivity.
Qed.
Print Assumptions bilinear_other_width.

Definition ex_grid : list (pt3 R) :=
  [(8, 45, 5); (12, 45, 6); (8, 90, 7); (12, 90, 9)].

Example bilinear_case : full_grid [8; 12] [45; 90] ex_grid /\
  bilinear 3 ex_grid (10, 60) = Ok (19 / 3) /\
  bilinear 3 ex_grid (12, 90) = Ok 9 /\
  bilinear 3 ex_grid (13, 60) = Raise OutsideGridException.
Proof.
  split; [|split; [|split]].
  - split.
    + intros p Hp. simpl in Hp. unfold pws, pwa.
      destruct Hp as [<-|[<-|[<-|[<-|[]]]]]; simpl; auto.
    + intros x y Hx Hy. simpl in *.
      destruct Hx as [<-|[<-|[]]]; destruct Hy as [<-|[<-|[]]];
        [exists 5|exists 7|exists 6|exists 9]; auto.
  - unfold bilinear, ex_grid, max_smaller, min_bigger, convex_1d, bs_in_grid, nmaximum, nminimum, np_div,
      pws, pwa, pbs. simpl. rnum.
    repeat (reval1; simpl). unfold nmax, nmin. rnum. repeat (reval1; simpl).
    f_equal. field.
  - unfold bilinear, ex_grid, max_smaller, min_bigger, convex_1d, bs_in_grid, nmaximum, nminimum, np_div,
      pws, pwa, pbs. simpl. rnum.
    repeat (reval1; simpl). unfold nmax, nmin. rnum. repeat (reval1; simpl). reflexivity.
  - apply bilinear_outside. left. intros p Hp. simpl in Hp. unfold pws.
    destruct Hp as [<-|[<-|[<-|[<-|[]]]]]; simpl; lra.
Qed.
