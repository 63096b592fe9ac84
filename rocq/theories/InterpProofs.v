From Coq Require Import List Bool Arith ZArith Reals Lra Lia Psatz Permutation.
From Verif Require Import Py Num WindModel NhoodModel NhoodSpec InterpModel InterpSpec.
Import ListNotations.
Open Scope R_scope.

(* ---- sums ---- *)

Lemma Rsum_ext : forall A (f g : A -> R) l, (forall x, In x l -> f x = g x) ->
  Rsum (map f l) = Rsum (map g l).
Proof.
  induction l as [|x l IH]; simpl; intros H; auto. rewrite H, IH; auto.
Qed.

Lemma Rsum_perm : forall l1 l2, Permutation l1 l2 -> Rsum l1 = Rsum l2.
Proof. induction 1; simpl; lra. Qed.

Lemma Rsum_scale : forall A (f : A -> R) c l, Rsum (map (fun x => c * f x) l) = c * Rsum (map f l).
Proof. induction l; simpl; lra. Qed.

Lemma Rsum_div : forall A (f : A -> R) c l, Rsum (map (fun x => f x / c) l) = Rsum (map f l) / c.
Proof.
  intros. unfold Rdiv. induction l as [|x l IH]; simpl; [lra|]. rewrite IH. lra.
Qed.

Lemma Rsum_plus : forall A (f g : A -> R) l,
  Rsum (map (fun x => f x + g x) l) = Rsum (map f l) + Rsum (map g l).
Proof. induction l; simpl; lra. Qed.

Lemma Rsum_le : forall A (f g : A -> R) l, (forall x, In x l -> f x <= g x) ->
  Rsum (map f l) <= Rsum (map g l).
Proof.
  induction l as [|x l IH]; simpl; intros H; [lra|].
  pose proof (H x (or_introl eq_refl)). specialize (IH (fun y Hy => H y (or_intror Hy))). lra.
Qed.

Lemma Rsum_nonneg : forall A (f : A -> R) l, (forall x, In x l -> 0 <= f x) -> 0 <= Rsum (map f l).
Proof.
  induction l as [|x l IH]; simpl; intros H; [lra|].
  pose proof (H x (or_introl eq_refl)). specialize (IH (fun y Hy => H y (or_intror Hy))). lra.
Qed.

Lemma Rsum_pos : forall A (f : A -> R) l, (forall x, In x l -> 0 <= f x) ->
  (exists x, In x l /\ 0 < f x) -> 0 < Rsum (map f l).
Proof.
  induction l as [|x l IH]; simpl; intros H [y [Hy P]]; [destruct Hy|].
  pose proof (H x (or_introl eq_refl)).
  pose proof (Rsum_nonneg A f l (fun z Hz => H z (or_intror Hz))).
  destruct Hy as [<-|Hy]; [lra|]. specialize (IH (fun z Hz => H z (or_intror Hz))).
  assert (0 < Rsum (map f l)) by (apply IH; eauto). lra.
Qed.

Lemma wmean_range : forall A (w b : A -> R) l,
  (forall x, In x l -> 0 <= w x) -> 0 < Rsum (map w l) ->
  in_range (map b l) (wmean w b l).
Proof.
  intros A w b l W P lo hi H. unfold wmean.
  assert (forall x, In x l -> lo <= b x <= hi) as B by (intros x Hx; apply H; apply in_map; auto).
  assert (lo * Rsum (map w l) <= Rsum (map (fun x => w x * b x) l)) as L.
  { rewrite <- Rsum_scale. apply Rsum_le. intros x Hx.
    specialize (W x Hx). specialize (B x Hx). nra. }
  assert (Rsum (map (fun x => w x * b x) l) <= hi * Rsum (map w l)) as U.
  { rewrite <- Rsum_scale. apply Rsum_le. intros x Hx.
    specialize (W x Hx). specialize (B x Hx). nra. }
  set (s := Rsum (map w l)) in *. set (t := Rsum (map (fun x => w x * b x) l)) in *.
  split.
  - apply Rmult_le_reg_r with s; auto. unfold Rdiv. rewrite Rmult_assoc, Rinv_l by lra. lra.
  - apply Rmult_le_reg_r with s; auto. unfold Rdiv. rewrite Rmult_assoc, Rinv_l by lra. lra.
Qed.

Lemma wmean_perm : forall A (w b : A -> R) l1 l2, Permutation l1 l2 ->
  wmean w b l1 = wmean w b l2.
Proof.
  intros A w b l1 l2 P. unfold wmean.
  rewrite (Rsum_perm (map w l1) (map w l2)) by (apply Permutation_map; auto).
  f_equal. apply Rsum_perm. apply Permutation_map. auto.
Qed.

(* ---- distances ---- *)

Lemma std_norm_rowwise : rowwise std_norm std_norm_all.
Proof.
  intros pts. unfold std_norm_all, scaled_euclidean_norm. f_equal. rewrite map_map.
  apply map_ext. intros [x y]. unfold std_norm, scaled_norm, euclidean_norm. rewrite nsum_R.
  simpl. f_equal. field.
Qed.

Lemma std_norm_nonneg : forall v, 0 <= std_norm v.
Proof. intros. apply sqrt_pos. Qed.

Lemma std_norm_zero : forall x y, std_norm (x, y) = 0 <-> x = 0 /\ y = 0.
Proof.
  intros. unfold std_norm. simpl. split.
  - intros H. apply sqrt_eq_0 in H; [|nra]. split; nra.
  - intros [-> ->]. replace (_ + _) with 0 by field. apply sqrt_0.
Qed.

Lemma std_norm_dist0 : forall g p, dist_to std_norm g p = 0 <-> (pws p, pwa p) = g.
Proof.
  intros [gx gy] [[x y] b]. unfold dist_to, pws, pwa. simpl. rewrite std_norm_zero. split.
  - intros [A B]. f_equal; lra.
  - intros E. inversion E. lra.
Qed.

Section Norm.
  Variable norm : R * R -> R.
  Variable norm_all : list (R * R) -> result (list R).
  Hypothesis RW : rowwise norm norm_all.

  Lemma distances_ok : forall pts g, distances norm_all pts g = Ok (map (dist_to norm g) pts).
  Proof. intros. unfold distances. rewrite RW, map_map. reflexivity. Qed.

  Lemma at_zero_first : forall g pts p, first_at norm g pts p ->
    at_zero (map (dist_to norm g) pts) pts = Some (pbs p).
  Proof.
    intros g pts p [l1 [l2 [-> [Z N]]]]. induction l1 as [|q l1 IH]; simpl; rnum.
    - rewrite Reqb_true by auto. reflexivity.
    - rewrite Reqb_false by (apply N; left; auto). apply IH. intros; apply N; right; auto.
  Qed.

  Lemma at_zero_none : forall g pts, (forall p, In p pts -> dist_to norm g p <> 0) ->
    at_zero (map (dist_to norm g) pts) pts = None.
  Proof.
    induction pts as [|q pts IH]; simpl; intros N; auto. rnum.
    rewrite Reqb_false by (apply N; auto). apply IH. auto.
  Qed.

  Lemma nsum_map : forall A (f : A -> R) l, nsum (map f l) = Rsum (map f l).
  Proof. intros. apply nsum_R. Qed.

  Lemma normalise_ok : forall A (w : A -> R) l, Rsum (map w l) <> 0 ->
    normalise (map w l) = Ok (map (fun x => w x / Rsum (map w l)) l).
  Proof.
    intros A w l NZ. unfold normalise. rewrite nsum_map.
    rewrite <- (map_map w (fun v => v / Rsum (map w l))).
    apply mapM_Ok_map. intros x _. unfold np_div. rnum. rewrite Reqb_false by auto. reflexivity.
  Qed.

  Lemma normalise_zero : forall A (w : A -> R) l, l <> [] -> Rsum (map w l) = 0 ->
    normalise (map w l) = Raise NonFinite.
  Proof.
    intros A w l NE Z. unfold normalise. rewrite nsum_map, Z. destruct l as [|a l]; [contradiction|].
    simpl. unfold np_div at 1. rnum. rewrite Reqb_true by auto. reflexivity.
  Qed.

  Lemma dotp_map : forall A (u v : A -> R) l,
    dotp (map u l) (map v l) = Rsum (map (fun x => u x * v x) l).
  Proof.
    intros. unfold dotp. rewrite nsum_R. f_equal.
    induction l as [|x l IH]; simpl; auto. f_equal. exact IH.
  Qed.

  Lemma dotp_normalised : forall A (w b : A -> R) l,
    dotp (map (fun x => w x / Rsum (map w l)) l) (map b l) = wmean w b l.
  Proof.
    intros. rewrite dotp_map. unfold wmean. rewrite <- Rsum_div. apply Rsum_ext.
    intros. unfold Rdiv. ring.
  Qed.

  Lemma npow_pow : forall (x : R) p, npow x p = x ^ p.
  Proof. induction p; simpl; rnum; auto. Qed.

  (* ---- IDW ---- *)

  Lemma idw_first : forall p pts g q, first_at norm g pts q ->
    idw norm_all p pts g = Ok (pbs q).
  Proof.
    intros p pts g q F. destruct pts as [|a pts].
    - destruct F as [l1 [l2 [E _]]]. destruct l1; discriminate.
    - unfold idw. rewrite distances_ok. cbn [rbind].
      rewrite (at_zero_first _ _ _ F). reflexivity.
  Qed.

  Definition idw_weight (g : R * R) (p : nat) (x : pt3 R) : R := 1 / dist_to norm g x ^ p.

  Lemma idw_value : forall p pts g, pts <> [] ->
    (forall x, In x pts -> 0 < dist_to norm g x) ->
    idw norm_all p pts g = Ok (wmean (idw_weight g p) pbs pts) /\
    in_range (map pbs pts) (wmean (idw_weight g p) pbs pts).
  Proof.
    intros p pts g NE P.
    assert (forall x, In x pts -> 0 < idw_weight g p x) as WP.
    { intros x Hx. unfold idw_weight. apply Rdiv_lt_0_compat; [lra|]. apply pow_lt. auto. }
    assert (0 < Rsum (map (idw_weight g p) pts)) as SP.
    { apply Rsum_pos.
      - intros x Hx. left. auto.
      - destruct pts as [|a pts]; [contradiction|]. exists a. split; [left|apply WP; left]; auto. }
    split.
    - unfold idw. destruct pts as [|a pts]; [contradiction|].
      rewrite distances_ok. cbn [rbind].
      rewrite at_zero_none by (intros x Hx; specialize (P x Hx); lra).
      assert (mapM (fun x : R => np_div (nofZ 1) (npow x p)) (map (dist_to norm g) (a :: pts)) =
              Ok (map (idw_weight g p) (a :: pts))) as E.
      { unfold idw_weight. rewrite <- (map_map (dist_to norm g) (fun d => 1 / d ^ p)).
        apply mapM_Ok_map. intros d Hd. apply in_map_iff in Hd. destruct Hd as [x [<- Hx]].
        unfold np_div. rewrite npow_pow. rnum. rewrite Reqb_false; auto.
        apply pow_nonzero. specialize (P x Hx). lra. }
      rewrite E. cbn [rbind]. rewrite normalise_ok by lra. cbn [rbind].
      rewrite dotp_normalised. reflexivity.
    - apply wmean_range; auto. intros x Hx. left. auto.
  Qed.

  (* ---- arithmetic mean ---- *)

  Lemma amean_first : forall s distr pts wts g q, first_at norm g pts q ->
    amean norm_all s distr pts wts g = Ok (pbs q).
  Proof.
    intros s distr pts wts g q F. unfold amean. rewrite distances_ok. cbn [rbind].
    rewrite (at_zero_first _ _ _ F). reflexivity.
  Qed.

  Lemma dotp_comm_map : forall (pts : list (pt3 R)) (w : list R), length w = length pts ->
    dotp (map pbs pts) w = Rsum (map (fun q => snd q * pbs (fst q)) (combine pts w)) /\
    nsum w = Rsum (map snd (combine pts w)).
  Proof.
    intros pts w L. unfold dotp. rewrite !nsum_R. revert w L.
    induction pts as [|a pts IH]; intros [|x w] L; simpl in *; try discriminate; auto.
    injection L as L. destruct (IH w L) as [E1 E2]. split.
    - rewrite E1. rnum. lra.
    - rewrite E2. reflexivity.
  Qed.

  Lemma amean_value : forall s distr pts wts g,
    (forall x, In x pts -> dist_to norm g x <> 0) ->
    let w := distr (map (dist_to norm g) pts) wts in
    length w = length pts -> Rsum w <> 0 ->
    amean norm_all s distr pts wts g =
    Ok (s * wmean snd (fun q => pbs (fst q)) (combine pts w)).
  Proof.
    intros s distr pts wts g NZ w L S. unfold amean. rewrite distances_ok. cbn [rbind].
    rewrite at_zero_none by auto. fold w. unfold np_average.
    destruct (dotp_comm_map pts w L) as [E1 E2]. rewrite E1, E2. unfold py_div. rnum.
    rewrite Reqb_false.
    - reflexivity.
    - rewrite <- E2, nsum_R. auto.
  Qed.

  Lemma amean_zero_weights : forall s distr pts wts g,
    (forall x, In x pts -> dist_to norm g x <> 0) ->
    Rsum (distr (map (dist_to norm g) pts) wts) = 0 ->
    amean norm_all s distr pts wts g = Raise ZeroDivisionError.
  Proof.
    intros s distr pts wts g NZ S. unfold amean. rewrite distances_ok. cbn [rbind].
    rewrite at_zero_none by auto. unfold np_average, py_div. rewrite nsum_R, S. rnum.
    rewrite Reqb_true by auto. reflexivity.
  Qed.

  Lemma gauss_length : forall a d w, length w = length d -> length (gauss_potential a d w) = length d.
  Proof. intros. unfold gauss_potential. rewrite map_length, combine_length. lia. Qed.

  Lemma map_fst_combine : forall (pts : list (pt3 R)) (w : list R), length w = length pts ->
    map (fun q => pbs (fst q)) (combine pts w) = map pbs pts.
  Proof.
    induction pts as [|a pts IH]; intros [|x w] L; simpl in *; try discriminate; auto.
    f_equal. apply IH. lia.
  Qed.

  Lemma amean_default : forall params pts wts g,
    (forall x, In x pts -> dist_to norm g x <> 0) -> length wts = length pts -> pts <> [] ->
    exists w, (forall q, In q (combine pts w) -> 0 < snd q) /\ length w = length pts /\
      amean norm_all 1 (default_distr params) pts wts g =
        Ok (wmean snd (fun q => pbs (fst q)) (combine pts w)) /\
      in_range (map pbs pts) (wmean snd (fun q => pbs (fst q)) (combine pts w)).
  Proof.
    intros params pts wts g NZ L NE.
    set (w := default_distr params (map (dist_to norm g) pts) wts).
    assert (length w = length pts) as Lw.
    { unfold w, default_distr. rewrite gauss_length; rewrite map_length; auto. }
    assert (forall x, In x w -> 0 < x) as Pw.
    { intros x Hx. unfold w, default_distr, gauss_potential in Hx. apply in_map_iff in Hx.
      destruct Hx as [q [<- _]]. apply exp_pos. }
    exists w. assert (forall q, In q (combine pts w) -> 0 < snd q) as P.
    { intros [p x] Hq. apply in_combine_r in Hq. simpl. auto. }
    assert (0 < Rsum (map snd (combine pts w))) as S.
    { apply Rsum_pos.
      - intros q Hq. left. auto.
      - destruct pts as [|p pts]; [contradiction|]. destruct w as [|x w']; [discriminate|].
        exists (p, x). split; [left; auto|]. apply P. left; auto. }
    split; auto. split; auto.
    assert (map (fun q => pbs (fst q)) (combine pts w) = map pbs pts) as MB.
    { apply map_fst_combine. auto. }
    split.
    - rewrite (amean_value 1 (default_distr params) pts wts g NZ).
      + f_equal. fold w. lra.
      + exact Lw.
      + fold w. rewrite <- nsum_R. rewrite (proj2 (dotp_comm_map pts w Lw)). lra.
    - rewrite <- MB. apply wmean_range; auto. intros q Hq. left. auto.
  Qed.

  (* ---- improved IDW ---- *)

  Lemma improved_first : forall pts g q, first_at norm g pts q ->
    improved_idw norm_all pts g = Ok (pbs q).
  Proof.
    intros pts g q F. unfold improved_idw. rewrite distances_ok. cbn [rbind].
    rewrite (at_zero_first _ _ _ F). reflexivity.
  Qed.

  Lemma shepard_weight_nonneg : forall r d, 0 < d <= r -> 0 <= shepard_weight r d.
  Proof.
    intros r d Hd. unfold shepard_weight. rnum.
    destruct (Rltb 0 d && Rleb d (r / 3)).
    - left. apply Rdiv_lt_0_compat; lra.
    - destruct (Rltb (r / 3) d && Rleb d r); [|lra].
      apply Rmult_le_pos; [|apply Rle_0_sqr]. left. apply Rdiv_lt_0_compat; lra.
  Qed.

  Lemma shepard_weight_pos : forall r d, 0 < d < r -> 0 < shepard_weight r d.
  Proof.
    intros r d Hd. unfold shepard_weight. rnum. rewrite (Rltb_true 0 d) by lra. simpl.
    destruct (Rleb_spec d (r / 3)).
    - apply Rdiv_lt_0_compat; lra.
    - rewrite Rltb_true, Rleb_true by lra. simpl.
      apply Rmult_lt_0_compat; [apply Rdiv_lt_0_compat; lra|].
      assert (d / r - 1 < 0).
      { assert (d / r < 1); [|lra]. apply Rmult_lt_reg_r with r; [lra|].
        unfold Rdiv. rewrite Rmult_assoc, Rinv_l by lra. lra. }
      nra.
  Qed.

  Lemma shepard_weight_max : forall r, 0 < r -> shepard_weight r r = 0.
  Proof.
    intros r Hr. unfold shepard_weight. rnum. rewrite (Rleb_false r (r / 3)) by lra.
    rewrite andb_false_r. rewrite Rltb_true, Rleb_true by lra. simpl.
    replace (r / r - 1) with 0 by (field; lra). lra.
  Qed.

  Definition iidw_weight (g : R * R) (r : R) (x : pt3 R) : R :=
    shepard_weight r (dist_to norm g x) * shepard_weight r (dist_to norm g x).

  Lemma improved_value : forall pts g r,
    (forall x, In x pts -> 0 < dist_to norm g x <= r) ->
    (exists x, In x pts /\ dist_to norm g x = r) ->
    (exists x, In x pts /\ dist_to norm g x < r) ->
    improved_idw norm_all pts g = Ok (wmean (iidw_weight g r) pbs pts) /\
    in_range (map pbs pts) (wmean (iidw_weight g r) pbs pts).
  Proof.
    intros pts g r P [x1 [I1 E1]] [x2 [I2 E2]].
    assert (0 < Rsum (map (iidw_weight g r) pts)) as S.
    { apply Rsum_pos.
      - intros x Hx. apply Rle_0_sqr.
      - exists x2. split; auto. unfold iidw_weight.
        pose proof (shepard_weight_pos r (dist_to norm g x2)). specialize (P x2 I2).
        assert (0 < shepard_weight r (dist_to norm g x2)) by (apply H; lra). nra. }
    split.
    - unfold improved_idw. rewrite distances_ok. cbn [rbind].
      rewrite at_zero_none by (intros x Hx; specialize (P x Hx); lra).
      unfold set_weights. assert (nmaximum (map (dist_to norm g) pts) = Ok r) as ->.
      { apply nmaximum_spec. split.
        - rewrite <- E1. apply in_map; auto.
        - intros d Hd. apply in_map_iff in Hd. destruct Hd as [x [<- Hx]]. apply P; auto. }
      cbn [rbind]. rewrite !map_map.
      change (fun x => (shepard_weight r (dist_to norm g x) * shepard_weight r (dist_to norm g x))%num)
        with (iidw_weight g r).
      rewrite normalise_ok by lra. cbn [rbind]. rewrite dotp_normalised. reflexivity.
    - apply wmean_range; auto. intros x Hx. apply Rle_0_sqr.
  Qed.

  Lemma improved_equidistant : forall pts g r, pts <> [] -> 0 < r ->
    (forall x, In x pts -> dist_to norm g x = r) ->
    improved_idw norm_all pts g = Raise NonFinite.
  Proof.
    intros pts g r NE Hr P. unfold improved_idw. rewrite distances_ok. cbn [rbind].
    rewrite at_zero_none by (intros x Hx; rewrite P; auto; lra).
    unfold set_weights. assert (nmaximum (map (dist_to norm g) pts) = Ok r) as ->.
    { apply nmaximum_spec. split.
      - destruct pts as [|a pts]; [contradiction|]. left. apply P. left; auto.
      - intros d Hd. apply in_map_iff in Hd. destruct Hd as [x [<- Hx]]. rewrite P; auto. lra. }
    cbn [rbind]. rewrite !map_map.
    change (fun x => (shepard_weight r (dist_to norm g x) * shepard_weight r (dist_to norm g x))%num)
      with (iidw_weight g r).
    rewrite normalise_zero; auto.
    rewrite (Rsum_ext _ (iidw_weight g r) (fun _ => 0)).
    - clear. induction pts; simpl; lra.
    - intros x Hx. unfold iidw_weight. rewrite P, shepard_weight_max by auto. lra.
  Qed.

  Lemma improved_empty : forall g, improved_idw norm_all [] g = Raise ValueError.
  Proof. intros. unfold improved_idw. rewrite distances_ok. reflexivity. Qed.

  (* ---- Shepard ---- *)

  Lemma shepard_first : forall nsqrt nhood norm3 tol slope pts g q, first_at norm g pts q ->
    shepard norm_all nsqrt nhood norm3 tol slope pts g = Ok (pbs q).
  Proof.
    intros nsqrt nhood norm3 tol slope pts g q F. unfold shepard. rewrite distances_ok. cbn [rbind].
    rewrite (at_zero_first _ _ _ F). reflexivity.
  Qed.
End Norm.

(* ---- bilinear ---- *)

Lemma max_smaller_ok : forall (l : list R) t m,
  max_smaller l t = Ok m <-> (In m l /\ m <= t /\ forall x, In x l -> x <= t -> x <= m).
Proof.
  intros l t m. unfold max_smaller. rnum.
  destruct (nmaximum (filter (fun x => Rleb x t) l)) as [v|e] eqn:E.
  - apply nmaximum_spec in E. destruct E as [I M]. apply filter_In in I. destruct I as [I L].
    apply Rleb_le in L. split.
    + intros H. inversion H; subst. repeat split; auto.
      intros x Hx Lx. apply M. apply filter_In. split; auto. apply Rleb_le; auto.
    + intros [I2 [L2 M2]]. f_equal. apply Rle_antisym; auto.
      apply M. apply filter_In. split; auto. apply Rleb_le; auto.
  - split; [discriminate|]. intros [I [L _]].
    destruct (nmaximum_nonempty (filter (fun x => Rleb x t) l)) as [v Hv]; [|congruence].
    intros Z. assert (In m (filter (fun x => Rleb x t) l)) as J
      by (apply filter_In; split; auto; apply Rleb_le; auto).
    rewrite Z in J. destruct J.
Qed.

Lemma max_smaller_out : forall (l : list R) t,
  (forall x, In x l -> t < x) -> max_smaller l t = Raise OutsideGridException.
Proof.
  intros l t H. unfold max_smaller. rnum.
  destruct (nmaximum (filter (fun x => Rleb x t) l)) as [v|e] eqn:E; auto.
  apply nmaximum_spec in E. destruct E as [I _]. apply filter_In in I. destruct I as [I L].
  apply Rleb_le in L. specialize (H v I). lra.
Qed.

Lemma min_bigger_ok : forall (l : list R) t m,
  min_bigger l t = Ok m <-> (In m l /\ t <= m /\ forall x, In x l -> t <= x -> m <= x).
Proof.
  intros l t m. unfold min_bigger. rnum.
  destruct (nminimum (filter (fun x => Rleb t x) l)) as [v|e] eqn:E.
  - apply nminimum_spec in E. destruct E as [I M]. apply filter_In in I. destruct I as [I L].
    apply Rleb_le in L. split.
    + intros H. inversion H; subst. repeat split; auto.
      intros x Hx Lx. apply M. apply filter_In. split; auto. apply Rleb_le; auto.
    + intros [I2 [L2 M2]]. f_equal. apply Rle_antisym; auto.
      apply M. apply filter_In. split; auto. apply Rleb_le; auto.
  - split; [discriminate|]. intros [I [L _]].
    destruct (nminimum_nonempty (filter (fun x => Rleb t x) l)) as [v Hv]; [|congruence].
    intros Z. assert (In m (filter (fun x => Rleb t x) l)) as J
      by (apply filter_In; split; auto; apply Rleb_le; auto).
    rewrite Z in J. destruct J.
Qed.

Lemma min_bigger_out : forall (l : list R) t,
  (forall x, In x l -> x < t) -> min_bigger l t = Raise OutsideGridException.
Proof.
  intros l t H. unfold min_bigger. rnum.
  destruct (nminimum (filter (fun x => Rleb t x) l)) as [v|e] eqn:E; auto.
  apply nminimum_spec in E. destruct E as [I _]. apply filter_In in I. destruct I as [I L].
  apply Rleb_le in L. specialize (H v I). lra.
Qed.

Lemma max_smaller_total : forall (l : list R) t x, In x l -> x <= t ->
  exists m, max_smaller l t = Ok m.
Proof.
  intros l t x I L. unfold max_smaller. rnum.
  destruct (nmaximum_nonempty (filter (fun x => Rleb x t) l)) as [v Hv].
  - intros Z. assert (In x (filter (fun x => Rleb x t) l)) as J
      by (apply filter_In; split; auto; apply Rleb_le; auto).
    rewrite Z in J. destruct J.
  - rewrite Hv. eauto.
Qed.

Lemma min_bigger_total : forall (l : list R) t x, In x l -> t <= x ->
  exists m, min_bigger l t = Ok m.
Proof.
  intros l t x I L. unfold min_bigger. rnum.
  destruct (nminimum_nonempty (filter (fun x => Rleb t x) l)) as [v Hv].
  - intros Z. assert (In x (filter (fun x => Rleb t x) l)) as J
      by (apply filter_In; split; auto; apply Rleb_le; auto).
    rewrite Z in J. destruct J.
  - rewrite Hv. eauto.
Qed.

Lemma bs_in_grid_ok : forall (pts : list (pt3 R)) x y b,
  bs_in_grid pts x y = Ok b -> In (x, y, b) pts.
Proof.
  intros pts x y b H. unfold bs_in_grid in H. rnum.
  destruct (filter _ pts) as [|p r] eqn:E; [discriminate|].
  assert (In p (filter (fun p => Reqb (pws p) x && Reqb (pwa p) y) pts)) as I by (rewrite E; left; auto).
  apply filter_In in I. destruct I as [I C]. apply andb_prop in C. destruct C as [C1 C2].
  apply Reqb_eq in C1. apply Reqb_eq in C2. destruct p as [[px py] pb]. simpl in *.
  unfold pws, pwa, pbs in *. simpl in *. inversion H; subst. auto.
Qed.

Lemma bs_in_grid_total : forall (pts : list (pt3 R)) x y b,
  In (x, y, b) pts -> exists b', bs_in_grid pts x y = Ok b'.
Proof.
  intros pts x y b I. unfold bs_in_grid. rnum.
  destruct (filter _ pts) as [|p r] eqn:E; [|eauto].
  assert (In (x, y, b) (filter (fun p => Reqb (pws p) x && Reqb (pwa p) y) pts)) as J.
  { apply filter_In. split; auto. unfold pws, pwa. simpl. rewrite !Reqb_refl. auto. }
  rewrite E in J. destruct J.
Qed.

(** The position of a number between two bounds, 0 if the bounds coincide. *)
Definition frac (t lo hi : R) : R := if Req_EM_T lo hi then 0 else (t - lo) / (hi - lo).

Lemma frac_spec : forall t lo hi, lo <= t <= hi ->
  0 <= frac t lo hi <= 1 /\ t = (1 - frac t lo hi) * lo + frac t lo hi * hi.
Proof.
  intros t lo hi B. unfold frac. destruct (Req_EM_T lo hi) as [E|E]; [lra|].
  assert (0 < hi - lo) as P by lra. repeat split.
  - unfold Rdiv. apply Rmult_le_pos; [lra|]. left. apply Rinv_0_lt_compat; auto.
  - apply Rmult_le_reg_r with (hi - lo); auto. unfold Rdiv. rewrite Rmult_assoc, Rinv_l by lra. lra.
  - field. lra.
Qed.

(** One-dimensional step: an affine combination of the two grid values. *)
Lemma convex_1d_ok : forall pts ws wa lo hi v,
  convex_1d pts ws wa lo hi = Ok v ->
  exists l u, In (ws, lo, l) pts /\ In (ws, hi, u) pts /\
    v = (1 - frac wa lo hi) * l + frac wa lo hi * u.
Proof.
  intros pts ws wa lo hi v H. unfold convex_1d in H.
  destruct (bs_in_grid pts ws lo) as [l|e] eqn:E1; cbn [rbind] in H; [|discriminate].
  destruct (bs_in_grid pts ws hi) as [u|e] eqn:E2; cbn [rbind] in H; [|discriminate].
  apply bs_in_grid_ok in E1. apply bs_in_grid_ok in E2. exists l, u. split; auto. split; auto.
  unfold frac. rnum. destruct (Req_EM_T lo hi) as [E|E].
  - rewrite Reqb_true in H by auto. inversion H; subst. lra.
  - rewrite Reqb_false in H by auto. unfold np_div in H. rnum.
    rewrite Reqb_false in H by lra. cbn [rbind] in H. inversion H; subst. lra.
Qed.

Lemma convex_1d_total : forall (pts : list (pt3 R)) ws wa lo hi l u, In (ws, lo, l) pts -> In (ws, hi, u) pts ->
  exists v, convex_1d pts ws wa lo hi = Ok v.
Proof.
  intros pts ws wa lo hi l u Il Iu. unfold convex_1d.
  destruct (bs_in_grid_total _ _ _ _ Il) as [l' ->].
  destruct (bs_in_grid_total _ _ _ _ Iu) as [u' ->]. cbn [rbind]. rnum.
  destruct (Reqb_spec lo hi); [eauto|]. unfold np_div. rnum.
  rewrite Reqb_false by lra. cbn [rbind]. eauto.
Qed.

Lemma bilinear_shape : forall pts x y v, bilinear 3 pts (x, y) = Ok v ->
  exists x0 x1 y0 y1 a b c d f g,
    In (x0, y0, a) pts /\ In (x0, y1, b) pts /\ In (x1, y0, c) pts /\ In (x1, y1, d) pts /\
    0 <= f <= 1 /\ 0 <= g <= 1 /\ x0 <= x <= x1 /\ y0 <= y <= y1 /\
    (forall p, In p pts -> (pws p <= x -> pws p <= x0) /\ (x <= pws p -> x1 <= pws p)) /\
    (forall p, In p pts -> (pwa p <= y -> pwa p <= y0) /\ (y <= pwa p -> y1 <= pwa p)) /\
    x = (1 - f) * x0 + f * x1 /\ y = (1 - g) * y0 + g * y1 /\
    v = (1 - f) * ((1 - g) * a + g * b) + f * ((1 - g) * c + g * d).
Proof.
  intros pts x y v H. unfold bilinear in H. cbn [Nat.eqb negb fst snd] in H.
  destruct (max_smaller (map pws pts) x) as [x0|] eqn:X0; cbn [rbind] in H; [|discriminate].
  destruct (min_bigger (map pws pts) x) as [x1|] eqn:X1; cbn [rbind] in H; [|discriminate].
  destruct (max_smaller (map pwa pts) y) as [y0|] eqn:Y0; cbn [rbind] in H; [|discriminate].
  destruct (min_bigger (map pwa pts) y) as [y1|] eqn:Y1; cbn [rbind] in H; [|discriminate].
  apply max_smaller_ok in X0. destruct X0 as [IX0 [LX0 MX0]].
  apply min_bigger_ok in X1. destruct X1 as [IX1 [LX1 MX1]].
  apply max_smaller_ok in Y0. destruct Y0 as [IY0 [LY0 MY0]].
  apply min_bigger_ok in Y1. destruct Y1 as [IY1 [LY1 MY1]].
  destruct (convex_1d pts x0 y y0 y1) as [bl|] eqn:BL; cbn [rbind] in H; [|discriminate].
  destruct (convex_1d pts x1 y y0 y1) as [bu|] eqn:BU; cbn [rbind] in H; [|discriminate].
  apply convex_1d_ok in BL. destruct BL as [a [b [Ia [Ib Va]]]].
  apply convex_1d_ok in BU. destruct BU as [c [d [Ic [Id Vc]]]].
  assert (forall p, In p pts -> (pws p <= x -> pws p <= x0) /\ (x <= pws p -> x1 <= pws p)) as OX.
  { intros p Hp. split; intros; [apply MX0|apply MX1]; auto; apply in_map; auto. }
  assert (forall p, In p pts -> (pwa p <= y -> pwa p <= y0) /\ (y <= pwa p -> y1 <= pwa p)) as OY.
  { intros p Hp. split; intros; [apply MY0|apply MY1]; auto; apply in_map; auto. }
  assert (v = (1 - frac x x0 x1) * bl + frac x x0 x1 * bu) as Fv.
  { unfold frac. rnum. destruct (Req_EM_T x0 x1) as [E|E].
    - rewrite Reqb_true in H by auto. inversion H; subst. lra.
    - rewrite Reqb_false in H by auto. unfold np_div in H. rnum.
      rewrite Reqb_false in H by lra. cbn [rbind] in H. inversion H; subst. lra. }
  destruct (frac_spec x x0 x1 (conj LX0 LX1)) as [F1 F2].
  destruct (frac_spec y y0 y1 (conj LY0 LY1)) as [G1 G2].
  exists x0, x1, y0, y1, a, b, c, d, (frac x x0 x1), (frac y y0 y1).
  subst bl bu. repeat (split; auto).
Qed.

Lemma bilinear_total : forall xs ys pts x y, full_grid xs ys pts ->
  (exists x0 x1, In x0 xs /\ In x1 xs /\ x0 <= x <= x1) ->
  (exists y0 y1, In y0 ys /\ In y1 ys /\ y0 <= y <= y1) ->
  exists v, bilinear 3 pts (x, y) = Ok v.
Proof.
  intros xs ys pts x y [G1 G2] [x0 [x1 [X0 [X1 BX]]]] [y0 [y1 [Y0 [Y1 BY]]]].
  unfold bilinear. cbn [Nat.eqb negb fst snd].
  assert (forall a, In a xs -> In a (map pws pts)) as SX.
  { intros a Ha. destruct (G2 a y0 Ha Y0) as [b Hb].
    change a with (pws (a, y0, b)). apply in_map. auto. }
  assert (forall a, In a ys -> In a (map pwa pts)) as SY.
  { intros a Ha. destruct (G2 x0 a X0 Ha) as [b Hb].
    change a with (pwa (x0, a, b)). apply in_map. auto. }
  destruct (max_smaller_total _ _ _ (SX _ X0) (proj1 BX)) as [u0 U0].
  destruct (min_bigger_total _ _ _ (SX _ X1) (proj2 BX)) as [u1 U1].
  destruct (max_smaller_total _ _ _ (SY _ Y0) (proj1 BY)) as [w0 W0].
  destruct (min_bigger_total _ _ _ (SY _ Y1) (proj2 BY)) as [w1 W1].
  rewrite U0, U1, W0, W1. cbn [rbind].
  assert (In u0 xs /\ In u1 xs /\ In w0 ys /\ In w1 ys) as [I0 [I1 [J0 J1]]].
  { apply max_smaller_ok in U0. apply min_bigger_ok in U1.
    apply max_smaller_ok in W0. apply min_bigger_ok in W1.
    destruct U0 as [U0 _]. destruct U1 as [U1 _]. destruct W0 as [W0 _]. destruct W1 as [W1 _].
    apply in_map_iff in U0. apply in_map_iff in U1. apply in_map_iff in W0. apply in_map_iff in W1.
    destruct U0 as [p [<- Hp]]. destruct U1 as [q [<- Hq]].
    destruct W0 as [r [<- Hr]]. destruct W1 as [s [<- Hs]].
    repeat split; apply G1; auto. }
  destruct (G2 u0 w0 I0 J0) as [b1 B1]. destruct (G2 u0 w1 I0 J1) as [b2 B2].
  destruct (G2 u1 w0 I1 J0) as [b3 B3]. destruct (G2 u1 w1 I1 J1) as [b4 B4].
  destruct (convex_1d_total pts u0 y w0 w1 b1 b2 B1 B2) as [bl ->].
  destruct (convex_1d_total pts u1 y w0 w1 b3 b4 B3 B4) as [bu ->]. cbn [rbind]. rnum.
  destruct (Reqb_spec u1 u0); [eauto|]. unfold np_div. rnum. rewrite Reqb_false by lra.
  cbn [rbind]. eauto.
Qed.

Lemma bilinear_out : forall (pts : list (pt3 R)) x y,
  (forall p, In p pts -> pws p < x) \/ (forall p, In p pts -> x < pws p) \/
  (forall p, In p pts -> pwa p < y) \/ (forall p, In p pts -> y < pwa p) ->
  bilinear 3 pts (x, y) = Raise OutsideGridException.
Proof.
  intros pts x y H. unfold bilinear. cbn [Nat.eqb negb fst snd].
  assert (forall (l : list R) t, (exists m, max_smaller l t = Ok m) \/ max_smaller l t = Raise OutsideGridException) as A.
  { intros l t. unfold max_smaller. destruct (nmaximum _); eauto. }
  assert (forall (l : list R) t, (exists m, min_bigger l t = Ok m) \/ min_bigger l t = Raise OutsideGridException) as B.
  { intros l t. unfold min_bigger. destruct (nminimum _); eauto. }
  destruct (A (map pws pts) x) as [[a1 E1]|E1]; rewrite E1; cbn [rbind]; auto.
  destruct (B (map pws pts) x) as [[a2 E2]|E2]; rewrite E2; cbn [rbind]; auto.
  destruct (A (map pwa pts) y) as [[a3 E3]|E3]; rewrite E3; cbn [rbind]; auto.
  destruct (B (map pwa pts) y) as [[a4 E4]|E4]; rewrite E4; cbn [rbind]; auto.
  exfalso. destruct H as [H|[H|[H|H]]].
  - rewrite min_bigger_out in E2; [discriminate|]. intros z Hz.
    apply in_map_iff in Hz. destruct Hz as [p [<- Hp]]. auto.
  - rewrite max_smaller_out in E1; [discriminate|]. intros z Hz.
    apply in_map_iff in Hz. destruct Hz as [p [<- Hp]]. auto.
  - rewrite min_bigger_out in E4; [discriminate|]. intros z Hz.
    apply in_map_iff in Hz. destruct Hz as [p [<- Hp]]. auto.
  - rewrite max_smaller_out in E3; [discriminate|]. intros z Hz.
    apply in_map_iff in Hz. destruct Hz as [p [<- Hp]]. auto.
Qed.

Lemma bilinear_grid_point : forall (pts : list (pt3 R)) x y b v, In (x, y, b) pts ->
  (forall b', In (x, y, b') pts -> b' = b) ->
  bilinear 3 pts (x, y) = Ok v -> v = b.
Proof.
  intros pts x y b v I U H. apply bilinear_shape in H.
  destruct H as [x0 [x1 [y0 [y1 [a [b' [c [d [f [g [Ia [Ib [Ic [Id [F [G [BX [BY [OX [OY [Ex [Ey Ev]]]]]]]]]]]]]]]]]]]]]].
  specialize (OX _ I). specialize (OY _ I). unfold pws, pwa in *. simpl in *.
  assert (x0 = x /\ x1 = x) as [-> ->] by lra. assert (y0 = y /\ y1 = y) as [-> ->] by lra.
  apply U in Ia. apply U in Ib. apply U in Ic. apply U in Id. subst. ring.
Qed.

(* ---- Shepard on constant data ---- *)

Lemma mapM_forall : forall A B (f : A -> result B) (P : B -> Prop) l ys,
  (forall x y, In x l -> f x = Ok y -> P y) -> mapM f l = Ok ys -> forall y, In y ys -> P y.
Proof.
  induction l as [|x l IH]; simpl; intros ys H E y Hy.
  - inversion E; subst. destruct Hy.
  - destruct (f x) as [b|] eqn:F; simpl in E; [|discriminate].
    destruct (mapM f l) as [bs|] eqn:M; simpl in E; [|discriminate].
    inversion E; subst. destruct Hy as [<-|Hy]; [eapply H; eauto|].
    eapply IH; eauto.
Qed.

Lemma Rsum_all_zero : forall l, (forall x, In x l -> x = 0) -> Rsum l = 0.
Proof.
  induction l as [|x l IH]; simpl; intros H; auto. rewrite (H x), IH by auto. lra.
Qed.

Lemma deriv_constant : forall (sel : pt3 R -> R) pts_i pt ds ws c v, pbs pt = c ->
  (forall p, In p pts_i -> pbs p = c) -> deriv sel pts_i pt ds ws = Some v -> v = 0.
Proof.
  intros sel pts_i pt ds ws c v Hc Hp H. unfold deriv in H.
  destruct (mapM _ _) as [terms|] eqn:M; cbn [rbind] in H; [|discriminate].
  assert (Rsum terms = 0) as Z.
  { apply Rsum_all_zero. eapply mapM_forall; [|exact M].
    intros [[p d] w] y I E. apply in_combine_l in I. apply in_combine_l in I.
    unfold np_div in E. rnum. destruct (Reqb (d * d) 0); [discriminate|]. inversion E.
    rewrite (Hp p I), Hc. unfold Rdiv. ring. }
  rewrite nsum_R, Z in H. unfold np_div in H. rnum.
  destruct (Reqb (nsum ws) 0); [discriminate|]. inversion H. unfold Rdiv. ring.
Qed.

Lemma mask_list_sub : forall A (l : list A) m x, In x (mask_list l m) -> In x l.
Proof. intros. eapply mask_list_In; eauto. Qed.

Lemma np_delete_sub : forall A (l : list A) i x, In x (np_delete l i) -> In x l.
Proof.
  intros A l i x H. unfold np_delete in H. rewrite <- (firstn_skipn i l).
  apply in_app_or in H. apply in_or_app. destruct H as [H|H]; auto. right.
  clear -H. revert l H. induction i as [|i IH]; intros [|a l] H; simpl in *; auto.
Qed.

Lemma enumerate_In : forall A (l : list A) i x, In (i, x) (enumerate l) -> In x l.
Proof. intros A l i x H. unfold enumerate in H. eapply in_combine_r; eauto. Qed.

Lemma enumerate_length : forall A (l : list A), length (enumerate l) = length l.
Proof. intros. unfold enumerate. rewrite combine_length, seq_length. lia. Qed.

Lemma filter_nil : forall A (p : A -> bool) l, (forall x, In x l -> p x = false) -> filter p l = [].
Proof.
  induction l as [|a l IH]; simpl; intros H; auto. rewrite H by auto. auto.
Qed.

Lemma slope_constant : forall nsqrt nhood norm3 (pts : list (pt3 R)) g dist wts slope c z,
  nsqrt 0 = 0 -> (forall p, In p pts -> pbs p = c) ->
  determine_slope nsqrt nhood norm3 pts g dist wts slope = Ok z ->
  forall o, In o z -> o = None.
Proof.
  intros nsqrt nhood norm3 pts g dist wts slope c z S0 C H. unfold determine_slope in H.
  destruct (mapM _ (enumerate pts)) as [derivs|] eqn:D; cbn [rbind] in H; [|discriminate].
  destruct (nmaximum (map pbs pts)) as [mx|] eqn:MX; cbn [rbind] in H; [|discriminate].
  destruct (nminimum (map pbs pts)) as [mn|] eqn:MN; cbn [rbind] in H; [|discriminate].
  assert (forall d, In d derivs -> match d with (Some x, Some y) => x = 0 /\ y = 0 | _ => True end) as DZ.
  { intros d Hd. revert d Hd. eapply mapM_forall; [|exact D].
    intros [i pt] y I E. apply enumerate_In in I.
    destruct (nhood _) as [m|]; cbn [rbind] in E; [|discriminate].
    destruct (norm3 _) as [di|]; cbn [rbind] in E; [|discriminate].
    inversion E; subst.
    destruct (deriv pws _ _ _ _) as [x|] eqn:X; auto.
    destruct (deriv pwa _ _ _ _) as [y|] eqn:Y; auto.
    assert (forall p, In p (mask_list (np_delete pts i) m) -> pbs p = pbs pt) as CC.
    { intros p Hp. apply mask_list_sub in Hp. apply np_delete_sub in Hp. rewrite !C; auto. }
    split; eapply deriv_constant; eauto. }
  set (squares := mapM _ derivs) in H.
  assert ((match squares with
           | Ok sq => match nmaximum sq with
                      | Ok m => match np_div (slope * (mx - mn))%num (nsqrt m) with
                                | Ok v => Some v | Raise _ => None end
                      | Raise _ => None end
           | Raise _ => None
           end) = None) as DIM.
  { destruct squares as [sq|] eqn:Q; auto. destruct (nmaximum sq) as [m|] eqn:M; auto.
    assert (m = 0) as ->.
    { apply nmaximum_spec in M. destruct M as [I _].
      apply (mapM_forall _ _ _ (fun v => v = 0) _ _) with (2 := Q) (y := m); auto. intros [[x|] [y|]] v J E; try discriminate.
      specialize (DZ _ J). simpl in DZ. destruct DZ as [-> ->]. inversion E. rnum. lra. }
    rewrite S0. unfold np_div. rnum. rewrite Reqb_refl. reflexivity. }
  rewrite DIM in H. inversion H; subst. intros o Ho. apply in_map_iff in Ho.
  destruct Ho as [[[p d] [[x|] [y|]]] [<- _]]; auto.
Qed.

Lemma combine_nil_inv : forall A B (l1 : list A) (l2 : list B),
  length l1 = length l2 -> combine l1 l2 = [] -> l1 = [].
Proof. intros A B [|a l1] [|b l2]; simpl; intros; auto; discriminate. Qed.

Lemma shepard_constant : forall norm norm_all nsqrt nhood norm3 tol slope (pts : list (pt3 R)) g c,
  rowwise norm norm_all -> nsqrt 0 = 0 -> pts <> [] ->
  (forall p, In p pts -> pbs p = c) ->
  (forall p, In p pts -> dist_to norm g p <> 0) ->
  (forall p, In p pts -> tol <= dist_to norm g p) ->
  forall v, shepard norm_all nsqrt nhood norm3 tol slope pts g <> Ok v.
Proof.
  intros norm norm_all nsqrt nhood norm3 tol slope pts g c RW S0 NE C NZ TOL v H.
  unfold shepard in H. rewrite (distances_ok norm norm_all RW) in H. cbn [rbind] in H.
  rewrite at_zero_none in H by auto.
  destruct (set_weights _) as [wts|]; cbn [rbind] in H; [|discriminate].
  destruct (determine_slope _ _ _ _ _ _ _ _) as [z|] eqn:Z; cbn [rbind] in H; [|discriminate].
  assert (within_tol tol (map (dist_to norm g) pts) pts = None) as W.
  { unfold within_tol. rewrite filter_nil; auto.
    intros [d p] I. simpl. rnum. apply Rltb_false.
    assert (d = dist_to norm g p) as ->.
    { clear -I. induction pts as [|a pts IH]; simpl in I; [destruct I|].
      destruct I as [E|I]; [inversion E; auto|auto]. }
    apply TOL. apply in_combine_r in I. auto. }
  rewrite W in H.
  destruct (include_direction _ _ _ _) as [w|]; cbn [rbind] in H; [|discriminate].
  destruct (normalise w) as [w'|]; cbn [rbind] in H; [|discriminate].
  pose proof (slope_constant _ _ _ _ _ _ _ _ _ _ S0 C Z) as N.
  destruct (mapM _ z) as [zs|] eqn:M; cbn [rbind] in H; [|discriminate].
  destruct z as [|o z].
  2: { rewrite (N o) in M by (left; auto). simpl in M. discriminate. }
  (* the list of slopes has one entry per point *)
  unfold determine_slope in Z.
  destruct (mapM _ (enumerate pts)) as [derivs|] eqn:D; cbn [rbind] in Z; [|discriminate].
  destruct (nmaximum (map pbs pts)) as [mx|]; cbn [rbind] in Z; [|discriminate].
  destruct (nminimum (map pbs pts)) as [mn|]; cbn [rbind] in Z; [|discriminate].
  inversion Z as [E]. apply map_eq_nil in E.
  apply mapM_length in D. rewrite enumerate_length in D.
  apply combine_nil_inv in E.
  - apply combine_nil_inv in E; [|rewrite map_length; auto]. contradiction.
  - rewrite combine_length, map_length, D. lia.
Qed.
