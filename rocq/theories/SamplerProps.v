(** * Properties of the samplers (C55, C56) *)

From Coq Require Import List Bool Arith ZArith Reals Lra Lia Permutation.
From Verif Require Import Py Num ListX SamplerModel.
Import ListNotations.
Open Scope R_scope.

(** The point satisfies all inequalities of the hull. *)
Definition satisfies (qs : list ineq) (p : pt) : Prop :=
  forall a b c, In (a, b, c) qs -> a * fst p + b * snd p + c <= 0.

(** [q] is a convex combination of the points. *)
Definition in_hull (pts : list pt) (q : pt) : Prop :=
  exists ws : list R, length ws = length pts /\ (forall w, In w ws -> 0 <= w) /\ Rsum ws = 1 /\
    fst q = Rsum (map (fun wp => fst wp * fst (snd wp)) (combine ws pts)) /\
    snd q = Rsum (map (fun wp => fst wp * snd (snd wp)) (combine ws pts)).

(** Euclidean distance. *)
Definition euclid (p q : pt) : R := sqrt (Rsqr (fst p - fst q) + Rsqr (snd p - snd q)).

(* ------------------------------------------------------------------ *)

Lemma inside_iff : forall qs p, inside qs p = true <-> satisfies qs p.
Proof.
  intros qs p. unfold inside, satisfies. rewrite forallb_forall. split.
  - intros H a b c HI. specialize (H _ HI). unfold holds in H. apply Rleb_le in H. lra.
  - intros H [[a b] c] HI. unfold holds. apply Rleb_le. specialize (H a b c HI). lra.
Qed.

Lemma dist_euclid : forall p q, dist p q = euclid p q.
Proof. reflexivity. Qed.

Lemma filter_length_bound : forall A (f : A -> bool) l, (length (filter f l) <= length l)%nat.
Proof. induction l; simpl; auto. destruct (f a); simpl; lia. Qed.

Section Oracles.
  Variable uniform : nat -> R -> R -> nat -> list R.
  Variable hull : list pt -> result (list ineq * R).
  Hypothesis uniform_length : forall it lo hi m, length (uniform it lo hi m) = m.
  Hypothesis uniform_range : forall it lo hi m x, lo <= hi -> In x (uniform it lo hi m) -> lo <= x <= hi.

  Lemma uniform_loop_ok : forall qs wsb wab fuel it n samples out,
    fst wsb <= snd wsb -> fst wab <= snd wab ->
    (length samples <= n)%nat ->
    (forall p, In p samples -> satisfies qs p /\ fst wsb <= fst p <= snd wsb /\ fst wab <= snd p <= snd wab) ->
    uniform_loop uniform fuel it n qs wsb wab samples = Ok out ->
    length out = n /\
    forall p, In p out -> satisfies qs p /\ fst wsb <= fst p <= snd wsb /\ fst wab <= snd p <= snd wab.
  Proof.
    intros qs wsb wab. induction fuel as [|f IH]; intros it n samples out B1 B2 HL HS H; cbn [uniform_loop] in H.
    - destruct (Nat.leb_spec n (length samples)); [|discriminate]. injection H as <-. split; auto. lia.
    - destruct (Nat.leb_spec n (length samples)); [injection H as <-; split; auto; lia|].
      apply IH in H; auto.
      + rewrite app_length.
        pose proof (filter_length_bound _ (inside qs)
          (combine (uniform it (fst wsb) (snd wsb) (n - length samples)) (uniform (S it) (fst wab) (snd wab) (n - length samples)))) as Q.
        rewrite combine_length, !uniform_length in Q. lia.
      + intros p Hp. apply in_app_or in Hp. destruct Hp as [Hp|Hp]; auto.
        apply filter_In in Hp. destruct Hp as [Hp1 Hp2]. split; [apply inside_iff; auto|].
        destruct p as [x y]. split.
        * apply in_combine_l in Hp1. eapply uniform_range; eauto.
        * apply in_combine_r in Hp1. eapply uniform_range; eauto.
  Qed.

  (** C55 for the random sampler: if it returns, it returns the requested number of points;
      they satisfy the inequalities of the hull and lie in the range of the data. *)
  Theorem uniform_sample_ok : forall fuel n pts out, uniform_sample uniform hull fuel n pts = Ok out ->
    length out = n /\ exists qs v, hull pts = Ok (qs, v) /\
    forall p, In p out -> satisfies qs p /\
      (exists q q', In q pts /\ In q' pts /\ fst q <= fst p <= fst q') /\
      (exists q q', In q pts /\ In q' pts /\ snd q <= snd p <= snd q').
  Proof.
    intros fuel n pts out H. unfold uniform_sample in H.
    destruct (hull pts) as [[qs v]|] eqn:EH; cbn [rbind] in H; [|discriminate].
    unfold create_bounds in H.
    destruct (nminimum (map fst pts)) as [a|] eqn:Ea; cbn [rbind] in H; [|discriminate].
    destruct (nmaximum (map fst pts)) as [b|] eqn:Eb; cbn [rbind] in H; [|discriminate].
    destruct (nminimum (map snd pts)) as [c|] eqn:Ec; cbn [rbind] in H; [|discriminate].
    destruct (nmaximum (map snd pts)) as [d|] eqn:Ed; cbn [rbind] in H; [|discriminate].
    cbn [fst snd] in H.
    apply nminimum_spec in Ea. apply nmaximum_spec in Eb. apply nminimum_spec in Ec. apply nmaximum_spec in Ed.
    destruct Ea as [A1 A2], Eb as [B1 B2], Ec as [C1 C2], Ed as [D1 D2].
    apply uniform_loop_ok in H; cbn [fst snd]; auto; try (simpl; lia); try contradiction.
    cbn [fst snd] in H. destruct H as [H1 H2]. split; auto. exists qs, v. split; auto.
    intros p Hp. destruct (H2 p Hp) as [P1 [P2 P3]]. split; auto.
    apply in_map_iff in A1, B1, C1, D1. destruct A1 as [qa [<- A1]], B1 as [qb [<- B1]], C1 as [qc [<- C1]], D1 as [qd [<- D1]].
    split; [exists qa, qb|exists qc, qd]; auto.
  Qed.
End Oracles.

(** The constructor refuses a non-positive number. *)
Theorem sampler_number : forall n, (sampler_new n = Raise ValueError <-> (n <= 0)%Z) /\
  ((0 < n)%Z -> sampler_new n = Ok (Z.to_nat n)).
Proof.
  intros n. unfold sampler_new. destruct (Z.leb_spec n 0); split; try split; intros; auto; try lia; discriminate.
Qed.
Print Assumptions sampler_number.

(** The Archimedean sampler refuses fewer than two points and nothing else because of the
    number of points; the Fibonacci sampler refuses no number. *)
Theorem spiral_number_of_points : forall hull fuel1 fuel2 n eps pts shuffled m r qs v,
  ((length pts < 2)%nat -> archimedean_sample hull fuel1 fuel2 n eps pts shuffled = Raise ValueError) /\
  (make_circle fuel1 eps shuffled = Ok (m, r) -> hull pts = Ok (qs, v) ->
   fibonacci_sample hull fuel1 fuel2 n eps pts shuffled =
     binary_rescale fuel2 n (sample_generator (fibonacci_spiral (spiral_size r v n)) m qs) r /\
   ((2 <= length pts)%nat ->
    archimedean_sample hull fuel1 fuel2 n eps pts shuffled =
      binary_rescale fuel2 n (sample_generator (archimedean_spiral (spiral_size r v n)) m qs) r)).
Proof.
  intros hull fuel1 fuel2 n eps pts shuffled m r qs v. unfold archimedean_sample, fibonacci_sample, spiral_sample. split.
  - intros L. apply Nat.ltb_lt in L. rewrite L. reflexivity.
  - intros C Q. rewrite C, Q. cbn [rbind fst snd]. split; [reflexivity|].
    intros L. rewrite (proj2 (Nat.ltb_ge _ _) L). reflexivity.
Qed.
Print Assumptions spiral_number_of_points.

(** C136.  The base sets of the two spirals.  The Fibonacci spiral for a bound [ub] has the
    [ub - 1] points with radius [sqrt (i / ub)], turned by [i] times the golden angle
    [2 pi / phi], where [phi] is the positive number with [phi ^ 2 = phi + 1]; all of them lie
    in the unit disc.  The Archimedean spiral has [ub + 1] points [(b cos b, b sin b)]; the
    arc value [b] starts with zero and grows by [8 / (b + 2)]. *)
Theorem spiral_points : forall ub : nat,
  (forall phi i p, 0 < phi -> phi * phi = phi + 1 ->
    (nth_error (fibonacci_spiral ub) i = Some p <->
     (S i < ub)%nat /\
     p = (sqrt (INR (S i) / INR ub) * cos (INR (S i) * (2 * PI / phi)),
          sqrt (INR (S i) / INR ub) * sin (INR (S i) * (2 * PI / phi))))) /\
  (forall p, In p (fibonacci_spiral ub) -> Rsqr (fst p) + Rsqr (snd p) < 1) /\
  exists b : nat -> R, b 0%nat = 0 /\ (forall k, b (S k) = b k + 8 / (b k + 2)) /\
    (forall k, 0 <= b k) /\
    forall k p, nth_error (archimedean_spiral ub) k = Some p <->
      (k <= ub)%nat /\ p = (b k * cos (b k), b k * sin (b k)).
Proof.
  intros ub. split; [|split].
  - intros phi i p P E.
    assert (phi = (1 + sqrt 5) / 2) as Ephi.
    { assert (sqrt 5 * sqrt 5 = 5) as Q by (apply sqrt_sqrt; lra).
      pose proof (sqrt_pos 5) as Q0.
      assert ((2 * phi - 1 - sqrt 5) * (2 * phi - 1 + sqrt 5) = 0) as Z by nra.
      apply Rmult_integral in Z. destruct Z as [Z|Z]; [lra|]. nra. }
    unfold fibonacci_spiral. rewrite <- Ephi.
    assert (A : forall k : nat, 2 * PI * INR k * / phi = INR k * (2 * PI / phi)) by (intros; field; lra).
    split.
    + intros N. rewrite nth_error_map in N. destruct (nth_error (seq 1 (ub - 1)) i) as [k|] eqn:K; [|discriminate].
      assert (i < ub - 1)%nat as L.
      { rewrite <- (seq_length (ub - 1) 1). apply nth_error_Some. rewrite K. discriminate. }
      apply nth_error_nth with (d := 0%nat) in K.
      rewrite seq_nth in K by exact L. cbn [option_map] in N. injection N as <-. subst k.
      change (1 + i)%nat with (S i). rewrite A. split; [lia|reflexivity].
    + intros [L ->]. rewrite nth_error_map.
      rewrite (List.nth_error_nth' (seq 1 (ub - 1)) 0%nat) by (rewrite seq_length; lia). rewrite seq_nth by lia.
      cbn [option_map]. change (1 + i)%nat with (S i). rewrite A. reflexivity.
  - intros p I. unfold fibonacci_spiral in I. apply in_map_iff in I. destruct I as [k [<- K]].
    apply in_seq in K. cbn [fst snd].
    set (beta := 2 * PI * INR k * / ((1 + sqrt 5) / 2)).
    assert (0 < INR ub) as U by (apply lt_0_INR; lia).
    assert (INR k < INR ub) as KU by (apply lt_INR; lia).
    assert (0 <= INR k) as K0 by apply pos_INR.
    assert (0 <= INR k / INR ub) as Q0.
    { unfold Rdiv. apply Rmult_le_pos; [exact K0|left; apply Rinv_0_lt_compat; exact U]. }
    rewrite !Rsqr_mult, <- Rmult_plus_distr_l, (Rplus_comm (Rsqr (cos beta))), sin2_cos2, Rmult_1_r.
    rewrite Rsqr_sqrt by exact Q0. apply (Rmult_lt_reg_r (INR ub)); [exact U|].
    unfold Rdiv. rewrite Rmult_assoc, Rinv_l by lra. lra.
  - set (b := fix b (k : nat) : R := match k with O => 0 | S k' => b k' + 8 / (b k' + 2) end).
    exists b. split; [reflexivity|]. split; [reflexivity|].
    assert (forall k, 0 <= b k) as B0.
    { induction k as [|k IH]; [cbn; lra|]. change (0 <= b k + 8 / (b k + 2)).
      assert (0 < / (b k + 2)) by (apply Rinv_0_lt_compat; lra). unfold Rdiv. nra. }
    split; [exact B0|].
    assert (forall n m k, nth_error (arc_values n (b m)) k = (if (k <=? n)%nat then Some (b (m + k)%nat) else None)) as A.
    { induction n as [|n IH]; intros m k; cbn [arc_values].
      - destruct k as [|k]; [cbn; rewrite Nat.add_0_r; reflexivity|]. cbn. destruct k; reflexivity.
      - destruct k as [|k]; [cbn [nth_error Nat.leb]; rewrite Nat.add_0_r; reflexivity|].
        cbn [nth_error]. change (b m + 8 / (b m + 2)) with (b (S m)). rewrite IH.
        cbn [Nat.leb]. rewrite Nat.add_succ_r. reflexivity. }
    intros k p. unfold archimedean_spiral. rewrite nth_error_map.
    change (arc_values ub 0) with (arc_values ub (b 0%nat)). rewrite A. cbn [plus].
    destruct (Nat.leb_spec k ub) as [L|L]; cbn [option_map]; split.
    + intros [= <-]. split; [exact L|reflexivity].
    + intros [_ ->]. reflexivity.
    + discriminate.
    + intros [L' _]. lia.
Qed.
Print Assumptions spiral_points.

(** The second point of the Archimedean spiral for any bound from one on. *)
Example spiral_points_example : forall ub, (1 <= ub)%nat ->
  nth_error (archimedean_spiral ub) 1 = Some (4 * cos 4, 4 * sin 4).
Proof.
  intros ub L. destruct (spiral_points ub) as [_ [_ [b [B0 [BS [_ N]]]]]]. apply N. split; [exact L|].
  assert (b 1%nat = 4) as ->; [|reflexivity]. rewrite BS, B0. lra.
Qed.

(* ---- rescaling ---- *)

Lemma rescale_ok : forall n gen fuel lb ub t out, rescale fuel n gen lb ub t = Ok out ->
  length out = n /\ exists t', out = gen t'.
Proof.
  intros n gen. induction fuel as [|f IH]; intros lb ub t out H; cbn [rescale] in H;
    (destruct (Nat.eqb_spec (length (gen t)) n) as [E|E]; [injection H as <-; split; eauto|]).
  - discriminate.
  - destruct (n <? length (gen t)); [destruct ub|]; eauto.
Qed.

Lemma sample_generator_inside : forall base mid qs t p, In p (sample_generator base mid qs t) -> satisfies qs p.
Proof. intros base mid qs t p H. apply filter_In in H. apply inside_iff. tauto. Qed.

(* ---- distances ---- *)

Lemma euclid_sqr : forall p q, euclid p q * euclid p q = Rsqr (fst p - fst q) + Rsqr (snd p - snd q).
Proof.
  intros. unfold euclid. apply sqrt_sqrt.
  pose proof (Rle_0_sqr (fst p - fst q)). pose proof (Rle_0_sqr (snd p - snd q)). lra.
Qed.

Lemma norm2_triangle : forall a b c d, sqrt (Rsqr (a + c) + Rsqr (b + d)) <= sqrt (Rsqr a + Rsqr b) + sqrt (Rsqr c + Rsqr d).
Proof.
  intros a b c d.
  assert (0 <= Rsqr a + Rsqr b) as P1 by (pose proof (Rle_0_sqr a); pose proof (Rle_0_sqr b); lra).
  assert (0 <= Rsqr c + Rsqr d) as P2 by (pose proof (Rle_0_sqr c); pose proof (Rle_0_sqr d); lra).
  assert (0 <= Rsqr (a + c) + Rsqr (b + d)) as P3 by (pose proof (Rle_0_sqr (a + c)); pose proof (Rle_0_sqr (b + d)); lra).
  pose proof (sqrt_pos (Rsqr a + Rsqr b)) as Q1. pose proof (sqrt_pos (Rsqr c + Rsqr d)) as Q2.
  apply Rsqr_incr_0_var; [|lra]. rewrite Rsqr_sqrt by auto. rewrite (Rsqr_plus (sqrt (Rsqr a + Rsqr b)) (sqrt _)), (Rsqr_sqrt (Rsqr a + Rsqr b)), (Rsqr_sqrt (Rsqr c + Rsqr d)) by auto.
  assert (a * c + b * d <= sqrt (Rsqr a + Rsqr b) * sqrt (Rsqr c + Rsqr d)) as C.
  { destruct (Rle_dec (a * c + b * d) 0) as [N|N]; [pose proof (Rmult_le_pos _ _ Q1 Q2); lra|].
    apply Rsqr_incr_0_var; [|apply Rmult_le_pos; auto]. rewrite Rsqr_mult, !Rsqr_sqrt by auto.
    unfold Rsqr. pose proof (Rle_0_sqr (a * d - b * c)) as S. unfold Rsqr in S. nra. }
  unfold Rsqr in *. nra.
Qed.

Lemma norm2_scale : forall w a b, 0 <= w -> sqrt (Rsqr (w * a) + Rsqr (w * b)) = w * sqrt (Rsqr a + Rsqr b).
Proof.
  intros w a b Hw. replace (Rsqr (w * a) + Rsqr (w * b)) with (Rsqr w * (Rsqr a + Rsqr b)) by (unfold Rsqr; ring).
  rewrite sqrt_mult; [|apply Rle_0_sqr|pose proof (Rle_0_sqr a); pose proof (Rle_0_sqr b); lra].
  rewrite sqrt_Rsqr by auto. auto.
Qed.

Lemma hull_distance : forall pts m d q, (forall p, In p pts -> euclid p m < d) -> in_hull pts q -> euclid q m < d.
Proof.
  intros pts m d q HP [ws [HL [HW [HS [Hx Hy]]]]].
  assert (forall ws pts, length ws = length pts -> (forall w, In w ws -> 0 <= w) ->
    (forall p, In p pts -> euclid p m < d) ->
    let x := Rsum (map (fun wp => fst wp * fst (snd wp)) (combine ws pts)) - Rsum ws * fst m in
    let y := Rsum (map (fun wp => fst wp * snd (snd wp)) (combine ws pts)) - Rsum ws * snd m in
    sqrt (Rsqr x + Rsqr y) <= Rsum ws * d /\ (0 < Rsum ws -> sqrt (Rsqr x + Rsqr y) < Rsum ws * d) /\ 0 <= Rsum ws) as G.
  { clear. induction ws as [|w ws IH]; intros [|p pts] HL HW HP; try discriminate.
    - simpl. replace (0 - 0 * fst m) with 0 by ring. replace (0 - 0 * snd m) with 0 by ring.
      rewrite Rsqr_0. replace (0 + 0) with 0 by ring. rewrite sqrt_0. lra.
    - destruct (IH pts) as [I1 [I2 I3]]; auto.
      { intros; apply HW; simpl; auto. } { intros; apply HP; simpl; auto. }
      assert (0 <= w) as Hw by (apply HW; simpl; auto).
      assert (euclid p m < d) as Hp by (apply HP; simpl; auto).
      cbn zeta in *. cbn [combine map Rsum fst snd].
      set (X := Rsum (map (fun wp => fst wp * fst (snd wp)) (combine ws pts))) in *.
      set (Y := Rsum (map (fun wp => fst wp * snd (snd wp)) (combine ws pts))) in *.
      replace (w * fst p + X - (w + Rsum ws) * fst m) with (w * (fst p - fst m) + (X - Rsum ws * fst m)) by ring.
      replace (w * snd p + Y - (w + Rsum ws) * snd m) with (w * (snd p - snd m) + (Y - Rsum ws * snd m)) by ring.
      pose proof (norm2_triangle (w * (fst p - fst m)) (w * (snd p - snd m)) (X - Rsum ws * fst m) (Y - Rsum ws * snd m)) as TR.
      rewrite norm2_scale in TR by auto. fold (euclid p m) in TR.
      assert (0 <= euclid p m) as E0 by apply sqrt_pos.
      pose proof (Rmult_le_compat_l w _ _ Hw (Rlt_le _ _ Hp)) as WE.
      split; [lra|]. split; [|lra]. intros HS. destruct (Rle_lt_or_eq_dec 0 w Hw) as [W|W].
      + pose proof (Rmult_lt_compat_l w _ _ W Hp). lra.
      + subst w. assert (0 < Rsum ws) as S0 by lra. specialize (I2 S0). lra. }
  destruct (G ws pts HL HW HP) as [_ [G2 _]]. cbn zeta in G2. rewrite HS, <- Hx, <- Hy in G2.
  unfold euclid. rewrite !Rmult_1_l in G2. apply G2. lra.
Qed.

(* ---- circles ---- *)

Lemma two_circle_on : forall p q, euclid p (fst (two_circle p q)) = snd (two_circle p q) /\
  euclid q (fst (two_circle p q)) = snd (two_circle p q).
Proof.
  intros [x y] [u v]. unfold two_circle, euclid, dist. cbn [fst snd].
  assert (forall z, 0 <= z -> sqrt (z / 4) = sqrt z / 2) as S4.
  { intros z Hz. replace (z / 4) with (z * (/ 2 * / 2)) by field. rewrite sqrt_mult by lra.
    rewrite sqrt_square by lra. lra. }
  assert (0 <= (x - u) * (x - u) + (y - v) * (y - v)) as P
    by (pose proof (Rle_0_sqr (x - u)) as SQ1; pose proof (Rle_0_sqr (y - v)) as SQ2; unfold Rsqr in SQ1, SQ2; lra).
  rewrite <- (S4 _ P). split; f_equal; unfold Rsqr; field.
Qed.

Lemma three_circle_on : forall p0 p1 p2,
  det3 1 (- fst p0) (- snd p0) 1 (- fst p1) (- snd p1) 1 (- fst p2) (- snd p2) <> 0 ->
  exists c, small_circle [p0; p1; p2] = Ok c /\
    euclid p0 (fst c) = snd c /\ euclid p1 (fst c) = snd c /\ euclid p2 (fst c) = snd c.
Proof.
  intros [x0 y0] [x1 y1] [x2 y2] HD. unfold small_circle. rewrite Reqb_false by auto.
  cbn [fst snd] in *. eexists. split; [reflexivity|]. unfold euclid. cbn [fst snd].
  unfold det3 in *.
  split; [|split]; f_equal; unfold Rsqr; field; lra.
Qed.

(** A point lies in the circle over a diameter iff the angle is not acute. *)
Lemma two_circle_in : forall e a b,
  (fst e - fst a) * (fst e - fst b) + (snd e - snd a) * (snd e - snd b) <= 0 ->
  dist e (fst (two_circle a b)) <= snd (two_circle a b).
Proof.
  intros [x y] [u v] [s t] H. unfold two_circle, dist. cbn [fst snd] in *.
  assert (forall z, 0 <= z -> sqrt z / 2 = sqrt (z / 4)) as S4.
  { intros z Hz. replace (z / 4) with (z * (/ 2 * / 2)) by field. rewrite sqrt_mult by lra.
    rewrite sqrt_square by lra. lra. }
  rewrite S4 by (pose proof (Rle_0_sqr (u - s)) as SQ1; pose proof (Rle_0_sqr (v - t)) as SQ2; unfold Rsqr in SQ1, SQ2; lra).
  apply sqrt_le_1_alt. lra.
Qed.

(** The circle of at most three points contains them; no exception is raised. *)
Theorem small_circle_contains : forall pts, (length pts <= 3)%nat ->
  exists m r, small_circle pts = Ok (m, r) /\ forall p, In p pts -> euclid p m <= r.
Proof.
  intros pts HL. destruct pts as [|p0 [|p1 [|p2 [|p3 pts]]]]; [| | | |simpl in HL; lia].
  - exists (0, 0), 0. split; auto. intros p [].
  - exists p0, 0. split; auto. intros p [<-|[]]. unfold euclid. rewrite !Rminus_diag_eq by auto.
    rewrite Rsqr_0, Rplus_0_r, sqrt_0. lra.
  - exists (fst (two_circle p0 p1)), (snd (two_circle p0 p1)). split; auto.
    destruct (two_circle_on p0 p1) as [A B]. intros p [<-|[<-|[]]]; lra.
  - destruct (Req_EM_T (det3 1 (- fst p0) (- snd p0) 1 (- fst p1) (- snd p1) 1 (- fst p2) (- snd p2)) 0) as [D|D].
    2:{ destruct (three_circle_on p0 p1 p2 D) as [[m r] [E [A [B C]]]]. exists m, r. split; auto.
        cbn [fst snd] in *. intros p [<-|[<-|[<-|[]]]]; lra. }
    unfold small_circle. rewrite Reqb_true by auto. cbn beta zeta.
    assert (forall e a b p, (p = e \/ p = a \/ p = b) -> dist e (fst (two_circle a b)) <= snd (two_circle a b) ->
              euclid p (fst (two_circle a b)) <= snd (two_circle a b)) as IN.
    { intros e a b p Hp He. destruct (two_circle_on a b) as [A B].
      destruct Hp as [->|[->| ->]]; [exact He|lra|lra]. }
    destruct (Rleb_spec (dist p0 (fst (two_circle p1 p2))) (snd (two_circle p1 p2))) as [L0|L0].
    { exists (fst (two_circle p1 p2)), (snd (two_circle p1 p2)). split; auto.
      intros p Hp. apply (IN p0); auto. simpl in Hp. intuition. }
    destruct (Rleb_spec (dist p1 (fst (two_circle p0 p2))) (snd (two_circle p0 p2))) as [L1|L1].
    { exists (fst (two_circle p0 p2)), (snd (two_circle p0 p2)). split; auto.
      intros p Hp. apply (IN p1); auto. simpl in Hp. intuition. }
    destruct (Rleb_spec (dist p2 (fst (two_circle p0 p1))) (snd (two_circle p0 p1))) as [L2|L2].
    { exists (fst (two_circle p0 p1)), (snd (two_circle p0 p1)). split; auto.
      intros p Hp. apply (IN p2); auto. simpl in Hp. intuition. }
    exfalso.
    assert (0 < (fst p0 - fst p1) * (fst p0 - fst p2) + (snd p0 - snd p1) * (snd p0 - snd p2)) as Q0.
    { apply Rnot_le_lt. intros N. apply L0. apply two_circle_in. auto. }
    assert (0 < (fst p1 - fst p0) * (fst p1 - fst p2) + (snd p1 - snd p0) * (snd p1 - snd p2)) as Q1.
    { apply Rnot_le_lt. intros N. apply L1. apply two_circle_in. auto. }
    assert (0 < (fst p2 - fst p0) * (fst p2 - fst p1) + (snd p2 - snd p0) * (snd p2 - snd p1)) as Q2.
    { apply Rnot_le_lt. intros N. apply L2. apply two_circle_in. auto. }
    clear - D Q0 Q1 Q2. destruct p0 as [x0 y0], p1 as [x1 y1], p2 as [x2 y2]. cbn [fst snd] in *. unfold det3 in D.
    set (a := x1 - x0) in *. set (b := y1 - y0) in *. set (c := x2 - x0) in *. set (d := y2 - y0) in *.
    assert (a * d - b * c = 0) as E by (unfold a, b, c, d in *; lra).
    assert (0 < a * c + b * d) as R0 by (unfold a, b, c, d in *; lra).
    assert (0 < a * a + b * b - (a * c + b * d)) as R1 by (unfold a, b, c, d in *; lra).
    assert (0 < c * c + d * d - (a * c + b * d)) as R2 by (unfold a, b, c, d in *; lra).
    clearbody a b c d.
    assert ((a * c + b * d) * (a * c + b * d) = (a * a + b * b) * (c * c + d * d)) as F.
    { replace ((a * a + b * b) * (c * c + d * d)) with ((a * c + b * d) * (a * c + b * d) + (a * d - b * c) * (a * d - b * c)) by ring.
      rewrite E. ring. }
    nra.
Qed.
Print Assumptions small_circle_contains.

Lemma circle_loop_ok : forall eps pts fuel k c i j out,
  (forall i', (i' < i)%nat -> forall p, nth_error pts i' = Some p -> is_in_circle p c eps = true) ->
  (exists s, (forall p, In p s -> In p pts) /\ small_circle s = Ok c) ->
  (forall t, In t k -> (t < length pts)%nat) ->
  circle_loop fuel eps pts k c i j = Ok out ->
  (forall p, In p pts -> is_in_circle p out eps = true) /\
  exists s, (forall p, In p s -> In p pts) /\ small_circle s = Ok out.
Proof.
  intros eps pts. induction fuel as [|f IH]; intros k c i j out HI HS HK H; cbn [circle_loop] in H;
    destruct (nth_error pts i) as [p|] eqn:EP.
  - discriminate.
  - injection H as <-. split; auto. intros p Hp. apply In_nth_error in Hp. destruct Hp as [i' Hi'].
    apply (HI i'); auto. apply nth_error_None in EP.
    assert (i' < length pts)%nat by (apply nth_error_Some; congruence). lia.
  - assert (i < length pts)%nat as Hi by (apply nth_error_Some; congruence).
    destruct (is_in_circle p c eps) eqn:EC.
    + apply IH in H; auto. intros i' Hi' q Hq. destruct (Nat.eq_dec i' i) as [->|]; [congruence|].
      apply (HI i'); auto. lia.
    + set (k' := if (i =? j)%nat then [i] else filter (fun t => (i <? t)%nat) k ++ [i]) in *.
      assert (forall t, In t k' -> (t < length pts)%nat) as HK'.
      { intros t Ht. unfold k' in Ht. destruct (i =? j)%nat.
        - destruct Ht as [<-|[]]; auto.
        - apply in_app_or in Ht. destruct Ht as [Ht|[<-|[]]]; auto. apply filter_In in Ht. apply HK. tauto. }
      destruct (small_circle (map (fun t => nth t pts (0, 0)) k')) as [c'|] eqn:ES; cbn [rbind] in H; [|discriminate].
      apply IH in H; auto.
      * intros i' Hi'. lia.
      * exists (map (fun t => nth t pts (0, 0)) k'). split; auto. intros q Hq. apply in_map_iff in Hq.
        destruct Hq as [t [<- Ht]]. apply nth_In. auto.
  - injection H as <-. split; auto. intros p Hp. apply In_nth_error in Hp. destruct Hp as [i' Hi'].
    apply (HI i'); auto. apply nth_error_None in EP.
    assert (i' < length pts)%nat by (apply nth_error_Some; congruence). lia.
Qed.

(** C56: if the computation returns, every point lies in the circle up to the tolerance,
    and the circle is the small circle of at most three of the points. *)
Theorem make_circle_encloses : forall fuel eps pts shuffled m r, Permutation pts shuffled ->
  make_circle fuel eps shuffled = Ok (m, r) ->
  (forall p, In p pts -> euclid p m < r + eps) /\
  exists s, (length s <= 3)%nat /\ (forall p, In p s -> In p pts) /\ small_circle s = Ok (m, r) /\
    forall p, In p s -> euclid p m <= r.
Proof.
  intros fuel eps pts shuffled m r HP H. unfold make_circle in H. cbn [small_circle rbind] in H.
  apply circle_loop_ok in H.
  - destruct H as [H1 [s [S1 S2]]]. split.
    + intros p Hp. apply (Permutation_in p HP) in Hp. specialize (H1 p Hp). unfold is_in_circle in H1.
      apply Rltb_lt in H1. exact H1.
    + assert (length s <= 3)%nat as L3.
      { destruct s as [|? [|? [|? [|? ?]]]]; simpl; try lia. discriminate. }
      exists s. split; auto. split.
      { intros p Hp. apply (Permutation_in p (Permutation_sym HP)). auto. }
      split; auto. destruct (small_circle_contains s L3) as [m' [r' [E C]]]. rewrite S2 in E. injection E as <- <-. auto.
  - intros i' Hi'. lia.
  - exists []. split; auto. intros p [].
  - intros t [].
Qed.
Print Assumptions make_circle_encloses.

(** C55 for the spiral samplers: if one returns, it returns the requested number of points,
    all satisfy the inequalities of the hull; when these describe the convex hull, the
    points lie in the hull and in the enclosing circle up to the tolerance. *)
Theorem spiral_sample_ok : forall hull spiral need fuel1 fuel2 n eps pts shuffled out,
  Permutation pts shuffled ->
  spiral_sample hull spiral need fuel1 fuel2 n eps pts shuffled = Ok out ->
  length out = n /\ exists qs v m r, hull pts = Ok (qs, v) /\ make_circle fuel1 eps shuffled = Ok (m, r) /\
    (forall p, In p out -> satisfies qs p) /\
    ((forall q, satisfies qs q -> in_hull pts q) -> forall p, In p out -> in_hull pts p /\ euclid p m < r + eps).
Proof.
  intros hull spiral need fuel1 fuel2 n eps pts shuffled out HP H. unfold spiral_sample in H.
  destruct (length pts <? need)%nat; [discriminate|].
  destruct (make_circle fuel1 eps shuffled) as [[m r]|] eqn:EC; cbn [rbind] in H; [|discriminate].
  destruct (hull pts) as [[qs v]|] eqn:EH; cbn [rbind] in H; [|discriminate].
  unfold binary_rescale in H. apply rescale_ok in H. destruct H as [H1 [t ->]]. cbn [fst snd] in *.
  split; auto. exists qs, v, m, r. split; auto. split; auto.
  assert (forall p, In p (sample_generator (spiral (spiral_size r v n)) m qs t) -> satisfies qs p) as HS.
  { intros p Hp. eapply sample_generator_inside; eauto. }
  split; auto. intros HH p Hp. specialize (HH p (HS p Hp)). split; auto.
  eapply hull_distance; [|exact HH]. apply (make_circle_encloses fuel1 eps pts shuffled m r HP EC).
Qed.
Print Assumptions spiral_sample_ok.

(* ---- termination of the rescaling ---- *)

Section Terminates.
  Variable gen : R -> list pt.
  Variable n : nat.
  Variables a b : R.
  Hypothesis mono : forall s t, 0 <= s <= t -> (length (gen t) <= length (gen s))%nat.
  Hypothesis Ha : 0 <= a < b.
  Hypothesis good : forall t, a < t < b -> length (gen t) = n.

  Lemma many_left : forall t, 0 <= t -> (n < length (gen t))%nat -> t <= a.
  Proof.
    intros t Ht H. apply Rnot_lt_le. intros L.
    destruct (Rlt_le_dec t b) as [C|C]; [rewrite good in H; auto; lia|].
    pose proof (mono ((a + b) / 2) t ltac:(lra)) as M. rewrite (good ((a + b) / 2)) in M by lra. lia.
  Qed.

  Lemma few_right : forall t, 0 <= t -> (length (gen t) < n)%nat -> b <= t.
  Proof.
    intros t Ht H. apply Rnot_lt_le. intros L.
    destruct (Rlt_le_dec a t) as [C|C]; [rewrite good in H; auto; lia|].
    pose proof (mono t ((a + b) / 2) ltac:(lra)) as M. rewrite (good ((a + b) / 2)) in M by lra. lia.
  Qed.

  Lemma bisect_ends : forall N lb ub, 0 <= lb <= a -> b <= ub -> ub - lb < 2 ^ N * (b - a) ->
    exists out, rescale N n gen lb (Some ub) ((ub + lb) / 2) = Ok out.
  Proof.
    induction N as [|N IH]; intros lb ub H1 H2 HW.
    - simpl in HW. lra.
    - cbn [rescale]. destruct (Nat.eqb_spec (length (gen ((ub + lb) / 2))) n) as [E|E]; [eauto|].
      simpl in HW.
      destruct (Nat.ltb_spec n (length (gen ((ub + lb) / 2)))) as [L|L].
      + apply many_left in L; [|lra]. apply IH; lra.
      + assert (length (gen ((ub + lb) / 2)) < n)%nat as L' by lia. apply few_right in L'; [|lra].
        apply IH; lra.
  Qed.

  Lemma doubling_ends : forall N lb t, 0 <= lb <= a -> 0 < t -> a < 2 ^ N * t ->
    exists fuel out, rescale fuel n gen lb None t = Ok out.
  Proof.
    induction N as [|N IH]; intros lb t Hl Ht HW.
    - simpl in HW. destruct (Nat.eq_dec (length (gen t)) n) as [E|E].
      { exists 0%nat. cbn [rescale]. rewrite (proj2 (Nat.eqb_eq _ _) E). eauto. }
      assert (length (gen t) < n)%nat as L.
      { destruct (Nat.lt_trichotomy (length (gen t)) n) as [L|[L|L]]; auto; [lia|]. apply many_left in L; lra. }
      apply few_right in L as L2; [|lra].
      destruct (Pow_x_infinity 2 ltac:(rewrite Rabs_right; lra) ((t + 1) / (b - a))) as [M HM].
      specialize (HM M (le_n M)).
      rewrite Rabs_right in HM by (apply Rle_ge, pow_le; lra).
      destruct (bisect_ends M lb t Hl L2) as [out Hout].
      { apply Rge_le in HM. apply (Rmult_le_compat_r (b - a)) in HM; [|lra].
        unfold Rdiv in HM. rewrite Rmult_assoc, Rinv_l in HM by lra. lra. }
      exists (S M), out. cbn [rescale]. rewrite (proj2 (Nat.eqb_neq _ _) E).
      destruct (Nat.ltb_spec n (length (gen t))); [lia|]. auto.
    - destruct (Nat.eq_dec (length (gen t)) n) as [E|E].
      { exists 0%nat. cbn [rescale]. rewrite (proj2 (Nat.eqb_eq _ _) E). eauto. }
      destruct (Nat.lt_trichotomy (length (gen t)) n) as [L|[L|L]]; [|lia|].
      + apply few_right in L as L2; [|lra].
        destruct (Pow_x_infinity 2 ltac:(rewrite Rabs_right; lra) ((t + 1) / (b - a))) as [M HM].
        specialize (HM M (le_n M)).
        rewrite Rabs_right in HM by (apply Rle_ge, pow_le; lra).
        destruct (bisect_ends M lb t Hl L2) as [out Hout].
        { apply Rge_le in HM. apply (Rmult_le_compat_r (b - a)) in HM; [|lra].
          unfold Rdiv in HM. rewrite Rmult_assoc, Rinv_l in HM by lra. lra. }
        exists (S M), out. cbn [rescale]. rewrite (proj2 (Nat.eqb_neq _ _) E).
        destruct (Nat.ltb_spec n (length (gen t))); [lia|]. auto.
      + apply many_left in L as L2; [|lra].
        destruct (IH t (t * 2)) as [f [out Hf]]; try lra. { simpl in HW. lra. }
        exists (S f), out. cbn [rescale]. rewrite (proj2 (Nat.eqb_neq _ _) E).
        destruct (Nat.ltb_spec n (length (gen t))); [|lia]. auto.
  Qed.
End Terminates.

Lemma generator_mono : forall base mid qs s t, satisfies qs mid -> 0 <= s <= t ->
  (length (sample_generator base mid qs t) <= length (sample_generator base mid qs s))%nat.
Proof.
  intros base mid qs s t HM Hst. unfold sample_generator.
  induction base as [|p base IH]; cbn [map filter]; auto.
  destruct (inside qs (fst mid + t * fst p, snd mid + t * snd p)) eqn:Et.
  - assert (inside qs (fst mid + s * fst p, snd mid + s * snd p) = true) as ->; [|simpl; lia].
    apply inside_iff. apply inside_iff in Et. intros a b c HI. specialize (Et a b c HI). specialize (HM a b c HI).
    cbn [fst snd] in *.
    destruct (Req_EM_T t 0) as [->|NT]. { assert (s = 0) as -> by lra. lra. }
    assert (a * (fst mid + s * fst p) + b * (snd mid + s * snd p) + c =
            (s / t) * (a * (fst mid + t * fst p) + b * (snd mid + t * snd p) + c) +
            (1 - s / t) * (a * fst mid + b * snd mid + c)) as -> by (field; auto).
    assert (0 <= s / t <= 1) as [B1 B2].
    { split; [apply Rmult_le_pos; [lra|apply Rlt_le, Rinv_0_lt_compat; lra]|].
      apply (Rmult_le_reg_r t); [lra|]. unfold Rdiv. rewrite Rmult_assoc, Rinv_l by lra. lra. }
    nra.
  - destruct (inside qs (fst mid + s * fst p, snd mid + s * snd p)); simpl; lia.
Qed.

(** C55, termination: when the centre lies in the hull and an interval of scales gives the
    requested number of points, the rescaling terminates with it. *)
Theorem rescale_terminates : forall base mid qs n a b start, satisfies qs mid -> 0 <= a < b ->
  (forall t, a < t < b -> length (sample_generator base mid qs t) = n) -> 0 < start ->
  exists fuel out, binary_rescale fuel n (sample_generator base mid qs) start = Ok out /\ length out = n.
Proof.
  intros base mid qs n a b start HM Hab HG Hs.
  destruct (Pow_x_infinity 2 ltac:(rewrite Rabs_right; lra) ((a + 1) / start)) as [N HN].
  specialize (HN N (le_n N)).
  rewrite Rabs_right in HN by (apply Rle_ge, pow_le; lra).
  destruct (doubling_ends (sample_generator base mid qs) n a b) with (N := N) (lb := 0) (t := start) as [f [out Hf]]; auto.
  - intros. apply generator_mono; auto.
  - lra.
  - apply Rge_le in HN. apply (Rmult_le_compat_r start) in HN; [|lra].
    unfold Rdiv in HN. rewrite Rmult_assoc, Rinv_l in HN by lra. lra.
  - exists f, out. split; auto. eapply rescale_ok; eauto.
Qed.
Print Assumptions rescale_terminates.

(** The square with corners (+-1, +-1). *)
Definition square : list ineq := [(1, 0, -1); (-1, 0, -1); (0, 1, -1); (0, -1, -1)].

Lemma square_iff : forall x y, inside square (x, y) = true <-> (-1 <= x <= 1 /\ -1 <= y <= 1).
Proof.
  intros x y. rewrite inside_iff. unfold satisfies, square. cbn [fst snd]. split.
  - intros H. pose proof (H 1 0 (-1)). pose proof (H (-1) 0 (-1)). pose proof (H 0 1 (-1)). pose proof (H 0 (-1) (-1)).
    simpl in *. intuition lra.
  - intros H a b c [E|[E|[E|[E|[]]]]]; injection E as <- <- <-; lra.
Qed.

Example rescale_terminates_meets : satisfies square (0, 0) /\
  (forall t, 1 / 2 < t < 1 -> length (sample_generator [(1, 0); (2, 0)] (0, 0) square t) = 1%nat).
Proof.
  split; [apply inside_iff, square_iff; lra|]. intros t Ht. unfold sample_generator. cbn [map fst snd filter].
  assert (inside square (0 + t * 1, 0 + t * 0) = true) as -> by (apply square_iff; lra).
  assert (inside square (0 + t * 2, 0 + t * 0) = false) as ->; auto.
  apply not_true_is_false. intros H. apply square_iff in H. lra.
Qed.

(** C55, refuted part: the rescaling need not terminate: when two points leave the hull at
    the same scale, the requested number of points is never reached. *)
Theorem rescale_diverges_refuted : exists base mid qs n start, satisfies qs mid /\ (n <= length base)%nat /\ 0 < start /\
  forall fuel, binary_rescale fuel n (sample_generator base mid qs) start = Raise OutOfFuel.
Proof.
  exists [(1, 0); (-1, 0)], (0, 0), square, 1%nat, 1.
  split; [apply inside_iff, square_iff; lra|]. split; [simpl; lia|]. split; [lra|].
  assert (forall t, length (sample_generator [(1, 0); (-1, 0)] (0, 0) square t) <> 1%nat) as NE.
  { intros t. unfold sample_generator. cbn [map fst snd filter].
    destruct (inside square (0 + t * 1, 0 + t * 0)) eqn:E1, (inside square (0 + t * -1, 0 + t * 0)) eqn:E2;
      cbn [length]; try discriminate; exfalso.
    - apply square_iff in E1. assert (inside square (0 + t * -1, 0 + t * 0) = true); [|congruence]. apply square_iff. lra.
    - apply square_iff in E2. assert (inside square (0 + t * 1, 0 + t * 0) = true); [|congruence]. apply square_iff. lra. }
  intros fuel. unfold binary_rescale.
  assert (forall fuel lb ub t, rescale fuel 1 (sample_generator [(1, 0); (-1, 0)] (0, 0) square) lb ub t = Raise OutOfFuel) as G; auto.
  induction fuel0 as [|f IH]; intros lb ub t; cbn [rescale]; specialize (NE t); apply Nat.eqb_neq in NE; rewrite NE; auto.
  destruct (_ <? _)%nat; [destruct ub|]; auto.
Qed.
Print Assumptions rescale_diverges_refuted.

(** A run of the random sampler: the generator returns the lower bound each time. *)
Example uniform_sample_meets :
  let uniform := fun (_ : nat) (lo _ : R) (m : nat) => repeat lo m in
  uniform_sample uniform (fun _ => Ok (square, 4)) 1 2 [(-1, -1); (1, 1); (1, -1)] = Ok [(-1, -1); (-1, -1)].
Proof.
  cbn zeta. unfold uniform_sample. cbn [rbind].
  assert (create_bounds [(-1, -1); (1, 1); (1, -1)] = Ok ((-1, 1), (-1, 1))) as ->.
  { unfold create_bounds, nminimum, nmaximum. cbn [map fst snd fold_left rbind]. rewrite !nmin_R, !nmax_R.
    unfold Rmin, Rmax. repeat destruct (Rle_dec _ _); try lra; reflexivity. }
  cbn [rbind fst snd uniform_loop length Nat.leb Nat.sub repeat combine filter app].
  assert (inside square (-1, -1) = true) as -> by (apply square_iff; lra). reflexivity.
Qed.

(** A run of the circle computation: the second point is not in the circle of the first. *)
Example make_circle_meets : make_circle 9 (1 / 10) [(0, 0); (2, 0)] = Ok ((1, 0), 1).
Proof.
  assert (forall x r, 0 <= x -> dist (x, 0) (r, 0) = Rabs (x - r)) as DX.
  { intros x r _. unfold dist. cbn [fst snd]. replace ((x - r) * (x - r) + (0 - 0) * (0 - 0)) with (Rsqr (x - r)) by (unfold Rsqr; ring).
    apply sqrt_Rsqr_abs. }
  assert (two_circle (2, 0) (0, 0) = ((1, 0), 1)) as TC.
  { unfold two_circle. cbn [fst snd]. rewrite DX by lra. rewrite Rabs_right by lra. f_equal; [f_equal; field|field]. }
  unfold make_circle. cbn [small_circle rbind].
  assert (forall x r e, 0 <= x -> is_in_circle (x, 0) ((r, 0), e) (1 / 10) = Rltb (Rabs (x - r)) (e + 1 / 10)) as IC.
  { intros x r e Hx. unfold is_in_circle. cbn [fst snd]. rewrite DX by auto. auto. }
  repeat first
   [ rewrite TC
   | progress cbn [circle_loop nth_error Nat.max Nat.eqb rbind small_circle map nth filter app Nat.ltb Nat.leb]
   | rewrite IC by lra
   | rewrite (Rltb_true (Rabs _)) by (unfold Rabs; destruct (Rcase_abs _); lra)
   | rewrite (Rltb_false (Rabs _)) by (unfold Rabs; destruct (Rcase_abs _); lra) ].
  reflexivity.
Qed.

Example spiral_sample_meets :
  spiral_sample (fun _ => Ok (square, 4)) (fun _ => [(-1, 0); (2, 0)]) 2 9 0 1 (1 / 10) [(0, 0); (2, 0)] [(0, 0); (2, 0)] = Ok [(0, 0)].
Proof.
  unfold spiral_sample. cbn [length Nat.ltb Nat.leb]. rewrite make_circle_meets. cbn [rbind fst snd].
  unfold binary_rescale, sample_generator. cbn [rescale map fst snd filter].
  replace (1 + 1 * -1, 0 + 1 * 0) with (0, 0) by (f_equal; ring).
  assert (inside square (0, 0) = true) as -> by (apply square_iff; lra).
  assert (inside square (1 + 1 * 2, 0 + 1 * 0) = false) as ->; auto.
  apply not_true_is_false. intros H. apply square_iff in H. lra.
Qed.

Print Assumptions uniform_sample_ok.
