From Coq Require Import List Bool Arith ZArith Reals Lra Lia Psatz Permutation Sorted.
From Verif Require Import Py Num PySort NhoodModel NhoodSpec.
Import ListNotations.
Open Scope R_scope.

Lemma marks_map : forall A (f : A -> bool) (S : A -> Prop) pts,
  (forall p, In p pts -> (f p = true <-> S p)) -> marks (MList (map f pts)) pts S.
Proof.
  intros A f S pts H. exists (map f pts). split; [reflexivity|]. split; [apply map_length|].
  intros i p Hp. rewrite nth_error_map, Hp. simpl.
  rewrite <- (H p (nth_error_In _ _ Hp)). destruct (f p); split; congruence.
Qed.

Lemma ball_ok : forall A (norm : A -> R) norm_all norm_one radius pts,
  (norm_all pts = Ok (map norm pts) \/
   ((norm_all pts = Raise ValueError \/ norm_all pts = Raise IndexError) /\
    forall p, In p pts -> norm_one p = Ok (norm p))) ->
  exists m, ball_contains norm_all norm_one radius pts = Ok m /\
            marks m pts (fun p => norm p <= radius).
Proof.
  intros A norm norm_all norm_one radius pts H.
  assert (marks (MList (map (fun p => Rleb (norm p) radius) pts)) pts (fun p => norm p <= radius)) as M.
  { apply marks_map. intros. apply Rleb_le. }
  unfold ball_contains. destruct H as [H|[H1 H2]].
  - rewrite H. eexists. split; [reflexivity|]. rewrite map_map. exact M.
  - assert (mapM (fun pt => do d <- norm_one pt; Ok (nleb d radius)) pts =
            Ok (map (fun p => Rleb (norm p) radius) pts)) as E.
    { apply mapM_Ok_map. intros x Hx. rewrite H2 by auto. reflexivity. }
    destruct H1 as [-> | ->]; rewrite E; simpl; eexists; (split; [reflexivity|exact M]).
Qed.

(* ---- scaling ball ---- *)

Lemma filter_perm : forall A (p : A -> bool) l1 l2, Permutation l1 l2 ->
  Permutation (filter p l1) (filter p l2).
Proof.
  induction 1; simpl.
  - constructor.
  - destruct (p x); auto.
  - destruct (p x), (p y); try reflexivity. apply perm_swap.
  - etransitivity; eauto.
Qed.

Lemma count_perm : forall A (p : A -> bool) l1 l2, Permutation l1 l2 -> count p l1 = count p l2.
Proof. intros. unfold count. apply Permutation_length. apply filter_perm; auto. Qed.

Lemma count_firstn : forall A (p : A -> bool) l k, (k <= length l)%nat ->
  (forall i x, (i < k)%nat -> nth_error l i = Some x -> p x = true) -> (k <= count p l)%nat.
Proof.
  intros A p. induction l as [|a l IH]; intros k L H; simpl in L; [lia|].
  destruct k as [|k]; [lia|]. unfold count. simpl.
  rewrite (H 0%nat a ltac:(lia) eq_refl). simpl. apply le_n_S. apply IH; [lia|].
  intros i x Hi Hx. apply (H (S i) x); auto; lia.
Qed.

Lemma count_upto : forall A (p : A -> bool) l k,
  (forall i x, (k <= i)%nat -> nth_error l i = Some x -> p x = false) -> (count p l <= k)%nat.
Proof.
  intros A p. induction l as [|a l IH]; intros k H; unfold count; simpl; [lia|].
  destruct k as [|k].
  - rewrite (H 0%nat a ltac:(lia) eq_refl).
    apply (IH 0%nat). intros i x Hi Hx. apply (H (S i) x); auto; lia.
  - specialize (IH k). assert (count p l <= k)%nat as L.
    { apply IH. intros i x Hi Hx. apply (H (S i) x); auto; lia. }
    unfold count in L. destruct (p a); simpl; lia.
Qed.

Lemma Rle_total' : forall x y : R, nleb x y = true \/ nleb y x = true.
Proof. intros. rnum. rewrite !Rleb_le. lra. Qed.
Lemma Rle_trans' : forall x y z : R, nleb x y = true -> nleb y z = true -> nleb x z = true.
Proof. intros x y z. rnum. rewrite !Rleb_le. lra. Qed.

Lemma sorted_R : forall l : list R, StronglySorted Rle (py_sorted nleb l).
Proof.
  intros l. pose proof (py_sorted_sorted (@nleb R _) Rle_total' Rle_trans' l) as S.
  induction S as [|a r S IH F]; constructor; auto.
  eapply Forall_impl; [|exact F]. intros b Hb. unfold leP in Hb. rnum. apply Rleb_le; auto.
Qed.

Lemma sorted_kth : forall (ds : list R) k r,
  nth_error (py_sorted nleb ds) k = Some r -> kth_smallest ds (S k) r.
Proof.
  intros ds k r H. pose proof (sorted_R ds) as S. set (s := py_sorted nleb ds) in *.
  assert (Permutation s ds) as P by apply py_sorted_perm.
  split; [|split].
  - eapply Permutation_in; [exact P|]. eapply nth_error_In; eauto.
  - rewrite <- (count_perm _ _ _ _ P). apply count_firstn.
    + apply nth_error_Some. congruence.
    + intros i x Hi Hx. apply Rleb_le. destruct (Nat.eq_dec i k) as [->|N].
      * rewrite H in Hx. inversion Hx. lra.
      * eapply StronglySorted_nth with (i := i) (j := k); eauto. lia.
  - rewrite <- (count_perm _ _ _ _ P). apply Nat.le_lt_trans with k; [|lia]. apply count_upto.
    intros i x Hi Hx. apply Rltb_false. destruct (Nat.eq_dec i k) as [->|N].
    + rewrite H in Hx. inversion Hx. lra.
    + eapply StronglySorted_nth with (i := k) (j := i); eauto. lia.
Qed.

Lemma scaling_ball_ok : forall A (norm : A -> R) norm_all k (pts : list A),
  rowwise norm norm_all -> (0 < k <= length pts)%nat ->
  exists m r, scaling_ball_contains norm_all (Z.of_nat k) pts = Ok m /\
    kth_smallest (map norm pts) k r /\ marks m pts (fun p => norm p <= r) /\
    (k <= count (fun p => Rleb (norm p) r) pts)%nat.
Proof.
  intros A norm norm_all k pts RW L. destruct pts as [|p0 pts]; [simpl in L; lia|].
  unfold scaling_ball_contains. rewrite RW. cbn [rbind].
  replace (Z.to_nat (Z.of_nat k - 1)) with (k - 1)%nat by lia.
  destruct (nth_error (py_sorted nleb (map norm (p0 :: pts))) (k - 1)) as [r|] eqn:E.
  - unfold py_nth. rewrite E. cbn [rbind]. exists (MList (map (fun d => nleb d r) (map norm (p0 :: pts)))), r.
    split; [reflexivity|]. apply sorted_kth in E. replace (S (k - 1)) with k in E by lia.
    split; [exact E|]. split.
    + rewrite map_map. apply marks_map. intros. apply Rleb_le.
    + destruct E as [_ [E _]]. clear - E. unfold count in *.
      replace (length (filter (fun p => Rleb (norm p) r) (p0 :: pts)))
        with (length (filter (fun d => Rleb d r) (map norm (p0 :: pts)))); auto.
      generalize (p0 :: pts). induction l as [|a l IH]; simpl; auto.
      destruct (Rleb (norm a) r); simpl; lia.
  - apply nth_error_None in E. rewrite py_sorted_length, map_length in E. lia.
Qed.

Lemma scaling_ball_few : forall A (norm : A -> R) norm_all k (pts : list A),
  rowwise norm norm_all -> pts <> [] -> (length pts < k)%nat ->
  scaling_ball_contains norm_all (Z.of_nat k) pts = Raise IndexError.
Proof.
  intros A norm norm_all k pts RW NE L. destruct pts as [|p0 pts]; [contradiction|].
  unfold scaling_ball_contains. rewrite RW. cbn [rbind]. unfold py_nth.
  destruct (nth_error _ _) as [r|] eqn:E; auto.
  assert (nth_error (py_sorted nleb (map norm (p0 :: pts))) (Z.to_nat (Z.of_nat k - 1)) <> None) as N
    by congruence.
  apply nth_error_Some in N. rewrite py_sorted_length, map_length in N. lia.
Qed.

(* ---- ellipsoid ---- *)

Lemma app2_times : forall (m : (R * R) * (R * R)) y, app2 m y = times m y.
Proof. intros [[a b] [c d]] [x y]. reflexivity. Qed.

Lemma inv2_spec : forall (m : (R * R) * (R * R)) x y, determinant m <> 0 ->
  (times (inv2 m) x = y <-> times m y = x).
Proof.
  intros [[a b] [c d]] [x1 x2] [y1 y2] D. unfold determinant in D. simpl in D.
  unfold times, inv2, det2. simpl. rnum. split; intros E; inversion E; subst; f_equal; field; auto.
Qed.

Lemma ellipsoid_new_ok : forall m radius,
  (determinant m <> 0 /\ 0 < radius -> ellipsoid_new (Some m) radius = Ok (inv2 m, radius)) /\
  (determinant m = 0 \/ radius <= 0 -> ellipsoid_new (Some m) radius = Raise ValueError).
Proof.
  intros [[a b] [c d]] radius. unfold ellipsoid_new, determinant, det2. simpl. rnum.
  split; intros H.
  - rewrite Reqb_false by tauto. rewrite Rleb_false by lra. reflexivity.
  - destruct (Reqb_spec (a * d - b * c) 0); auto. destruct H as [H|H]; [contradiction|].
    rewrite Rleb_true by lra. reflexivity.
Qed.

Lemma ellipsoid_ok : forall norm norm_all m radius pts,
  rowwise norm norm_all -> pts <> [] -> determinant m <> 0 ->
  exists k, ellipsoid_contains norm_all (inv2 m, radius) pts = Ok k /\
    marks k pts (fun p => exists y, times m y = p /\ norm y <= radius).
Proof.
  intros norm norm_all m radius pts RW NE D. destruct pts as [|p0 pts]; [contradiction|].
  unfold ellipsoid_contains. rewrite RW. cbn [rbind fst snd]. eexists. split; [reflexivity|].
  rewrite !map_map. apply marks_map. intros p _. rewrite app2_times. rnum. rewrite Rleb_le. split.
  - intros H. exists (times (inv2 m) p). split; auto. apply inv2_spec; auto.
  - intros [y [E H]]. apply inv2_spec in E; auto. rewrite E. auto.
Qed.

(* ---- cuboid, polytope ---- *)

Lemma cuboid_ok : forall norm size pts,
  marks (cuboid_contains norm size pts) pts
    (fun p => norm (fst p) <= fst size /\ norm (snd p) <= snd size).
Proof.
  intros. unfold cuboid_contains. apply marks_map. intros p _. rnum.
  rewrite andb_true_iff, !Rleb_le. tauto.
Qed.

Lemma polytope_loop : forall (ibs : list (list R * R)) (pts : list (R * R)) (m : list bool),
  length m = length pts ->
  fold_left
    (fun m ib => map (fun mp => fst mp && nleb (ineq_val (fst ib) (snd mp)) (snd ib)) (combine m pts))
    ibs m =
  map (fun mp => fst mp && forallb (fun ib => nleb (ineq_val (fst ib) (snd mp)) (snd ib)) ibs)
      (combine m pts).
Proof.
  induction ibs as [|ib ibs IH]; intros pts m L; simpl.
  - clear - L. revert m L. induction pts as [|p pts IH]; intros [|b m] L; simpl in *; try discriminate; auto.
    rewrite andb_true_r. f_equal. apply IH. lia.
  - rewrite IH.
    + clear - L. revert m L. induction pts as [|p pts IH]; intros [|b m] L; simpl in *; try discriminate; auto.
      f_equal; [|apply IH; lia]. rewrite andb_assoc. reflexivity.
    + rewrite map_length, combine_length. lia.
Qed.

Lemma combine_true : forall A (pts : list A),
  combine (map (fun _ => true) pts) pts = map (fun p => (true, p)) pts.
Proof. induction pts; simpl; congruence. Qed.

Lemma polytope_ok : forall mat b pts, pts <> [] ->
  (forall row, In row mat -> length row = 2%nat) -> length b = length mat ->
  marks (polytope_contains mat b pts) pts
    (fun p => forall i row bound, nth_error mat i = Some row -> nth_error b i = Some bound ->
       nth 0 row 0 * fst p + nth 1 row 0 * snd p <= bound).
Proof.
  intros mat b pts NE W L. destruct pts as [|p0 pts0]; [contradiction|].
  unfold polytope_contains. rewrite polytope_loop by (rewrite map_length; reflexivity).
  rewrite combine_true, map_map. apply marks_map. intros p _.
  cbn [fst snd andb]. rewrite forallb_forall. split.
  - intros H i row bound Hr Hb.
    assert (In (row, bound) (combine mat b)) as I.
    { apply nth_error_In with i. clear - Hr Hb. revert b i Hr Hb.
      induction mat as [|x mat IH]; intros [|y b] [|i] Hr Hb; simpl in *; try discriminate.
      - congruence.
      - apply IH; auto. }
    specialize (H _ I). cbn [fst snd] in H. rnum. apply Rleb_le in H.
    assert (length row = 2%nat) as W2 by (apply W; eapply nth_error_In; eauto).
    destruct row as [|r0 [|r1 [|]]]; simpl in W2; try discriminate. exact H.
  - intros H [row bound] I. cbn [fst snd]. rnum. apply Rleb_le.
    apply In_nth_error in I. destruct I as [i Hi].
    assert (nth_error mat i = Some row /\ nth_error b i = Some bound) as [Hr Hb].
    { clear - Hi. revert b i Hi. induction mat as [|x mat IH]; intros [|y b] [|i] Hi; simpl in *; try discriminate.
      - inversion Hi; auto.
      - apply IH; auto. }
    specialize (H i row bound Hr Hb).
    assert (length row = 2%nat) as W2 by (apply W; eapply nth_error_In; eauto).
    destruct row as [|r0 [|r1 [|]]]; simpl in W2; try discriminate. exact H.
Qed.
