From Coq Require Import List Bool Arith ZArith Reals Lra Lia Permutation Sorted.
From Verif Require Import Py Num PySort ListX WPointsModel NhoodModel NhoodProofs InterpModel TableModel TableSpec TableProofs.
Import ListNotations.
Open Scope R_scope.

(* ---- masked assignment ---- *)

Definition ntrue (m : list bool) : nat := length (filter (fun b => b) m).

Lemma assign_row_spec : forall row m (vals : list R), length m = length row ->
  (ntrue m <= length vals)%nat ->
  snd (assign_row row m vals) = skipn (ntrue m) vals /\
  length (fst (assign_row row m vals)) = length row /\
  (forall k x, nth_error row k = Some x -> nth_error m k = Some false ->
     nth_error (fst (assign_row row m vals)) k = Some x) /\
  (forall k, nth_error m k = Some true ->
     nth_error (fst (assign_row row m vals)) k = nth_error vals (ntrue (firstn k m))).
Proof.
  induction row as [|x row IH]; intros [|c m] vals L C; simpl in L; try discriminate.
  - simpl. repeat split; auto. intros k H. destruct k; discriminate.
  - injection L as L. destruct c; simpl.
    + unfold ntrue in C. simpl in C. destruct vals as [|v vals]; simpl in C; [lia|].
      assert (ntrue m <= length vals)%nat as C' by (unfold ntrue; lia).
      destruct (IH m vals L C') as [I1 [I2 [I3 I4]]].
      destruct (assign_row row m vals) as [r' rest]. simpl in *. repeat split; auto.
      * intros [|k] y H1 H2; simpl in *; [discriminate|]. auto.
      * intros [|k] H; simpl in *; auto. rewrite I4 by auto. reflexivity.
    + assert (ntrue m <= length vals)%nat as C' by (unfold ntrue in *; simpl in C; lia).
      destruct (IH m vals L C') as [I1 [I2 [I3 I4]]].
      destruct (assign_row row m vals) as [r' rest]. simpl in *. repeat split; auto.
      * intros [|k] y H1 H2; simpl in *; auto.
      * intros [|k] H; simpl in *; [discriminate|]. rewrite I4; auto.
Qed.

Definition nsel (m : list (list bool)) : nat := length (filter (fun b => b) (concat m)).

Lemma ntrue_app : forall m1 m2, ntrue (m1 ++ m2) = (ntrue m1 + ntrue m2)%nat.
Proof. intros. unfold ntrue. rewrite filter_app, app_length. auto. Qed.

Lemma assign_rows_spec : forall bs m (vals : list R),
  length m = length bs ->
  (forall i r c, nth_error bs i = Some r -> nth_error m i = Some c -> length c = length r) ->
  (ntrue (concat m) <= length vals)%nat ->
  length (assign_rows bs m vals) = length bs /\
  forall i r c, nth_error bs i = Some r -> nth_error m i = Some c ->
    exists r', nth_error (assign_rows bs m vals) i = Some r' /\ length r' = length r /\
      (forall k x, nth_error r k = Some x -> nth_error c k = Some false -> nth_error r' k = Some x) /\
      (forall k, nth_error c k = Some true ->
         nth_error r' k = nth_error vals (ntrue (concat (firstn i m)) + ntrue (firstn k c))).
Proof.
  induction bs as [|row bs IH]; intros [|c m] vals L LR C; simpl in L; try discriminate.
  - simpl. split; auto. intros i r c H. destruct i; discriminate.
  - injection L as L. simpl in C. rewrite ntrue_app in C.
    assert (length c = length row) as L0 by (apply (LR O); reflexivity).
    destruct (assign_row_spec row c vals L0) as [A1 [A2 [A3 A4]]]; [lia|].
    simpl. destruct (assign_row row c vals) as [r' rest]. simpl in *. subst rest.
    destruct (IH m (skipn (ntrue c) vals) L) as [I1 I2].
    { intros i r d H1 H2. apply (LR (S i)); auto. }
    { rewrite skipn_length. lia. }
    split; [simpl; auto|]. intros [|i] r d H1 H2; simpl in H1, H2.
    + inversion H1; inversion H2; subst. exists r'. simpl. auto.
    + destruct (I2 i r d H1 H2) as [r1 [B1 [B2 [B3 B4]]]]. exists r1. simpl. repeat split; auto.
      intros k Hk. rewrite B4 by auto. rewrite ntrue_app.
      rewrite nth_error_skipn. f_equal. lia.
Qed.

(* ---- index lists ---- *)

Lemma mem_nat_iff : forall i l, mem_nat i l = true <-> In i l.
Proof.
  intros. unfold mem_nat. rewrite existsb_exists. split.
  - intros [x [H E]]. apply Nat.eqb_eq in E. subst. auto.
  - intros H. exists i. split; auto. apply Nat.eqb_refl.
Qed.

Lemma filter_id_map : forall A (p : A -> bool) l,
  length (filter (fun b => b) (map p l)) = length (filter p l).
Proof. induction l as [|a l IH]; simpl; auto. destruct (p a); simpl; auto. Qed.

Lemma filter_mem_sorted : forall idx n, StronglySorted lt idx -> (forall i, In i idx -> (i < n)%nat) ->
  filter (fun i => mem_nat i idx) (seq 0 n) = idx.
Proof.
  intros idx n S B. apply (sorted_same_elements _ lt).
  - intros; lia.
  - intros; lia.
  - apply StronglySorted_filter. apply seq_sorted.
  - auto.
  - intros x. rewrite filter_In, in_seq, mem_nat_iff. split; [tauto|].
    intros H. specialize (B x H). split; auto. lia.
Qed.

Lemma firstn_seq : forall k n s, (k <= n)%nat -> firstn k (seq s n) = seq s k.
Proof.
  induction k as [|k IH]; intros [|n] s H; simpl; auto; try lia. f_equal. apply IH. lia.
Qed.

Lemma filter_lt_sorted : forall idx p k, StronglySorted lt idx -> nth_error idx p = Some k ->
  filter (fun i => i <? k) idx = firstn p idx.
Proof.
  induction idx as [|a idx IH]; intros p k S H; [destruct p; discriminate|].
  inversion S as [|? ? S' F]; subst. rewrite Forall_forall in F. destruct p as [|p]; simpl in *.
  - inversion H; subst. rewrite Nat.ltb_irrefl. apply filter_nil. intros x Hx.
    specialize (F x Hx). apply Nat.ltb_ge. lia.
  - assert (a < k)%nat by (apply F; eapply nth_error_In; eauto).
    rewrite (proj2 (Nat.ltb_lt a k)) by auto. f_equal. auto.
Qed.

(** Number of selected positions before the [p]-th selected one. *)
Lemma rank_sorted : forall idx n p k, StronglySorted lt idx -> (forall i, In i idx -> (i < n)%nat) ->
  nth_error idx p = Some k ->
  ntrue (firstn k (map (fun j => mem_nat j idx) (seq 0 n))) = p.
Proof.
  intros idx n p k S B H.
  assert (k < n)%nat as Hk by (apply B; eapply nth_error_In; eauto).
  unfold ntrue. rewrite firstn_map, firstn_seq by lia. rewrite filter_id_map.
  assert (filter (fun j => mem_nat j idx) (seq 0 k) = filter (fun i => i <? k) idx) as ->.
  { apply (sorted_same_elements _ lt); try (intros; lia).
    - apply StronglySorted_filter, seq_sorted.
    - apply StronglySorted_filter; auto.
    - intros x. rewrite !filter_In, in_seq, mem_nat_iff, Nat.ltb_lt. intuition lia. }
  rewrite (filter_lt_sorted idx p k S H). rewrite firstn_length.
  assert (p < length idx)%nat by (apply nth_error_Some; congruence). lia.
Qed.

Lemma ntrue_row : forall idx m b, StronglySorted lt idx -> (forall i, In i idx -> (i < m)%nat) ->
  ntrue (map (fun j => b && mem_nat j idx) (seq 0 m)) = if b then length idx else O.
Proof.
  intros idx m b S B. unfold ntrue. rewrite filter_id_map. destruct b; simpl.
  - rewrite filter_mem_sorted; auto.
  - rewrite filter_nil; auto.
Qed.

Lemma ntrue_rows : forall ridx cidx m l, StronglySorted lt cidx -> (forall i, In i cidx -> (i < m)%nat) ->
  ntrue (concat (map (fun i => map (fun j => mem_nat i ridx && mem_nat j cidx) (seq 0 m)) l)) =
  (length (filter (fun i => mem_nat i ridx) l) * length cidx)%nat.
Proof.
  intros ridx cidx m l S B. induction l as [|i l IH]; simpl; auto.
  rewrite ntrue_app, ntrue_row, IH by auto. destruct (mem_nat i ridx); simpl; lia.
Qed.

(** Writing into the selected cells in row-major order. *)
Lemma assign_cells : forall (bs : list (list R)) n m ridx cidx vals,
  shaped n m bs -> StronglySorted lt ridx -> StronglySorted lt cidx ->
  (forall i, In i ridx -> (i < n)%nat) -> (forall j, In j cidx -> (j < m)%nat) ->
  length vals = (length ridx * length cidx)%nat ->
  let bs' := assign_rows bs (map (fun i => map (fun j => mem_nat i ridx && mem_nat j cidx)
                                (seq 0 m)) (seq 0 n)) vals in
  shaped n m bs' /\
  (forall i j, (i < n)%nat -> (j < m)%nat -> ~ (In i ridx /\ In j cidx) ->
     cell bs' i j = cell bs i j) /\
  (forall p q i j v, nth_error ridx p = Some i -> nth_error cidx q = Some j ->
     nth_error vals (p * length cidx + q) = Some v -> cell bs' i j = v).
Proof.
  intros bs n m ridx cidx vals [SL SR] Sr Sc Br Bc LV.
  set (mask := map (fun i => map (fun j => mem_nat i ridx && mem_nat j cidx) (seq 0 m)) (seq 0 n)).
  assert (length mask = n) as LM by (unfold mask; rewrite map_length, seq_length; auto).
  assert (forall i, (i < n)%nat -> nth_error mask i =
            Some (map (fun j => mem_nat i ridx && mem_nat j cidx) (seq 0 m))) as NM.
  { intros i Hi. unfold mask. apply nth_error_map_iff. exists i. split; auto.
    rewrite nth_error_seq. rewrite (proj2 (Nat.ltb_lt i n)) by auto. auto. }
  destruct (assign_rows_spec bs mask vals) as [A1 A2].
  { lia. }
  { intros i r c H1 H2. assert (i < n)%nat by (rewrite <- SL; apply nth_error_Some; congruence).
    rewrite NM in H2 by auto. inversion H2. rewrite map_length, seq_length.
    symmetry. apply SR. eapply nth_error_In; eauto. }
  { unfold mask. rewrite ntrue_rows by auto. rewrite filter_mem_sorted by auto. lia. }
  intros bs'. fold mask in bs'.
  assert (forall i, (i < n)%nat -> exists r, nth_error bs i = Some r) as NB.
  { intros i Hi. destruct (nth_error bs i) as [r|] eqn:E; eauto. apply nth_error_None in E. lia. }
  assert (forall j, (j < m)%nat -> forall i, nth_error (map (fun j => mem_nat i ridx && mem_nat j cidx)
             (seq 0 m)) j = Some (mem_nat i ridx && mem_nat j cidx)) as NC.
  { intros j Hj i. apply nth_error_map_iff. exists j. split; auto.
    rewrite nth_error_seq. rewrite (proj2 (Nat.ltb_lt j m)) by auto. auto. }
  split; [|split].
  - split; [unfold bs'; lia|]. intros r' Hr. apply In_nth_error in Hr. destruct Hr as [i Hi].
    assert (i < n)%nat as Li. { rewrite <- SL, <- A1. apply nth_error_Some. unfold bs' in Hi. congruence. }
    destruct (NB i Li) as [r Hr]. destruct (A2 i r _ Hr (NM i Li)) as [r1 [B1 [B2 _]]].
    assert (r1 = r') by (unfold bs' in Hi; congruence). subst. rewrite B2. apply SR.
    eapply nth_error_In; eauto.
  - intros i j Li Lj N. destruct (NB i Li) as [r Hr].
    destruct (A2 i r _ Hr (NM i Li)) as [r1 [B1 [B2 [B3 _]]]].
    unfold cell. unfold bs'. rewrite (nth_error_nth _ _ [] B1), (nth_error_nth _ _ [] Hr).
    destruct (nth_error r j) as [x|] eqn:Hx.
    + rewrite (nth_error_nth _ _ (nofZ 0) Hx). apply nth_error_nth. apply B3; auto.
      rewrite NC by auto. f_equal. destruct (mem_nat i ridx) eqn:E1; auto.
      destruct (mem_nat j cidx) eqn:E2; auto. apply mem_nat_iff in E1. apply mem_nat_iff in E2. tauto.
    + apply nth_error_None in Hx. rewrite (SR r) in Hx by (eapply nth_error_In; eauto). lia.
  - intros p q i j v Hp Hq Hv.
    assert (i < n)%nat as Li by (apply Br; eapply nth_error_In; eauto).
    assert (j < m)%nat as Lj by (apply Bc; eapply nth_error_In; eauto).
    destruct (NB i Li) as [r Hr].
    destruct (A2 i r _ Hr (NM i Li)) as [r1 [B1 [B2 [_ B4]]]].
    unfold cell. unfold bs'. rewrite (nth_error_nth _ _ [] B1). apply nth_error_nth.
    assert (mem_nat i ridx = true) as Mi by (apply mem_nat_iff; eapply nth_error_In; eauto).
    assert (mem_nat j cidx = true) as Mj by (apply mem_nat_iff; eapply nth_error_In; eauto).
    rewrite B4.
    2: { rewrite NC by auto. rewrite Mi, Mj. auto. }
    rewrite <- Hv. f_equal. f_equal.
    + unfold mask. rewrite firstn_map, firstn_seq by lia. rewrite ntrue_rows by auto. f_equal.
      pose proof (rank_sorted ridx n p i Sr Br Hp) as RK.
      unfold ntrue in RK. rewrite firstn_map, firstn_seq, filter_id_map in RK by lia. auto.
    + rewrite Mi. simpl andb. apply (rank_sorted cidx m q j Sc Bc Hq).
Qed.

(** Item access by a selection in the order of the table. *)
Lemma get_indices_sorted : forall (res w w' : list R) norm, StronglySorted Rlt res ->
  norm w = Ok w' -> w' <> [] -> StronglySorted Rlt w' -> (forall x, In x w' -> In x res) ->
  exists idx, get_indices norm res (Some w) = Ok idx /\ StronglySorted lt idx /\
    length idx = length w' /\ (forall i, In i idx -> (i < length res)%nat) /\
    forall p i, nth_error idx p = Some i <-> (exists x, nth_error w' p = Some x /\ nth_error res i = Some x).
Proof.
  intros res w w' norm S E NE SW SUB. unfold get_indices. rewrite E. cbn [rbind].
  destruct w' as [|x0 w0] eqn:W; [contradiction|]. rewrite <- W in *.
  assert (forallb (fun x => nmem x res) w' = true) as ->.
  { apply forallb_forall. intros x Hx. apply nmem_R. auto. }
  set (sel := filter (fun ix => nmem (snd ix) w') (enumerate res)).
  assert (map snd sel = w') as MS.
  { apply (sorted_same_elements _ Rlt).
    - intros. lra.
    - intros. lra.
    - unfold sel. apply StronglySorted_map with (R := fun a b => snd a < snd b); [intros; auto|].
      apply StronglySorted_filter.
      assert (map snd (enumerate res) = res) as M.
      { unfold enumerate. apply map_snd_combine. apply seq_length. }
      apply StronglySorted_of_map. rewrite M. exact S.
    - auto.
    - intros x. split.
      + intros H. apply in_map_iff in H. destruct H as [[i y] [<- H]]. apply filter_In in H.
        apply nmem_R. tauto.
      + intros H. apply in_map_iff. destruct (In_nth_error res x (SUB x H)) as [i Hi].
        exists (i, x). split; auto. apply filter_In. split.
        * apply enumerate_In. auto.
        * apply nmem_R. auto. }
  exists (map fst sel).
  split; [reflexivity|]. split.
  { unfold sel. apply StronglySorted_map with (R := fun a b => (fst a < fst b)%nat); [intros; auto|].
    apply StronglySorted_filter. apply StronglySorted_of_map.
    rewrite map_fst_enumerate. apply seq_sorted. }
  split. { rewrite <- MS, !map_length. auto. }
  split.
  { intros i H. apply in_map_iff in H. destruct H as [[k y] [<- H]]. apply filter_In in H.
    destruct H as [H _]. apply enumerate_In in H. apply nth_error_Some. simpl. congruence. }
  intros p i. split.
  - intros H. apply nth_error_map_iff in H. destruct H as [[k y] [H1 H2]]. simpl in H2. subst k.
    exists y. split.
    + rewrite <- MS. apply nth_error_map_iff. exists (i, y). auto.
    + apply nth_error_In in H1. apply filter_In in H1. destruct H1 as [H1 _].
      apply enumerate_In in H1. auto.
  - intros [x [H1 H2]]. rewrite <- MS in H1. apply nth_error_map_iff in H1.
    destruct H1 as [[k y] [H1 H3]]. simpl in H3. subst y.
    apply nth_error_map_iff. exists (k, x). split; auto. simpl.
    apply nth_error_In in H1. apply filter_In in H1. destruct H1 as [H1 _].
    apply enumerate_In in H1.
    assert (NoDup res) as N.
    { apply sorted_lt_NoDup with (R := Rlt); auto. intros; lra. }
    eapply NoDup_nth_error_inj; eauto.
Qed.

Lemma get_indices_missing : forall (res w w' : list R) norm, norm w = Ok w' ->
  (w' = [] \/ exists x, In x w' /\ ~ In x res) ->
  get_indices norm res (Some w) = Raise ValueError.
Proof.
  intros res w w' norm E H. unfold get_indices. rewrite E. cbn [rbind].
  destruct w' as [|x0 w0] eqn:W; auto. rewrite <- W in *.
  destruct H as [H|[x [H1 H2]]]; [congruence|].
  destruct (forallb _ w') eqn:F; auto. rewrite forallb_forall in F. specialize (F x H1).
  apply nmem_R in F. contradiction.
Qed.
