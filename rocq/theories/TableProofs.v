From Coq Require Import List Bool Arith ZArith Reals Lra Lia Permutation Sorted.
From Verif Require Import Py Num PySort ListX WPointsModel NhoodModel NhoodProofs InterpModel TableModel TableSpec.
Import ListNotations.
Open Scope R_scope.

(* ---- resolutions ---- *)

Lemma ceil_spec : forall x : R, IZR (- Int_part (- x)) - 1 < x <= IZR (- Int_part (- x)).
Proof.
  intros x. pose proof (Int_part_bounds (- x)). rewrite opp_IZR. lra.
Qed.

Lemma np_arange_In : forall (start stop step x : R), 0 < step ->
  (In x (np_arange start stop step) <->
   exists k : nat, x = start + INR k * step /\ start + INR k * step < stop).
Proof.
  intros start stop step x P. unfold np_arange. rnum. rewrite in_map_iff.
  set (q := (stop - start) / step).
  assert (stop = start + q * step) as Eq by (unfold q; field; lra).
  pose proof (ceil_spec q) as C. set (z := (- Int_part (- q))%Z) in *.
  assert (forall k : nat, IZR (Z.of_nat k) = INR k) as E by (intros; symmetry; apply INR_IZR_INZ).
  split.
  - intros [k [<- Hk]]. apply in_seq in Hk. exists k. rewrite E. split; auto.
    assert (Z.of_nat k <= z - 1)%Z as L by lia.
    apply IZR_le in L. rewrite minus_IZR, E in L. rewrite Eq. nra.
  - intros [k [-> Hk]]. exists k. rewrite E. split; auto. apply in_seq. split; [lia|].
    assert (INR k < q) as L by nra.
    assert (IZR (Z.of_nat k) < IZR z) as L2 by (rewrite E; lra).
    apply lt_IZR in L2. lia.
Qed.

Lemma np_arange_sorted : forall (start stop step : R), 0 < step ->
  StronglySorted Rlt (np_arange start stop step).
Proof.
  intros start stop step P. unfold np_arange. eapply StronglySorted_map; [|apply seq_sorted].
  intros x y _ _ L. rnum. assert (IZR (Z.of_nat x) < IZR (Z.of_nat y)) by (apply IZR_lt; lia). nra.
Qed.

Lemma existsb_neg : forall l : list R, existsb (fun x => nltb x (nofZ 0)) l = false <->
  forall x, In x l -> 0 <= x.
Proof.
  intros l. rnum. split.
  - intros H x Hx. destruct (Rle_dec 0 x); auto. exfalso.
    assert (existsb (fun x => Rltb x 0) l = true); [|congruence].
    apply existsb_exists. exists x. split; auto. apply Rltb_true. lra.
  - intros H. destruct (existsb _ l) eqn:E; auto. apply existsb_exists in E.
    destruct E as [x [Hx L]]. apply Rltb_lt in L. specialize (H x Hx). lra.
Qed.

Lemma reduced_iff : forall a b, reduced a b <-> b = nmod a 360.
Proof.
  intros a b. split.
  - intros [B [k E]]. symmetry. apply nmod_unique with k; lra.
  - intros ->. split; [apply nmod_range; lra|].
    destruct (nmod_cong a 360) as [k Hk]. eauto.
Qed.

Lemma reduced_fun : forall a b c, reduced a b -> reduced a c -> b = c.
Proof. intros a b c H1 H2. apply reduced_iff in H1. apply reduced_iff in H2. congruence. Qed.

Lemma nmod_shift : forall a k, nmod (a + 360 * IZR k) 360 = nmod a 360.
Proof. intros. apply nmod_period. lra. Qed.

(* ---- sorting the table ---- *)

Lemma sort_by_key_perm : forall A (keys : list R) (vals : list A),
  Permutation (combine keys vals) (sort_by_key keys vals).
Proof. intros. apply Permutation_sym, py_sorted_perm. Qed.

Lemma sort_by_key_sorted : forall A (keys : list R) (vals : list A),
  StronglySorted Rle (map fst (sort_by_key keys vals)).
Proof.
  intros. unfold sort_by_key.
  assert (map fst (py_sorted (fun x y : R * A => nleb (fst x) (fst y)) (combine keys vals)) =
          py_sorted nleb (map fst (combine keys vals))) as ->.
  { symmetry. apply py_sorted_map. }
  apply sorted_R.
Qed.

Lemma sort_by_key_length : forall A (keys : list R) (vals : list A), length keys = length vals ->
  length (sort_by_key keys vals) = length keys.
Proof.
  intros. rewrite <- (Permutation_length (sort_by_key_perm _ keys vals)).
  rewrite combine_length. lia.
Qed.

Lemma transpose_length : forall n (rows : list (list R)), length (transpose n rows) = n.
Proof. intros. unfold transpose. rewrite map_length, seq_length. auto. Qed.

Lemma transpose_row_length : forall n (rows : list (list R)) r, In r (transpose n rows) ->
  length r = length rows.
Proof.
  intros n rows r H. unfold transpose in H. apply in_map_iff in H. destruct H as [j [<- _]].
  apply map_length.
Qed.

Lemma transpose_nth : forall n (rows : list (list R)) j r, nth_error (transpose n rows) j = Some r ->
  r = map (fun x => nth j x 0) rows /\ (j < n)%nat.
Proof.
  intros n rows j r H. unfold transpose in H. apply nth_error_map_iff in H.
  destruct H as [k [H1 H2]]. rewrite nth_error_seq in H1. simpl in H1.
  destruct (Nat.ltb_spec j n); [|discriminate]. inversion H1; subst. auto.
Qed.

(** Row [i] of the sorted table is a permutation of the row it came from. *)
Lemma sorted_row : forall (ws : list R) (rows : list (list R)) i row,
  (forall r, In r rows -> length r = length ws) ->
  nth_error rows i = Some row ->
  let cols := sort_by_key ws (transpose (length ws) rows) in
  Permutation (combine ws row) (combine (map fst cols) (map (fun c => nth i c 0) (map snd cols))).
Proof.
  intros ws rows i row L Hi cols.
  assert (combine (map fst cols) (map (fun c => nth i c 0) (map snd cols)) =
          map (fun sc => (fst sc, nth i (snd sc) 0)) cols) as ->.
  { clear. induction cols as [|[s c] cols IH]; simpl; auto. rewrite IH. auto. }
  assert (combine ws row = map (fun sc => (fst sc, nth i (snd sc) 0))
            (combine ws (transpose (length ws) rows))) as ->.
  { assert (row = map (fun c => nth i c 0) (transpose (length ws) rows)) as E.
    { unfold transpose. rewrite map_map.
      rewrite (map_ext_in _ (fun j => nth j row 0)).
      - rewrite <- (L row) by (eapply nth_error_In; eauto). symmetry. apply map_nth_seq.
      - intros j _. apply nth_error_nth. apply (map_nth_error (fun r => nth j r 0)). auto. }
    rewrite E at 1. clear. generalize (transpose (length ws) rows). clear.
    induction ws as [|s ws IH]; intros [|c cs]; simpl; auto. f_equal. apply IH. }
  apply Permutation_map. apply sort_by_key_perm.
Qed.

Lemma listed_In : forall ws wa bs s a v,
  (exists i j, listed ws wa bs i j s a v) <->
  exists r, In (a, r) (combine wa bs) /\ In (s, v) (combine ws r).
Proof.
  intros. split.
  - intros [i [j [H1 [H2 [r [H3 H4]]]]]]. exists r. split.
    + apply nth_error_In with i. apply nth_error_combine. auto.
    + apply nth_error_In with j. apply nth_error_combine. auto.
  - intros [r [H1 H2]]. apply In_nth_error in H1. apply In_nth_error in H2.
    destruct H1 as [i H1]. destruct H2 as [j H2]. apply nth_error_combine in H1.
    apply nth_error_combine in H2. exists i, j. unfold listed. intuition eauto.
Qed.

Lemma has_shape_iff : forall bs n m, has_shape bs n m = true <-> shaped (A:=R) n m bs.
Proof.
  intros bs n m. unfold has_shape, shaped. rewrite andb_true_iff, Nat.eqb_eq, forallb_forall.
  split; intros [H1 H2]; split; auto; intros r Hr.
  - apply Nat.eqb_eq. auto.
  - apply Nat.eqb_eq. auto.
Qed.

Lemma sort_table_ok : forall ws wa bs, wa <> [] -> ws <> [] ->
  shaped (length wa) (length ws) bs ->
  exists ws' wa' bs', sort_table ws wa bs = Ok (ws', wa', bs') /\
    Permutation ws ws' /\ Permutation wa wa' /\
    StronglySorted Rle ws' /\ StronglySorted Rle wa' /\
    shaped (length wa') (length ws') bs' /\
    forall s a v, (exists i j, listed ws' wa' bs' i j s a v) <-> (exists i j, listed ws wa bs i j s a v).
Proof.
  intros ws wa bs NA NS [SL SR].
  set (rows := sort_by_key wa bs).
  set (cols := sort_by_key ws (transpose (length ws) (map snd rows))).
  exists (map fst cols), (map fst rows), (transpose (length wa) (map snd cols)).
  assert (Permutation (combine wa bs) rows) as PR by apply sort_by_key_perm.
  assert (Permutation (combine ws (transpose (length ws) (map snd rows))) cols) as PC
    by apply sort_by_key_perm.
  assert (length rows = length wa) as LR by (apply sort_by_key_length; auto).
  assert (length cols = length ws) as LC
    by (apply sort_by_key_length; rewrite transpose_length; auto).
  assert (forall r, In r (map snd rows) -> length r = length ws) as RL.
  { intros r Hr. apply SR. apply in_map_iff in Hr. destruct Hr as [[a r'] [<- Hr]]. simpl.
    apply Permutation_in with (l' := combine wa bs) in Hr; [|symmetry; auto].
    eapply in_combine_r; eauto. }
  assert (Permutation ws (map fst cols)) as P1.
  { rewrite <- PC. rewrite map_fst_combine; auto. rewrite transpose_length. auto. }
  assert (Permutation wa (map fst rows)) as P2.
  { rewrite <- PR. rewrite map_fst_combine; auto. }
  split.
  { unfold sort_table. destruct wa; [contradiction|]. destruct ws; [contradiction|]. reflexivity. }
  split; auto. split; auto. split; [apply sort_by_key_sorted|]. split; [apply sort_by_key_sorted|].
  split.
  { split.
    - rewrite transpose_length, map_length. auto.
    - intros r Hr. apply transpose_row_length in Hr. rewrite map_length in *. auto. }
  intros s a v. rewrite !listed_In.
  assert (combine (map fst rows) (map snd rows) = rows) as CR by apply combine_map_fst_snd.
  split.
  - intros [r' [H1 H2]]. apply In_nth_error in H1. destruct H1 as [i H1].
    apply nth_error_combine in H1. destruct H1 as [Ha Hr]. apply transpose_nth in Hr.
    destruct Hr as [-> Hi].
    destruct (nth_error (map snd rows) i) as [row|] eqn:E.
    2: { apply nth_error_None in E. rewrite map_length in E. lia. }
    exists row. split.
    + apply Permutation_in with rows; [symmetry; auto|]. rewrite <- CR.
      apply nth_error_In with i. apply nth_error_combine. auto.
    + eapply Permutation_in; [symmetry; apply (sorted_row ws (map snd rows) i row RL E)|]. exact H2.
  - intros [row [H1 H2]]. apply Permutation_in with (l' := rows) in H1; auto.
    rewrite <- CR in H1. apply In_nth_error in H1. destruct H1 as [i H1].
    apply nth_error_combine in H1. destruct H1 as [Ha Hr].
    exists (map (fun c => nth i c 0) (map snd cols)). split.
    + apply nth_error_In with i. apply nth_error_combine. split; auto.
      unfold transpose. apply nth_error_map_iff. exists i. split; auto.
      rewrite nth_error_seq. simpl. destruct (Nat.ltb_spec i (length wa)); auto.
      assert (i < length (map snd rows))%nat by (apply nth_error_Some; congruence).
      rewrite map_length in *. lia.
    + eapply Permutation_in; [apply (sorted_row ws (map snd rows) i row RL Hr)|]. exact H2.
Qed.

Lemma build_ws_iter : forall ws : list R, ws <> [] -> (forall s, In s ws -> 0 <= s) ->
  build_ws (RIter ws) = Ok ws.
Proof.
  intros ws NE P. unfold build_ws. rewrite (proj2 (existsb_neg ws) P). destruct ws; auto. contradiction.
Qed.

Lemma build_wa_iter : forall wa : list R, wa <> [] ->
  build_wa (RIter wa) = Ok (map (fun x => nmod x 360) wa).
Proof. intros [|a wa] NE; auto. contradiction. Qed.

(** Construction from lists. *)
Lemma table_new_ok : forall ws wa bs, wa <> [] -> ws <> [] ->
  (forall s, In s ws -> 0 <= s) -> shaped (length wa) (length ws) bs ->
  exists t, table_new (RIter ws) (RIter wa) (Some (Nd2 bs)) = Ok t /\
    table_ok t /\ Permutation ws (t_ws t) /\ Permutation (map (fun x => nmod x 360) wa) (t_wa t) /\
    t_pylist t = false /\
    forall s a v, entry t s a v <->
      exists i j, listed ws (map (fun x => nmod x 360) wa) bs i j s a v.
Proof.
  intros ws wa bs NA NS P SH.
  set (wa' := map (fun x => nmod x 360) wa).
  assert (wa' <> []) as NA' by (unfold wa'; destruct wa; simpl; congruence).
  assert (length wa' = length wa) as LA by apply map_length.
  destruct (sort_table_ok ws wa' bs NA' NS) as [ws1 [wa1 [bs1 [E [P1 [P2 [S1 [S2 [SH' EN]]]]]]]]].
  { rewrite LA. auto. }
  exists (mkTable ws1 wa1 bs1 false). unfold table_new.
  rewrite (build_ws_iter ws NS P), (build_wa_iter wa NA). cbn [rbind]. fold wa'.
  rewrite (proj2 (has_shape_iff bs _ _)) by (rewrite LA; auto).
  rewrite E. cbn [rbind]. split; auto. split.
  { unfold table_ok. simpl. repeat split; auto.
    - intros s Hs. apply P. eapply Permutation_in; [symmetry|]; eauto.
    - assert (In a wa') as I by (eapply Permutation_in; [symmetry|]; eauto).
      unfold wa' in I. apply in_map_iff in I. destruct I as [x [<- _]]. apply nmod_range; lra.
    - assert (In a wa') as I by (eapply Permutation_in; [symmetry|]; eauto).
      unfold wa' in I. apply in_map_iff in I. destruct I as [x [<- _]]. apply nmod_range; lra.
    - apply SH'.
    - apply SH'. }
  simpl. split; auto.
Qed.

(* ---- item access ---- *)

Lemma get_indices_one : forall norm res x y j, NoDup res -> norm [x] = Ok [y] ->
  nth_error res j = Some y -> get_indices (T:=R) norm res (Some [x]) = Ok [j].
Proof.
  intros norm res x y j N E Hj. unfold get_indices. rewrite E. cbn [rbind].
  assert (nmem y res = true) as M by (apply nmem_R; eapply nth_error_In; eauto).
  cbn [forallb]. rewrite M. cbn [andb]. f_equal.
  apply (sorted_same_elements _ lt).
  - intros. apply Nat.lt_irrefl.
  - intros a b H1 H2. lia.
  - assert (StronglySorted lt (map fst (enumerate res))) as S
      by (rewrite map_fst_enumerate; apply seq_sorted).
    revert S. generalize (enumerate res). intros l S. induction l as [|[i z] l IH]; simpl; [constructor|].
    inversion S as [|? ? S' F]; subst.
    destruct (Reqb y z || false); simpl; auto. constructor; auto.
    rewrite Forall_forall in *. intros k Hk. apply in_map_iff in Hk. destruct Hk as [q [<- Hq]].
    apply filter_In in Hq. apply F. apply in_map. tauto.
  - repeat constructor.
  - intros i. rewrite in_map_iff. split.
    + intros [[k z] [<- H]]. apply filter_In in H. destruct H as [H1 H2]. simpl in *.
      apply enumerate_In in H1. rewrite orb_false_r in H2. apply Reqb_eq in H2. subst.
      left. eapply NoDup_nth_error_inj; eauto.
    + intros [<-|[]]. exists (j, y). split; auto. apply filter_In. split.
      * apply enumerate_In. auto.
      * simpl. rnum. rewrite Reqb_refl. auto.
Qed.

Lemma cell_listed : forall ws wa bs i j s a v, listed ws wa bs i j s a v -> cell bs i j = v.
Proof.
  intros ws wa bs i j s a v [_ [_ [r [H3 H4]]]]. unfold cell.
  rewrite (nth_error_nth bs i [] H3). apply nth_error_nth. auto.
Qed.

Lemma getitem_entry : forall t s a v, no_duplicates t -> 0 <= s ->
  entry t s (nmod a 360) v -> getitem t [s] [a] = Ok v.
Proof.
  intros t s a v [N1 N2] P [i [j L]]. unfold getitem.
  pose proof L as L0. destruct L as [H1 [H2 [r [H3 H4]]]].
  rewrite (get_indices_one normalize_ws (t_ws t) s s j); auto.
  - cbn [rbind]. rewrite (get_indices_one normalize_wa (t_wa t) a (nmod a 360) i); auto.
    cbn [rbind]. f_equal. eapply cell_listed; eauto.
  - unfold normalize_ws. simpl. rnum. rewrite Rltb_false by lra. reflexivity.
Qed.

Lemma get_indices_none : forall norm res x y, norm [x] = Ok [y] -> ~ In y res ->
  get_indices (T:=R) norm res (Some [x]) = Raise ValueError.
Proof.
  intros norm res x y E N. unfold get_indices. rewrite E. cbn [rbind forallb].
  destruct (nmem y res) eqn:M; auto. apply nmem_R in M. contradiction.
Qed.

Lemma get_indices_total : forall norm res (x : R) y, norm [x] = Ok [y] -> In y res ->
  exists l, get_indices (T:=R) norm res (Some [x]) = Ok l.
Proof.
  intros norm res x y E I. unfold get_indices. rewrite E. cbn [rbind forallb].
  rewrite (proj2 (nmem_R y res) I). simpl. eauto.
Qed.

Lemma getitem_missing : forall t s a, (s < 0 \/ ~ In s (t_ws t) \/ ~ In (nmod a 360) (t_wa t)) ->
  getitem t [s] [a] = Raise ValueError.
Proof.
  intros t s a H. unfold getitem.
  destruct (Rlt_dec s 0) as [L|L].
  { unfold get_indices at 1. unfold normalize_ws. simpl. rnum. rewrite Rltb_true by auto. reflexivity. }
  assert (normalize_ws [s] = Ok [s]) as E.
  { unfold normalize_ws. simpl. rnum. rewrite Rltb_false by lra. reflexivity. }
  destruct (in_dec Req_EM_T s (t_ws t)) as [I|N].
  - destruct (get_indices_total normalize_ws (t_ws t) s s E I) as [l ->]. cbn [rbind].
    rewrite (get_indices_none normalize_wa (t_wa t) a (nmod a 360)).
    + reflexivity.
    + reflexivity.
    + destruct H as [H|[H|H]]; auto; try contradiction; lra.
  - rewrite (get_indices_none normalize_ws (t_ws t) s s E N). reflexivity.
Qed.

Lemma table_call_entry : forall nhood interp t s a v,
  getitem t [s] [a] = Ok v -> table_call nhood interp t s a = Ok v.
Proof. intros. unfold table_call. rewrite H. reflexivity. Qed.

Lemma table_call_missing : forall nhood interp t s a,
  (s < 0 \/ ~ In s (t_ws t) \/ ~ In (nmod a 360) (t_wa t)) ->
  table_call nhood interp t s a = interpolate_from nhood interp (points t) s a.
Proof. intros. unfold table_call. rewrite getitem_missing; auto. Qed.
