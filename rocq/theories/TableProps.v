(** * Properties of polar diagram tables (C17-C20, C22, C23, C84) *)

From Coq Require Import List Bool Arith ZArith QArith Reals Lra Lia Permutation Sorted.
From Verif Require Import Py Num PySort ListX WPointsModel NhoodModel NhoodSpec NhoodProofs InterpModel
  InterpSpec InterpProofs TableModel TableSpec TableProofs TableProofs2 TableProofs3 TableProofs4.
Import ListNotations.
Open Scope R_scope.

Ltac rlist := simpl in *; intuition (try discriminate; try lra; subst; auto; try lra).

(** A table with two wind speeds and three wind angles, used in the examples. *)
Definition ex_ws : list R := [10; 6].
Definition ex_wa : list R := [90; -30 + 360; 60].
Definition ex_bs : list (list R) := [[7; 5]; [3; 2]; [6; 4]].

Lemma ex_shape : shaped (length ex_wa) (length ex_ws) ex_bs.
Proof. split; [reflexivity|]. unfold ex_bs, ex_ws. rlist. Qed.

Lemma ex_pos : forall s, In s ex_ws -> 0 <= s.
Proof. unfold ex_ws. rlist. Qed.

Lemma distinct_NoDup : forall wa, distinct_mod_360 wa -> NoDup (map (fun x => nmod x 360) wa).
Proof.
  intros wa D. apply NoDup_nth_error. intros i j L E. rewrite map_length in L.
  rewrite !nth_error_map in E.
  destruct (nth_error wa i) as [a|] eqn:Ea; [|apply nth_error_None in Ea; lia].
  destruct (nth_error wa j) as [b|] eqn:Eb; simpl in E; [|discriminate]. injection E as E.
  destruct (nmod_cong a 360) as [k Hk]. destruct (nmod_cong b 360) as [l Hl].
  apply (D i j a b (k - l)%Z); auto. rewrite minus_IZR. lra.
Qed.

Lemma ok_speed : forall t s, table_ok t -> In s (t_ws t) -> 0 <= s.
Proof. intros t s [_ [_ [H _]]]. auto. Qed.

Lemma ok_angle : forall t a, table_ok t -> In a (t_wa t) -> 0 <= a < 360.
Proof. intros t a [_ [_ [_ [H _]]]]. auto. Qed.

Lemma ex_distinct : distinct_mod_360 ex_wa.
Proof.
  intros i j a b k Ha Hb E.
  assert (a - b = 360 * IZR k) as E' by lra. clear E.
  assert (- 360 < a - b < 360) as B.
  { apply nth_error_In in Ha. apply nth_error_In in Hb. unfold ex_wa in *. simpl in *.
    intuition (subst; lra). }
  assert (k = 0)%Z as ->.
  { assert (-1 < k < 1)%Z; [|lia]. split; apply lt_IZR; lra. }
  assert (a = b) by lra. subst.
  destruct i as [|[|[|i]]]; destruct j as [|[|[|j]]]; simpl in *; try reflexivity;
    try (destruct i; discriminate); try (destruct j; discriminate);
    injection Ha as <-; injection Hb as Hb; lra.
Qed.

(* ------------------------------------------------------------------ *)
(** ** C17 *)

Lemma new_no_duplicates : forall ws wa t, NoDup ws -> distinct_mod_360 wa ->
  Permutation ws (t_ws t) -> Permutation (map (fun x => nmod x 360) wa) (t_wa t) -> no_duplicates t.
Proof.
  intros ws wa t N D P1 P2. split.
  - eapply Permutation_NoDup; eauto.
  - eapply Permutation_NoDup; [exact P2|]. apply distinct_NoDup. auto.
Qed.

Theorem table_returns_entries : forall nhood interp (ws wa : list R) bs,
  ws <> [] -> wa <> [] -> (forall s, In s ws -> 0 <= s) ->
  NoDup ws -> distinct_mod_360 wa -> shaped (length wa) (length ws) bs ->
  exists t, table_new (RIter ws) (RIter wa) (Some (Nd2 bs)) = Ok t /\
    (forall i j s a v k, listed ws wa bs i j s a v ->
       getitem t [s] [a + 360 * IZR k] = Ok v /\
       table_call nhood interp t s (a + 360 * IZR k) = Ok v) /\
    (forall s a, (~ In s ws \/ forall b k, In b wa -> a <> b + 360 * IZR k) ->
       getitem t [s] [a] = Raise ValueError).
Proof.
  intros nhood interp ws wa bs NS NA P N D SH.
  destruct (table_new_ok ws wa bs NA NS P SH) as [t [E [OK [P1 [P2 [_ EN]]]]]].
  exists t. split; auto.
  pose proof (new_no_duplicates ws wa t N D P1 P2) as ND. split.
  - intros i j s a v k L.
    assert (getitem t [s] [a + 360 * IZR k] = Ok v) as G.
    { pose proof L as L0. destruct L0 as [H1 [H2 H3]].
      apply getitem_entry; auto; [apply P; eapply nth_error_In; eauto|].
      rewrite nmod_shift. apply EN. exists i, j. split; auto. split; auto. rewrite nth_error_map, H2. auto. }
    split; auto. apply table_call_entry. auto.
  - intros s a [H|H].
    + apply getitem_missing. right. left. intros I. apply H. eapply Permutation_in; [|exact I].
      apply Permutation_sym. auto.
    + apply getitem_missing. right. right. intros I.
      assert (In (nmod a 360) (map (fun x => nmod x 360) wa)) as I'.
      { eapply Permutation_in; [apply Permutation_sym; exact P2|auto]. }
      apply in_map_iff in I'. destruct I' as [b [Eb Ib]].
      destruct (nmod_cong a 360) as [k Hk]. destruct (nmod_cong b 360) as [l Hl].
      apply (H b (k - l)%Z); auto. rewrite minus_IZR. lra.
Qed.
Print Assumptions table_returns_entries.

(** The example: the rows and columns are given out of order and one angle is -30. *)
Example table_returns_entries_case : forall nhood interp,
  exists t, table_new (RIter ex_ws) (RIter ex_wa) (Some (Nd2 ex_bs)) = Ok t /\
    getitem t [6] [-30] = Ok 2 /\ table_call nhood interp t 6 60 = Ok 4 /\
    getitem t [10] [450] = Ok 7 /\ getitem t [7] [60] = Raise ValueError.
Proof.
  intros nhood interp.
  destruct (table_returns_entries nhood interp ex_ws ex_wa ex_bs) as [t [E [H1 H2]]].
  { discriminate. }
  { discriminate. }
  { exact ex_pos. }
  { unfold ex_ws. repeat constructor; rlist. }
  { exact ex_distinct. }
  { exact ex_shape. }
  exists t. split; auto. split; [|split; [|split]].
  - replace (-30) with (-30 + 360 + 360 * IZR (-1)) by lra.
    apply (H1 1%nat 1%nat). split; [reflexivity|]. split; [reflexivity|]. exists [3; 2]. auto.
  - replace 60 with (60 + 360 * IZR 0) by lra.
    apply (H1 2%nat 1%nat). split; [reflexivity|]. split; [reflexivity|]. exists [6; 4]. auto.
  - replace 450 with (90 + 360 * IZR 1) by lra.
    apply (H1 0%nat 0%nat). split; [reflexivity|]. split; [reflexivity|]. exists [7; 5]. auto.
  - apply H2. left. unfold ex_ws. rlist.
Qed.

(** Without distinct winds there is no entry to return: [self[ws, wa]] raises
    TypeError and calling the table interpolates. *)
Theorem table_duplicates_refuted : exists t : table Q,
  table_new (RIter [8; 8]%Q) (RIter [90]%Q) (Some (Nd2 [[5; 7]]%Q)) = Ok t /\
  getitem t [8]%Q [90]%Q = Raise TypeError.
Proof. eexists. split; reflexivity. Qed.
Print Assumptions table_duplicates_refuted.

(* ------------------------------------------------------------------ *)
(** ** C18 *)

Lemma stepsize_spec : forall (m s : R) l, stepsize_resolution m s = Ok l ->
  0 < s <= m /\ StronglySorted Rlt l /\
  (forall x, In x l <-> exists k : nat, (1 <= k)%nat /\ x = INR k * s /\ x < m).
Proof.
  intros m s l E. unfold stepsize_resolution in E. rnum.
  destruct (Rleb_spec s 0) as [L|L]; [discriminate|].
  destruct (Rltb_spec m s) as [L2|L2]; [discriminate|]. injection E as <-.
  split; [lra|]. split; [apply np_arange_sorted; lra|].
  intros x. rewrite np_arange_In by lra. split.
  - intros [k [-> B]]. exists (S k). rewrite S_INR. split; [lia|]. split; lra.
  - intros [k [K [-> B]]]. destruct k as [|k]; [lia|]. exists k. rewrite S_INR in *. split; lra.
Qed.

Lemma build_ws_nonneg : forall r (l : list R), build_ws r = Ok l -> forall s, In s l -> 0 <= s.
Proof.
  intros [|s| l0|] l E x I; simpl in E.
  - injection E as <-. rnum. apply np_arange_In in I; [|lra]. destruct I as [k [-> _]].
    pose proof (pos_INR k). lra.
  - apply stepsize_spec in E. destruct E as [B [_ E]]. apply E in I. destruct I as [k [_ [-> _]]].
    pose proof (pos_INR k). nra.
  - destruct l0 as [|y l0]; [discriminate|]. destruct (existsb _ _) eqn:X; [discriminate|].
    injection E as <-. rewrite existsb_neg in X. auto.
  - discriminate.
Qed.

Lemma build_wa_range : forall r (l : list R), build_wa r = Ok l -> forall a, In a l -> 0 <= a < 360.
Proof.
  intros [|s| l0|] l E x I; simpl in E.
  - injection E as <-. rnum. apply np_arange_In in I; [|lra]. destruct I as [k [-> ?]].
    pose proof (pos_INR k). lra.
  - apply stepsize_spec in E. destruct E as [B [_ E]]. apply E in I. destruct I as [k [_ [-> ?]]].
    pose proof (pos_INR k). nra.
  - destruct l0 as [|y l0]; [discriminate|].
    assert (l = map (fun x => nmod x 360) (y :: l0)) as -> by congruence. apply in_map_iff in I.
    destruct I as [z [<- _]]. apply nmod_range. rnum. lra.
  - discriminate.
Qed.

Lemma new_parts : forall r1 r2 b (t : table R), table_new r1 r2 b = Ok t ->
  exists ws wa, build_ws r1 = Ok ws /\ build_wa r2 = Ok wa /\
    Permutation ws (t_ws t) /\ Permutation wa (t_wa t) /\ table_ok t.
Proof.
  intros r1 r2 b t E. unfold table_new in E.
  destruct (build_ws r1) as [ws|] eqn:E1; [|discriminate].
  destruct (build_wa r2) as [wa|] eqn:E2; [|discriminate]. cbn [rbind] in E.
  pose proof (build_ws_nonneg _ _ E1) as P1. pose proof (build_wa_range _ _ E2) as P2.
  exists ws, wa. split; auto. split; auto.
  destruct b as [[l|bs|]|]; try discriminate.
  - destruct (has_shape bs (length wa) (length ws)) eqn:HS; [|discriminate].
    apply has_shape_iff in HS.
    destruct wa as [|a wa]; [discriminate|]. destruct ws as [|s ws]; [discriminate|].
    destruct (sort_table_ok (s :: ws) (a :: wa) bs ltac:(discriminate) ltac:(discriminate) HS)
      as [ws1 [wa1 [bs1 [E3 [Q1 [Q2 [S1 [S2 [SH' EN]]]]]]]]].
    rewrite E3 in E. cbn [rbind] in E. injection E as <-. simpl.
    split; auto. split; auto.
    repeat split; simpl; auto.
    + intros x Hx. apply P1. eapply Permutation_in; [apply Permutation_sym; exact Q1|auto].
    + eapply P2. eapply Permutation_in; [apply Permutation_sym; exact Q2|auto].
    + eapply P2. eapply Permutation_in; [apply Permutation_sym; exact Q2|auto].
    + apply SH'.
    + apply SH'.
  - injection E as <-. unfold zero_table. simpl.
    assert (forall l : list R, Permutation l (py_sorted nleb l)) as PS
      by (intros; apply Permutation_sym, py_sorted_perm).
    split; auto. split; auto. repeat split; simpl.
    + apply sorted_R.
    + apply sorted_R.
    + intros x Hx. apply P1. eapply Permutation_in; [apply py_sorted_perm|exact Hx].
    + eapply P2. eapply Permutation_in; [apply py_sorted_perm|eassumption].
    + eapply P2. eapply Permutation_in; [apply py_sorted_perm|eassumption].
    + rewrite repeat_length. apply Permutation_length. auto.
    + intros r Hr. apply repeat_spec in Hr. subst. rewrite repeat_length. apply Permutation_length. auto.
Qed.

(** Whatever the arguments, an accepted table has sorted non-negative wind
    speeds, sorted wind angles in [0, 360) and an array of the right shape. *)
Theorem table_resolutions : forall r1 r2 b (t : table R), table_new r1 r2 b = Ok t -> table_ok t.
Proof. intros r1 r2 b t E. apply new_parts in E. destruct E as [ws [wa H]]. tauto. Qed.
Print Assumptions table_resolutions.

(** What the arguments mean. *)
Theorem table_given_winds : forall ws wa b (t : table R), table_new (RIter ws) (RIter wa) b = Ok t ->
  Permutation ws (t_ws t) /\ exists wa', Forall2 reduced wa wa' /\ Permutation wa' (t_wa t).
Proof.
  intros ws wa b t E. apply new_parts in E. destruct E as [ws' [wa' [E1 [E2 [P1 [P2 _]]]]]].
  simpl in E1, E2. destruct ws as [|s ws]; [discriminate|]. destruct (existsb _ _); [discriminate|].
  destruct wa as [|a wa]; [discriminate|]. apply (f_equal (fun r => match r with Ok l => l | _ => [] end)) in E1, E2.
  simpl in E1, E2. subst. split; auto. eexists. split; [|exact P2].
  clear. change (Forall2 reduced (a :: wa) (map (fun x => nmod x 360) (a :: wa))).
  induction (a :: wa) as [|x l IH]; simpl; constructor; auto. apply reduced_iff. auto.
Qed.
Print Assumptions table_given_winds.

Theorem table_steps : forall (s a : R) b (t : table R), table_new (RStep s) (RStep a) b = Ok t ->
  0 < s <= 40 /\ 0 < a <= 360 /\
  (forall x, In x (t_ws t) <-> exists k : nat, (1 <= k)%nat /\ x = INR k * s /\ x < 40) /\
  (forall x, In x (t_wa t) <-> exists k : nat, (1 <= k)%nat /\ x = INR k * a /\ x < 360).
Proof.
  intros s a b t E. apply new_parts in E. destruct E as [ws' [wa' [E1 [E2 [P1 [P2 _]]]]]].
  simpl in E1, E2. apply stepsize_spec in E1. apply stepsize_spec in E2. rnum.
  split; [tauto|]. split; [tauto|].
  assert (forall x, In x (t_ws t) <-> In x ws') as I1.
  { intros x. split; apply Permutation_in; auto using Permutation_sym. }
  assert (forall x, In x (t_wa t) <-> In x wa') as I2.
  { intros x. split; apply Permutation_in; auto using Permutation_sym. }
  split; intros x; [rewrite I1|rewrite I2]; [apply E1|apply E2].
Qed.
Print Assumptions table_steps.

(** Without a resolution: the wind speeds are 2, 4, ..., 40 and the wind angles
    0, 5, ..., 355. *)
Theorem table_default_winds : forall b (t : table R), table_new RNone RNone b = Ok t ->
  (forall x, In x (t_ws t) <-> exists k : nat, (1 <= k <= 20)%nat /\ x = 2 * INR k) /\
  (forall x, In x (t_wa t) <-> exists k : nat, (k <= 71)%nat /\ x = 5 * INR k) /\
  NoDup (t_ws t) /\ NoDup (t_wa t).
Proof.
  intros b t E. apply new_parts in E. destruct E as [ws' [wa' [E1 [E2 [P1 [P2 _]]]]]].
  simpl in E1, E2. injection E1 as E1. injection E2 as E2.
  assert (ND : forall start stop step : R, 0 < step -> NoDup (np_arange start stop step)).
  { intros start stop step P. pose proof (np_arange_sorted start stop step P) as S.
    induction S as [|x l S IH F]; constructor; auto. intros I. rewrite Forall_forall in F.
    specialize (F x I). lra. }
  rnum. split; [|split; [|split]].
  - intros x. transitivity (In x ws').
    { split; apply Permutation_in; auto using Permutation_sym. }
    rewrite <- E1, np_arange_In by lra. split.
    + intros [k [-> L]]. exists (S k). rewrite S_INR. split; [|lra]. split; [lia|].
      apply INR_le. rewrite S_INR. simpl (INR 20).
      assert (INR k < INR 20) as Q by (simpl (INR 20); lra). apply INR_lt in Q.
      assert (k <= 19)%nat as Q' by lia. apply le_INR in Q'. simpl (INR 19) in Q'. lra.
    + intros [k [[L1 L2] ->]]. destruct k as [|k]; [lia|]. exists k. rewrite S_INR. split; [lra|].
      apply le_INR in L2. rewrite S_INR in L2. simpl (INR 20) in L2. lra.
  - intros x. transitivity (In x wa').
    { split; apply Permutation_in; auto using Permutation_sym. }
    rewrite <- E2, np_arange_In by lra.
    assert (INR 72 = 72) as E72 by (rewrite INR_IZR_INZ; reflexivity).
    split.
    + intros [k [-> L]]. exists k. split; [|lra].
      assert (INR k < INR 72) as Q by lra. apply INR_lt in Q. lia.
    + intros [k [L ->]]. exists k. split; [lra|].
      assert (INR k < INR 72) as Q by (apply lt_INR; lia). lra.
  - apply (Permutation_NoDup P1). rewrite <- E1. apply ND. lra.
  - apply (Permutation_NoDup P2). rewrite <- E2. apply ND. lra.
Qed.
Print Assumptions table_default_winds.

Example table_default_winds_case : exists t : table Q, table_new RNone RNone None = Ok t /\
  length (t_ws t) = 20%nat /\ length (t_wa t) = 72%nat /\
  map (fun x => Qred x) (firstn 3 (t_ws t)) = [2; 4; 6]%Q /\
  map (fun x => Qred x) (firstn 3 (t_wa t)) = [0; 5; 10]%Q.
Proof. eexists. split; [vm_compute; reflexivity|]. repeat split; vm_compute; reflexivity. Qed.

(** Rejected arguments. *)
Theorem table_rejects : forall r1 r2 b,
  (r1 = RIter [] \/ (exists l s, r1 = RIter l /\ In s l /\ s < 0) \/ r1 = RNested \/
   (exists s, r1 = RStep s /\ (s <= 0 \/ 40 < s)) \/
   r2 = RIter [] \/ r2 = RNested \/ (exists s, r2 = RStep s /\ (s <= 0 \/ 360 < s)) \/
   (exists l, b = Some (Nd1 l)) \/ b = Some NdOther \/
   exists ws wa bs, r1 = RIter ws /\ r2 = RIter wa /\ b = Some (Nd2 bs) /\
     ~ shaped (length wa) (length ws) bs) ->
  table_new (T := R) r1 r2 b = Raise ValueError.
Proof.
  assert (forall m s : R, s <= 0 \/ m < s -> stepsize_resolution m s = Raise ValueError) as ST.
  { intros m s B. unfold stepsize_resolution. rnum.
    destruct (Rleb_spec s 0); auto. destruct (Rltb_spec m s); auto. lra. }
  assert (forall r, build_ws (T := R) r = Raise ValueError \/ exists l, build_ws r = Ok l) as W1.
  { intros [|s|l|]; simpl; eauto.
    - unfold stepsize_resolution. destruct (nleb s _); auto. destruct (nltb _ s); eauto.
    - destruct l; auto. destruct (existsb _ _); eauto. }
  assert (forall r, build_wa (T := R) r = Raise ValueError \/ exists l, build_wa r = Ok l) as W2.
  { intros [|s|l|]; simpl; eauto.
    - unfold stepsize_resolution. destruct (nleb s _); auto. destruct (nltb _ s); eauto.
    - destruct l; eauto. }
  intros r1 r2 b H. unfold table_new.
  destruct (W1 r1) as [E1|[ws E1]]; rewrite E1; cbn [rbind]; auto.
  destruct (W2 r2) as [E2|[wa E2]]; rewrite E2; cbn [rbind]; auto.
  destruct H as [->|[[l [s [-> [I N]]]]|[->|[[s [-> B]]|[->|[->|[[s [-> B]]|[[l ->]|[->|H]]]]]]]]];
    auto; try discriminate.
  - simpl in E1. destruct l; [destruct I|]. destruct (existsb _ _) eqn:X; [discriminate|].
    rewrite existsb_neg in X. specialize (X s I). lra.
  - simpl in E1. rewrite ST in E1; [discriminate|]. rnum. auto.
  - simpl in E2. rewrite ST in E2; [discriminate|]. rnum. auto.
  - destruct H as [ws0 [wa0 [bs [-> [-> [-> N]]]]]].
    destruct (has_shape bs (length wa) (length ws)) eqn:HS; auto. exfalso. apply N.
    apply has_shape_iff in HS. simpl in E1, E2. destruct ws0; [discriminate|].
    destruct (existsb _ _); [discriminate|]. destruct wa0; [discriminate|].
    injection E1 as <-. injection E2 as <-. simpl in HS. rewrite map_length in HS. auto.
Qed.
Print Assumptions table_rejects.

Example table_steps_case : exists t : table Q,
  table_new (RStep 10%Q) (RStep 90%Q) None = Ok t /\ length (t_ws t) = 3%nat /\
  map (fun x => Qred x) (t_ws t) = [10; 20; 30]%Q /\
  map (fun x => Qred x) (t_wa t) = [90; 180; 270]%Q.
Proof. eexists. split; [vm_compute; reflexivity|]. repeat split; vm_compute; reflexivity. Qed.

Example table_rejects_case :
  table_new (T := R) (RIter [6; -1]) (RIter [90]) None = Raise ValueError.
Proof.
  apply table_rejects. right. left. exists [6; -1], (-1).
  split; [reflexivity|]. split; [right; left; reflexivity|lra].
Qed.

(* ------------------------------------------------------------------ *)
(** ** C19 *)

Theorem change_entries_changes : forall (t : table R) new ws wa wa',
  table_ok t -> no_duplicates t ->
  match ws with None => True | Some l =>
    l <> [] /\ StronglySorted Rlt l /\ (forall x, In x l -> In x (t_ws t)) end ->
  match wa, wa' with
  | None, None => True
  | Some l, Some l' => Forall2 reduced l l' /\
      l' <> [] /\ StronglySorted Rlt l' /\ (forall x, In x l' -> In x (t_wa t))
  | _, _ => False end ->
  (~ fits new (length (wsel wa' (t_wa t))) (length (wsel ws (t_ws t))) ->
   change_entries t new ws wa = Raise ValueError) /\
  (fits new (length (wsel wa' (t_wa t))) (length (wsel ws (t_ws t))) ->
   exists t', change_entries t new ws wa = Ok t' /\
     t_ws t' = t_ws t /\ t_wa t' = t_wa t /\ table_ok t' /\
     (forall i j s a v, nth_error (wsel ws (t_ws t)) j = Some s ->
        nth_error (wsel wa' (t_wa t)) i = Some a ->
        new_value new (length (wsel wa' (t_wa t))) (length (wsel ws (t_ws t))) i j v ->
        getitem t' [s] [a] = Ok v) /\
     (forall s a v, ~ (In s (wsel ws (t_ws t)) /\ In a (wsel wa' (t_wa t))) ->
        (entry t' s a v <-> entry t s a v))).
Proof.
  intros t new ws wa wa' OK ND HS HA.
  assert (match wa, wa' with
          | None, None => True
          | Some l, Some l' => l' = map (fun x => nmod x 360) l /\
              l' <> [] /\ StronglySorted Rlt l' /\ (forall x, In x l' -> In x (t_wa t))
          | _, _ => False end) as HA'.
  { destruct wa as [l|], wa' as [l'|]; auto. destruct HA as [F HA]. split; auto.
    clear - F. induction F; simpl; auto. apply reduced_iff in H. rnum. congruence. }
  destruct (change_entries_ok t new ws wa wa' OK ND HS HA') as [C1 C2]. split; auto.
  intros F. destruct (C2 F) as [t' [E [E1 [E2 [_ [OK' [V1 V2]]]]]]].
  exists t'. split; auto. split; auto. split; auto. split; auto. split; auto.
  intros i j s a v Hs Ha Hv.
  assert (In s (t_ws t)) as Is.
  { apply nth_error_In in Hs. destruct ws as [l|]; simpl in Hs; auto. apply HS. auto. }
  assert (In a (t_wa t)) as Ia.
  { apply nth_error_In in Ha. destruct wa as [l|], wa' as [l'|]; simpl in Ha; try tauto. apply HA. auto. }
  assert (0 <= a < 360) by (apply (ok_angle t); auto).
  apply getitem_entry.
  - unfold no_duplicates in *. rewrite E1, E2. auto.
  - apply (ok_speed t); auto.
  - rewrite nmod_small by auto. eapply V1; eauto.
Qed.
Print Assumptions change_entries_changes.

Theorem change_entries_rejects : forall (t : table R) new ws wa,
  (match ws with None => False | Some l => l = [] \/ exists x, In x l /\ (x < 0 \/ ~ In x (t_ws t)) end \/
   match wa with None => False
   | Some l => l = [] \/ exists x, In x l /\ (forall b, reduced x b -> ~ In b (t_wa t)) end) ->
  change_entries t new ws wa = Raise ValueError.
Proof.
  intros t new ws wa H. apply change_entries_missing. destruct H as [H|H]; [left|right].
  - destruct ws as [l|]; auto. destruct H as [H|[x [I H]]]; auto. right. exists x. split; auto.
    intros [P Q]. destruct H; [lra|auto].
  - destruct wa as [l|]; auto. destruct H as [H|[x [I H]]]; auto. right. exists x. split; auto.
    apply H. apply reduced_iff. auto.
Qed.
Print Assumptions change_entries_rejects.

(** A table with sorted resolutions for the examples. *)
Definition ex_t : table R := mkTable [6; 10] [60; 90; 180] [[4; 6]; [5; 7]; [2; 3]] false.

Lemma ex_t_ok : table_ok ex_t /\ no_duplicates ex_t /\ one_sided (t_wa ex_t).
Proof.
  split; [|split].
  - unfold table_ok, ex_t. simpl. repeat split; repeat constructor; rlist.
  - split; unfold ex_t; simpl; repeat constructor; rlist.
  - intros a b Ha Hb [B [k E]]. unfold ex_t in *. simpl in *.
    assert (k = 0)%Z as ->.
    { assert (-1 < k < 1)%Z; [|lia]. split; apply lt_IZR; rlist. }
    rlist.
Qed.

Example change_entries_case :
  exists t', change_entries ex_t (Nd2 [[1; 11]; [12; 13]]) None (Some [60; 180]) = Ok t' /\
    getitem t' [10] [180] = Ok 13 /\ getitem t' [6] [60] = Ok 1 /\ entry t' 6 90 5.
Proof.
  destruct ex_t_ok as [OK [ND _]].
  destruct (change_entries_changes ex_t (Nd2 [[1; 11]; [12; 13]]) None (Some [60; 180]) (Some [60; 180]) OK ND I)
    as [_ H].
  { split; [repeat constructor; try lra; exists 0%Z; lra|].
    split; [discriminate|]. split; [repeat constructor; lra|]. unfold ex_t. rlist. }
  simpl in H. destruct H as [t' [E [E1 [E2 [OK' [V1 V2]]]]]].
  { split; [discriminate|]. split; [discriminate|]. split; [reflexivity|]. rlist. }
  exists t'. split; auto. split; [|split].
  - apply (V1 1%nat 1%nat); auto. split; [discriminate|]. split; [discriminate|].
    split; [split; [reflexivity|rlist]|]. exists [12; 13]. auto.
  - apply (V1 0%nat 0%nat); auto. split; [discriminate|]. split; [discriminate|].
    split; [split; [reflexivity|rlist]|]. exists [1; 11]. auto.
  - apply V2; [rlist|]. exists 1%nat, 0%nat. split; [reflexivity|]. split; [reflexivity|]. exists [5; 7]. auto.
Qed.

(** For a selection that is not ascending the values go to the wrong cells: the
    value given for 180 degrees is written to 60 degrees. *)
Theorem change_entries_unsorted_refuted : exists (t t' : table Q) new,
  t = mkTable [6; 10]%Q [60; 180]%Q [[4; 6]; [2; 3]]%Q false /\ new = Nd2 [[100; 101]; [102; 103]]%Q /\
  change_entries t new (Some [6; 10]%Q) (Some [180; 60]%Q) = Ok t' /\
  getitem t' [6]%Q [180]%Q = Ok 102%Q /\ getitem t' [6]%Q [60]%Q = Ok 100%Q.
Proof. do 3 eexists. split; [reflexivity|]. split; [reflexivity|]. split; [reflexivity|]. split; reflexivity. Qed.
Print Assumptions change_entries_unsorted_refuted.

(** The same winds, in whatever order and however often they are listed; angles count by the
    angle in [0, 360) they stand for. *)
Definition same_speeds (l1 l2 : option (list R)) : Prop :=
  match l1, l2 with
  | None, None => True
  | Some a, Some b => forall x, In x a <-> In x b
  | _, _ => False
  end.
Definition same_angles (l1 l2 : option (list R)) : Prop :=
  match l1, l2 with
  | None, None => True
  | Some a, Some b => forall y, (exists x, In x a /\ reduced x y) <-> (exists x, In x b /\ reduced x y)
  | _, _ => False
  end.

Lemma get_indices_same : forall norm1 norm2 (res : list R) (l1 l2 l1' l2' : list R),
  norm1 l1 = Ok l1' -> norm2 l2 = Ok l2' -> (forall x, In x l1' <-> In x l2') ->
  get_indices norm1 res (Some l1) = get_indices norm2 res (Some l2).
Proof.
  intros norm1 norm2 res l1 l2 l1' l2' E1 E2 S. unfold get_indices. rewrite E1, E2. cbn [rbind].
  assert (l1' = [] <-> l2' = []) as N.
  { split; intros ->; [destruct l2' as [|y r]|destruct l1' as [|y r]]; auto; exfalso; apply (S y); left; auto. }
  assert (forallb (fun x => nmem x res) l1' = forallb (fun x => nmem x res) l2') as F.
  { apply eq_true_iff_eq. rewrite !forallb_forall. split; intros H x Hx; apply H; apply S; auto. }
  assert (forall x, nmem x l1' = nmem x l2') as M.
  { intros x. unfold nmem. apply eq_true_iff_eq. rewrite !existsb_exists. split; intros [y [I Q]]; exists y; split; auto; apply S; auto. }
  destruct l1' as [|x1 r1], l2' as [|x2 r2]; auto; try (exfalso; destruct N as [N1 N2]; (discriminate N1 || discriminate N2); auto; fail).
  rewrite F. destruct (forallb _ (x2 :: r2)); auto. f_equal. f_equal. apply filter_ext. intros ix. apply M.
Qed.

(** The selected winds are a set: the order and repetitions of the lists make no difference, the
    new values are always distributed in ascending order of the winds. *)
Theorem change_entries_set : forall (t : table R) new ws1 ws2 wa1 wa2, same_speeds ws1 ws2 -> same_angles wa1 wa2 ->
  change_entries t new ws1 wa1 = change_entries t new ws2 wa2.
Proof.
  intros t new ws1 ws2 wa1 wa2 HS HA. unfold change_entries.
  assert (get_indices normalize_ws (t_ws t) ws1 = get_indices normalize_ws (t_ws t) ws2) as ->.
  { destruct ws1 as [l1|], ws2 as [l2|]; cbn in HS; try tauto.
    destruct (existsb (fun x : R => nltb x (nofZ 0)) l1) eqn:B1.
    - assert (existsb (fun x : R => nltb x (nofZ 0)) l2 = true) as B2.
      { apply existsb_exists in B1. destruct B1 as [x [I Q]]. apply existsb_exists. exists x. split; auto. apply HS; auto. }
      unfold get_indices, normalize_ws. rewrite B1, B2. reflexivity.
    - assert (existsb (fun x : R => nltb x (nofZ 0)) l2 = false) as B2.
      { apply not_true_iff_false. intros B2. apply existsb_exists in B2. destruct B2 as [x [I Q]]. apply not_true_iff_false in B1. apply B1.
        apply existsb_exists. exists x. split; auto. apply HS; auto. }
      eapply get_indices_same; [unfold normalize_ws; rewrite B1; reflexivity|unfold normalize_ws; rewrite B2; reflexivity|auto]. }
  assert (get_indices normalize_wa (t_wa t) wa1 = get_indices normalize_wa (t_wa t) wa2) as ->; [|reflexivity].
  destruct wa1 as [l1|], wa2 as [l2|]; cbn in HA; try tauto.
  assert (forall l y, In y (map (fun x : R => nmod x (nofZ 360)) l) <-> exists x, In x l /\ reduced x y) as RD.
  { intros l y. rewrite in_map_iff. split; intros [x [P Q]]; exists x.
    - split; auto. apply reduced_iff. rnum. auto.
    - split; auto. apply reduced_iff in Q. rnum. auto. }
  eapply get_indices_same; [reflexivity|reflexivity|]. intros y. rewrite !RD. apply HA.
Qed.
Print Assumptions change_entries_set.

Example change_entries_set_case : same_speeds (Some [10; 6; 10]) (Some [6; 10]) /\ same_angles (Some [180; 60; 420]) (Some [60; 180]).
Proof.
  split; [cbn; tauto|]. intros y. split; intros [x [I Q]].
  - destruct I as [<-|[<-|[<-|[]]]]; [exists 180|exists 60|exists 60]; (split; [simpl; tauto|]); auto.
    destruct Q as [B [k E]]. split; auto. exists (k - 1)%Z. rewrite minus_IZR. lra.
  - exists x. split; auto. simpl in *. tauto.
Qed.

(* ------------------------------------------------------------------ *)
(** ** C20 *)

Theorem symmetrize_entries : forall t : table R,
  table_ok t -> no_duplicates t -> t_wa t <> [] -> t_ws t <> [] ->
  exists t', table_symmetrize t = Ok t' /\ table_ok t' /\ t_ws t' = t_ws t /\
    (forall s a v, entry t' s a v <->
       (entry t s a v \/ exists b, entry t s b v /\ reduced (360 - b) a)) /\
    (one_sided (t_wa t) -> no_duplicates t').
Proof. exact symmetrize_ok. Qed.
Print Assumptions symmetrize_entries.

Theorem symmetrize_symmetric : forall (t : table R) nhood interp,
  table_ok t -> no_duplicates t -> t_wa t <> [] -> t_ws t <> [] -> one_sided (t_wa t) ->
  exists t', table_symmetrize t = Ok t' /\
    (forall s a v, entry t s a v ->
       table_call nhood interp t' s a = Ok v /\ table_call nhood interp t' s (360 - a) = Ok v) /\
    (forall s a, In s (t_ws t') -> In a (t_wa t') ->
       exists v, table_call nhood interp t' s a = Ok v /\ table_call nhood interp t' s (360 - a) = Ok v).
Proof.
  intros t nhood interp OK ND NA NS OS.
  destruct (symmetrize_ok t OK ND NA NS) as [t' [E [OK' [EW [EN N']]]]]. specialize (N' OS).
  exists t'. split; auto.
  assert (forall s a v, entry t' s a v -> table_call nhood interp t' s a = Ok v) as C.
  { intros s a v H. apply table_call_entry. pose proof H as [i [j [H1 [H2 _]]]].
    apply nth_error_In in H1. apply nth_error_In in H2.
    apply getitem_entry; auto; [apply (ok_speed t'); auto|]. rewrite nmod_small; auto. apply (ok_angle t'); auto. }
  assert (forall s a v, entry t' s (nmod (360 - a) 360) v -> table_call nhood interp t' s (360 - a) = Ok v) as C'.
  { intros s a v H. apply table_call_entry. pose proof H as [i [j [H1 _]]].
    apply nth_error_In in H1. apply getitem_entry; auto. apply (ok_speed t'); auto. }
  assert (forall s a v, entry t' s a v -> entry t' s (nmod (360 - a) 360) v) as M.
  { intros s a v H. apply EN in H. apply EN. destruct H as [H|[b [H1 H2]]].
    - right. exists a. split; auto. apply reduced_iff. auto.
    - left. assert (nmod (360 - a) 360 = b) as ->; auto.
      assert (0 <= b < 360). { destruct H1 as [i [j [_ [H1 _]]]]. apply nth_error_In in H1. apply (ok_angle t); auto. }
      destruct H2 as [R2 [k K]]. apply (nmod_unique _ _ _ k); lra. }
  split.
  - intros s a v H. assert (entry t' s a v) by (apply EN; auto). auto.
  - intros s a Hs Ha. apply In_nth_error in Hs. apply In_nth_error in Ha.
    destruct Hs as [j Hj]. destruct Ha as [i Hi].
    destruct OK' as [_ [_ [_ [_ [L1 L2]]]]].
    assert (i < length (t_wa t'))%nat by (apply nth_error_Some; congruence).
    assert (j < length (t_ws t'))%nat by (apply nth_error_Some; congruence).
    destruct (nth_error (t_bs t') i) as [r|] eqn:Er; [|apply nth_error_None in Er; lia].
    destruct (nth_error r j) as [v|] eqn:Ev.
    + assert (entry t' s a v) as EV.
      { exists i, j. split; auto. split; auto. exists r. auto. }
      exists v. split; auto.
    + apply nth_error_None in Ev. rewrite L2 in Ev by (eapply nth_error_In; eauto). lia.
Qed.
Print Assumptions symmetrize_symmetric.

Example symmetrize_case : forall nhood interp, exists t', table_symmetrize ex_t = Ok t' /\
  table_call nhood interp t' 10 90 = Ok 7 /\ table_call nhood interp t' 10 (360 - 90) = Ok 7 /\
  table_call nhood interp t' 6 180 = Ok 2.
Proof.
  intros nhood interp. destruct ex_t_ok as [OK [ND OS]].
  destruct (symmetrize_symmetric ex_t nhood interp OK ND ltac:(discriminate) ltac:(discriminate) OS)
    as [t' [E [H _]]].
  exists t'. split; auto.
  assert (entry ex_t 10 90 7) as E1.
  { exists 1%nat, 1%nat. split; [reflexivity|]. split; [reflexivity|]. exists [5; 7]. auto. }
  assert (entry ex_t 6 180 2) as E2.
  { exists 2%nat, 0%nat. split; [reflexivity|]. split; [reflexivity|]. exists [2; 3]. auto. }
  split; [apply (H _ _ _ E1)|]. split; [apply (H _ _ _ E1)|apply (H _ _ _ E2)].
Qed.

(** Symmetrising a table that already has both sides lists angles twice and makes
    item access fail. *)
Theorem symmetrize_twice_refuted : exists t t' t'' : table Q,
  table_symmetrize t = Ok t' /\ table_symmetrize t' = Ok t'' /\
  getitem t' [8]%Q [60]%Q = Ok 5%Q /\ getitem t'' [8]%Q [60]%Q = Raise TypeError.
Proof.
  exists (mkTable [8]%Q [60]%Q [[5]]%Q false). do 2 eexists.
  split; [vm_compute; reflexivity|]. split; [vm_compute; reflexivity|]. split; reflexivity.
Qed.
Print Assumptions symmetrize_twice_refuted.

(* ------------------------------------------------------------------ *)
(** ** C22 *)

(** Calling a table with its default interpolator and any neighbourhood that marks
    points by their offset from the query. *)
Theorem table_call_in_range : forall norm norm_all nhood (Near : R * R -> Prop) (t : table R) s a,
  rowwise norm norm_all -> (forall l, exists m, nhood l = Ok m /\ marks m l Near) ->
  table_ok t -> (s < 0 \/ ~ In s (t_ws t) \/ forall b, reduced a b -> ~ In b (t_wa t)) ->
  (exists s' a' v, entry t s' a' v /\ Near (s' - s, a' - a)) ->
  exists v, table_call nhood (amean norm_all 1 (default_distr [50])) t s a = Ok v /\
    forall lo hi, (forall s' a' x, entry t s' a' x -> Near (s' - s, a' - a) -> lo <= x <= hi) ->
      lo <= v <= hi.
Proof.
  intros norm norm_all nhood Near t s a RW NH OK MISS [s0 [a0 [v0 [E0 N0]]]].
  rewrite table_call_missing.
  - destruct (interpolate_marks nhood (amean norm_all 1 (default_distr [50])) Near (points t) s a NH)
      as [ps [I ->]].
    destruct (amean_default_any norm norm_all [50] ps (repeat 1 (length ps)) (s, a) RW) as [v [E B]].
    + intros ->. apply (proj2 (I (s0, a0, v0))). split; auto. apply points_In; auto.
    + apply repeat_length.
    + exists v. split; auto. intros lo hi H. apply B. intros x Hx. apply in_map_iff in Hx.
      destruct Hx as [[[s' a'] x'] [<- Hp]]. apply I in Hp. destruct Hp as [Hp Hn].
      apply points_In in Hp; auto. apply (H s' a'); auto.
  - destruct MISS as [H|[H|H]]; auto. right. right. apply H. apply reduced_iff. auto.
Qed.
Print Assumptions table_call_in_range.

(** With the defaults ([Ball(radius=1)] and the scaled Euclidean norm). *)
Theorem table_call_default_in_range : forall norm_one (t : table R) s a,
  table_ok t -> (s < 0 \/ ~ In s (t_ws t) \/ forall b, reduced a b -> ~ In b (t_wa t)) ->
  (exists s' a' v, entry t s' a' v /\ std_norm (s' - s, a' - a) <= 1) ->
  exists v, table_call (ball_contains std_norm_all norm_one 1)
              (amean std_norm_all 1 (default_distr [50])) t s a = Ok v /\
    forall lo hi, (forall s' a' x, entry t s' a' x -> std_norm (s' - s, a' - a) <= 1 -> lo <= x <= hi) ->
      lo <= v <= hi.
Proof.
  intros norm_one t s a OK MISS EX.
  apply (table_call_in_range std_norm std_norm_all _ (fun d => std_norm d <= 1) t s a); auto.
  - apply std_norm_rowwise.
  - intros l. unfold ball_contains. rewrite std_norm_rowwise. eexists. split; [reflexivity|].
    eexists. split; [reflexivity|]. split; [rewrite !map_length; auto|].
    intros i p Hp. rewrite !nth_error_map, Hp. simpl. rnum. destruct (Rleb_spec (std_norm p) 1).
    + split; auto.
    + split; [discriminate|lra].
Qed.
Print Assumptions table_call_default_in_range.

Example table_call_in_range_case : forall norm_one,
  exists v, table_call (ball_contains std_norm_all norm_one 1)
              (amean std_norm_all 1 (default_distr [50])) ex_t 8 75 = Ok v /\ 2 <= v <= 7.
Proof.
  intros norm_one. destruct ex_t_ok as [OK _].
  destruct (table_call_default_in_range norm_one ex_t 8 75 OK) as [v [E B]].
  - right. left. unfold ex_t. rlist.
  - exists 6, 60, 4. split.
    + exists 0%nat, 0%nat. split; [reflexivity|]. split; [reflexivity|]. exists [4; 6]. auto.
    + unfold std_norm. simpl. apply Rle_trans with (sqrt 1); [apply sqrt_le_1_alt; lra|rewrite sqrt_1; lra].
  - exists v. split; auto. apply B. intros s' a' x [i [j [_ [_ [r [H1 H2]]]]]] _.
    apply nth_error_In in H1. apply nth_error_In in H2. unfold ex_t in H1. simpl in H1. destruct H1 as [<-|[<-|[<-|[]]]]; rlist.
Qed.

(* ------------------------------------------------------------------ *)
(** ** C84 *)

(** A call at a listed wind is 360 degree periodic (see [table_returns_entries]), a
    call between the entries is not: the angle is not reduced before interpolating. *)
Theorem table_call_periodic_refuted : exists (t : table Q) interp nhood,
  table_new (RIter [8]%Q) (RIter [0; 90]%Q) (Some (Nd2 [[2]; [6]]%Q)) = Ok t /\
  (forall pts, nhood pts = Ok (MList (map (fun _ => true) pts))) /\
  (forall pts w g, interp pts w g =
     idw (fun l => Ok (map (fun d => nabs (fst d) + nabs (snd d))%num l)) 1 pts g) /\
  table_call nhood interp t 8%Q 45%Q <> table_call nhood interp t 8%Q (45 + 360)%Q.
Proof.
  eexists. exists (fun pts _ g => idw (fun l => Ok (map (fun d => nabs (fst d) + nabs (snd d))%num l)) 1 pts g).
  exists (fun pts => Ok (MList (map (fun _ => true) pts))).
  split; [vm_compute; reflexivity|]. split; [reflexivity|]. split; [reflexivity|].
  vm_compute. discriminate.
Qed.
Print Assumptions table_call_periodic_refuted.

(* ------------------------------------------------------------------ *)
(** ** C23 *)

Lemma where_ws_first : forall (t : table R) pyscalar s, table_ok t -> no_duplicates t -> In s (t_ws t) ->
  t_pylist t && pyscalar = false ->
  exists j, where_ws t pyscalar s = [j] /\ nth_error (t_ws t) j = Some s.
Proof.
  intros t py s OK [N _] I E. unfold where_ws. rewrite E. apply In_nth_error in I. destruct I as [j Hj].
  exists j. split; auto.
  assert (forall L, L = map fst (filter (fun ix => neqb (snd ix) s) (enumerate (t_ws t))) -> L = [j]) as H; auto.
  intros L HL.
  assert (StronglySorted lt L) as S.
  { rewrite HL. apply (StronglySorted_map _ _ fst (fun x y => fst x < fst y)%nat); auto.
    apply StronglySorted_filter. apply (StronglySorted_of_map _ _ fst lt).
    rewrite map_fst_enumerate. apply seq_sorted. }
  apply (sorted_same_elements _ lt); auto.
  - intros; lia.
  - intros; lia.
  - repeat constructor.
  - intros x. rewrite HL, in_map_iff. split.
    + intros [[i y] [<- H]]. apply filter_In in H. destruct H as [H1 H2]. simpl in *. rnum.
      apply Reqb_eq in H2. subst. apply ListX.enumerate_In in H1. left.
      apply (NoDup_nth_error_inj _ (t_ws t) j i s); auto.
    + intros [<-|[]]. exists (j, s). split; auto. apply filter_In. split; [apply ListX.enumerate_In; auto|].
      simpl. rnum. apply Reqb_refl.
Qed.

(** A slice for a listed wind speed holds the entries of the table. *)
Theorem table_slice_listed : forall nhood interp (t : table R) pyscalar s,
  table_ok t -> no_duplicates t -> In s (t_ws t) -> t_pylist t && pyscalar = false ->
  exists sl, table_slice nhood interp t pyscalar s = Ok sl /\
    map pwa sl = t_wa t /\ (forall p, In p sl -> pws p = s /\ entry t s (pwa p) (pbs p)).
Proof.
  intros nhood interp t py s OK ND I E.
  destruct (where_ws_first t py s OK ND I E) as [j [W Hj]].
  unfold table_slice. rewrite (proj2 (nmem_R s (t_ws t)) I), W. cbn [rbind].
  pose proof OK as [_ [_ [_ [_ [L1 L2]]]]]. eexists. split; [reflexivity|].
  rewrite map_map. unfold pwa, pws, pbs. simpl. split.
  - apply ListX.map_fst_combine. rewrite map_length. auto.
  - intros p Hp. apply in_map_iff in Hp. destruct Hp as [[a v] [<- Hp]]. simpl. split; auto.
    apply In_nth_error in Hp. destruct Hp as [i Hi]. apply nth_error_combine in Hi. destruct Hi as [H1 H2].
    rewrite nth_error_map in H2. destruct (nth_error (t_bs t) i) as [r|] eqn:Er; [|discriminate].
    simpl in H2. injection H2 as <-. exists i, j. split; auto. split; auto. exists r. split; auto.
    apply nth_error_nth'. rewrite L2; [|eapply nth_error_In; eauto]. apply nth_error_Some. congruence.
Qed.
Print Assumptions table_slice_listed.

(** A slice for another wind speed holds the values of calling the table. *)
Theorem table_slice_called : forall nhood interp (t : table R) pyscalar s,
  ~ In s (t_ws t) ->
  (forall sl, table_slice nhood interp t pyscalar s = Ok sl ->
     map pwa sl = t_wa t /\
     forall p, In p sl -> pws p = s /\ table_call nhood interp t s (pwa p) = Ok (pbs p)) /\
  ((forall a, In a (t_wa t) -> exists v, table_call nhood interp t s a = Ok v) ->
   exists sl, table_slice nhood interp t pyscalar s = Ok sl).
Proof.
  intros nhood interp t py s NI. unfold table_slice.
  destruct (nmem s (t_ws t)) eqn:M; [apply nmem_R in M; contradiction|]. split.
  - intros sl. destruct (mapM _ _) as [bsp|] eqn:E; [|discriminate]. cbn [rbind].
    intros X. injection X as <-.
    pose proof (mapM_length _ _ _ _ _ E) as L. rewrite map_map. unfold pwa, pws, pbs. simpl. split.
    + apply ListX.map_fst_combine. auto.
    + intros p Hp. apply in_map_iff in Hp. destruct Hp as [[a v] [<- Hp]]. simpl. split; auto.
      apply In_nth_error in Hp. destruct Hp as [i Hi]. apply nth_error_combine in Hi. destruct Hi as [H1 H2].
      destruct (mapM_nth _ _ _ _ _ E i a H1) as [y [E1 E2]]. congruence.
  - intros H. assert (exists l, mapM (fun wa => table_call nhood interp t s wa) (t_wa t) = Ok l) as [l ->].
    { clear - H. induction (t_wa t) as [|a l IH]; simpl; eauto.
      destruct (H a) as [v ->]; [left; auto|]. cbn [rbind]. destruct IH as [ys ->]; [|cbn [rbind]; eauto].
      intros; apply H; right; auto. }
    cbn [rbind]. eauto.
Qed.
Print Assumptions table_slice_called.

(** Slices come in the order of the requested wind speeds. *)
Theorem table_slices_order : forall nhood interp (t : table R) pyscalar ws sls,
  ws_to_slices nhood interp t pyscalar ws = Ok sls ->
  length sls = length ws /\
  forall i s, nth_error ws i = Some s ->
    exists sl, nth_error sls i = Some sl /\ table_slice nhood interp t pyscalar s = Ok sl.
Proof.
  intros nhood interp t py ws sls E. split.
  - eapply mapM_length; eauto.
  - intros i s Hi. destruct (mapM_nth _ _ _ _ _ E i s Hi) as [y [E1 E2]]. eauto.
Qed.
Print Assumptions table_slices_order.

Example table_slice_case : forall nhood interp,
  exists sl, table_slice nhood interp ex_t true 10 = Ok sl /\ map pwa sl = [60; 90; 180] /\
    forall p, In p sl -> pws p = 10 /\ entry ex_t 10 (pwa p) (pbs p).
Proof.
  intros. destruct ex_t_ok as [OK [ND _]].
  apply (table_slice_listed nhood interp ex_t true 10 OK ND); auto. unfold ex_t. rlist.
Qed.

(** A table created without boat speeds keeps its resolutions as Python lists; a
    slice for one listed wind speed given as a plain number raises IndexError. *)
Theorem zero_table_slice_refuted : exists t : table Q,
  table_new (RIter [6; 8]%Q) (RIter [60; 90]%Q) None = Ok t /\ In 8%Q (t_ws t) /\
  forall nhood interp, table_slice nhood interp t true 8%Q = Raise IndexError.
Proof.
  eexists. split; [reflexivity|]. split; [right; left; reflexivity|]. reflexivity.
Qed.
Print Assumptions zero_table_slice_refuted.
