From Coq Require Import List Bool Arith ZArith Reals Lra Lia Permutation Sorted.
From Verif Require Import Py Num PySort ListX WPointsModel NhoodModel NhoodSpec NhoodProofs InterpModel
  InterpSpec InterpProofs TableModel TableSpec TableProofs TableProofs2.
Import ListNotations.
Open Scope R_scope.

Lemma strictly_sorted : forall l : list R, StronglySorted Rle l -> NoDup l -> StronglySorted Rlt l.
Proof.
  induction l as [|a l IH]; intros S N; [constructor|].
  inversion S as [|? ? S' F]; inversion N as [|? ? I N']; subst. constructor; auto.
  rewrite Forall_forall in *. intros x Hx. specialize (F x Hx).
  destruct (Rle_lt_or_eq_dec a x F); auto. subst. contradiction.
Qed.

Lemma listed_cell : forall ws wa bs i j s a, shaped (length wa) (length ws) bs ->
  nth_error ws j = Some s -> nth_error wa i = Some a -> listed ws wa bs i j s a (cell bs i j).
Proof.
  intros ws wa bs i j s a [SL SR] Hj Hi. split; auto. split; auto.
  assert (i < length wa)%nat as Li by (apply nth_error_Some; congruence).
  assert (j < length ws)%nat as Lj by (apply nth_error_Some; congruence).
  destruct (nth_error bs i) as [r|] eqn:E; [|apply nth_error_None in E; lia].
  exists r. split; auto. unfold cell. rewrite (nth_error_nth _ _ [] E).
  apply nth_error_nth'. rewrite (SR r); auto. eapply nth_error_In; eauto.
Qed.

Lemma concat_nth : forall (rows : list (list R)) n m i j r v, shaped n m rows ->
  nth_error rows i = Some r -> nth_error r j = Some v ->
  nth_error (concat rows) (i * m + j) = Some v.
Proof.
  induction rows as [|r0 rows IH]; intros n m i j r v [SL SR] Hi Hj; [destruct i; discriminate|].
  assert (length r0 = m) as L0 by (apply SR; left; auto).
  destruct i as [|i]; simpl in Hi.
  - inversion Hi; subst. simpl. rewrite nth_error_app1; auto. apply nth_error_Some. congruence.
  - simpl. rewrite nth_error_app2 by lia.
    replace (m + i * m + j - length r0)%nat with (i * m + j)%nat by lia.
    eapply (IH (length rows)); eauto. split; auto. intros; apply SR; right; auto.
Qed.

Lemma concat_shaped : forall (rows : list (list R)) n m, shaped n m rows ->
  length (concat rows) = (n * m)%nat.
Proof.
  induction rows as [|r0 rows IH]; intros n m [SL SR]; simpl in *; [subst; auto|].
  rewrite app_length, (IH (length rows) m), (SR r0); auto; [subst; simpl; lia|].
  split; auto.
Qed.

(** Shape tests of [change_entries]. *)
Definition shape_test (new : nd R) (n m : nat) : bool :=
  if Nat.eqb n 1 && Nat.eqb m 1 then shape1 new 1
  else if Nat.eqb n 1 then shape1 new m
  else if Nat.eqb m 1 then shape1 new n
  else shape2 new n m.

Lemma shape_test_iff : forall new n m, shape_test new n m = true <-> fits new n m.
Proof.
  intros new n m. unfold shape_test, fits, shape1, shape2.
  destruct (Nat.eqb_spec n 1) as [En|En]; destruct (Nat.eqb_spec m 1) as [Em|Em]; simpl;
    destruct new as [l|rows|]; rewrite ?Nat.eqb_eq; rewrite ?has_shape_iff; subst; split; intros; try discriminate;
    try tauto; try (intuition lia).
Qed.

Lemma flat_length : forall new n m, fits new n m -> length (flat new) = (n * m)%nat.
Proof.
  intros [l|rows|] n m H; simpl in *; [|apply concat_shaped; tauto|tauto].
  destruct H as [[-> H]|[-> H]]; lia.
Qed.

Lemma flat_value : forall new n m i j v, new_value new n m i j v ->
  nth_error (flat new) (i * m + j) = Some v.
Proof.
  intros [l|rows|] n m i j v H; simpl in *; [| |tauto].
  - destruct H as [[-> [L [-> H]]]|[-> [L [-> H]]]].
    + simpl. auto.
    + replace (i * 1 + 0)%nat with i by lia. auto.
  - destruct H as [_ [_ [SH [r [H1 H2]]]]]. eapply concat_nth; eauto.
Qed.

Lemma get_indices_sel : forall (res : list R) sel sel' norm, StronglySorted Rlt res ->
  match sel, sel' with
  | None, None => True
  | Some w, Some w' => norm w = Ok w' /\ w' <> [] /\ StronglySorted Rlt w' /\ (forall x, In x w' -> In x res)
  | _, _ => False
  end ->
  exists idx, get_indices norm res sel = Ok idx /\ StronglySorted lt idx /\
    length idx = length (wsel sel' res) /\ (forall i, In i idx -> (i < length res)%nat) /\
    forall p i, nth_error idx p = Some i <->
      (exists x, nth_error (wsel sel' res) p = Some x /\ nth_error res i = Some x).
Proof.
  intros res [w|] [w'|] norm S H; try tauto.
  - destruct H as [H1 [H2 [H3 H4]]]. apply get_indices_sorted; auto.
  - exists (seq 0 (length res)). simpl. split; auto. split; [apply seq_sorted|].
    split; [apply seq_length|]. split; [intros i Hi; apply in_seq in Hi; lia|].
    intros p i. rewrite nth_error_seq. simpl. split.
    + destruct (Nat.ltb_spec p (length res)) as [L|L]; [|discriminate]. intros E. inversion E; subst.
      destruct (nth_error res i) as [x|] eqn:Ex; [eauto|]. apply nth_error_None in Ex. lia.
    + intros [x [E1 E2]].
      assert (p = i).
      { eapply NoDup_nth_error_inj; eauto. apply sorted_lt_NoDup with (R := Rlt); auto. intros; lra. }
      subst. assert (i < length res)%nat by (apply nth_error_Some; congruence).
      rewrite (proj2 (Nat.ltb_lt i (length res))); auto.
Qed.

Lemma change_entries_ok : forall t new ws wa wa',
  table_ok t -> no_duplicates t ->
  match ws with None => True | Some l =>
    l <> [] /\ StronglySorted Rlt l /\ (forall x, In x l -> In x (t_ws t)) end ->
  match wa, wa' with
  | None, None => True
  | Some l, Some l' => l' = map (fun x => nmod x 360) l /\
      l' <> [] /\ StronglySorted Rlt l' /\ (forall x, In x l' -> In x (t_wa t))
  | _, _ => False end ->
  let S := wsel ws (t_ws t) in let A := wsel wa' (t_wa t) in
  (~ fits new (length A) (length S) -> change_entries t new ws wa = Raise ValueError) /\
  (fits new (length A) (length S) ->
   exists t', change_entries t new ws wa = Ok t' /\
     t_ws t' = t_ws t /\ t_wa t' = t_wa t /\ t_pylist t' = t_pylist t /\ table_ok t' /\
     (forall i j s a v, nth_error S j = Some s -> nth_error A i = Some a ->
        new_value new (length A) (length S) i j v -> entry t' s a v) /\
     (forall s a v, ~ (In s S /\ In a A) -> (entry t' s a v <-> entry t s a v))).
Proof.
  intros t new ws wa wa' [T1 [T2 [T3 [T4 T5]]]] [N1 N2] HS HA S A.
  destruct (get_indices_sel (t_ws t) ws ws normalize_ws) as [ci [C1 [C2 [C3 [C4 C5]]]]].
  { apply strictly_sorted; auto. }
  { destruct ws as [l|]; auto. destruct HS as [H1 [H2 H3]]. split; auto.
    unfold normalize_ws. rewrite (proj2 (existsb_neg l)); auto. }
  destruct (get_indices_sel (t_wa t) wa wa' normalize_wa) as [ri [R1 [R2 [R3 [R4 R5]]]]].
  { apply strictly_sorted; auto. }
  { destruct wa as [l|]; destruct wa' as [l'|]; auto. destruct HA as [-> H]. split; auto. }
  fold S in C3. fold A in R3.
  unfold change_entries. rewrite C1, R1. cbn [rbind].
  fold (shape_test new (length ri) (length ci)). rewrite C3, R3.
  split.
  { intros NF. destruct (shape_test new (length A) (length S)) eqn:E; auto.
    apply shape_test_iff in E. contradiction. }
  intros F. rewrite (proj2 (shape_test_iff new _ _) F).
  eexists. split; [reflexivity|]. cbn [t_ws t_wa t_bs t_pylist].
  split; auto. split; auto. split; auto.
  destruct (assign_cells (t_bs t) (length (t_wa t)) (length (t_ws t)) ri ci (flat new) T5 R2 C2 R4 C4)
    as [B1 [B2 B3]].
  { rewrite R3, C3. apply flat_length. auto. }
  set (bs' := assign_rows _ _ _) in *.
  split. { unfold table_ok. simpl. auto. }
  split.
  - intros i j s a v Hj Hi V.
    assert (In s (t_ws t)) as Is.
    { apply nth_error_In in Hj. unfold S, wsel in Hj. destruct ws; auto. apply HS. auto. }
    assert (In a (t_wa t)) as Ia.
    { apply nth_error_In in Hi. unfold A, wsel in Hi. destruct wa, wa'; try tauto. apply HA. auto. }
    apply In_nth_error in Is. destruct Is as [j' Hj'].
    apply In_nth_error in Ia. destruct Ia as [i' Hi'].
    assert (nth_error ci j = Some j') as Ej by (apply C5; exists s; auto).
    assert (nth_error ri i = Some i') as Ei by (apply R5; exists a; auto).
    exists i', j'. simpl.
    assert (cell bs' i' j' = v) as <-.
    { apply (B3 i j); auto. rewrite C3. eapply flat_value; eauto. }
    apply listed_cell; auto.
  - intros s a v N. simpl.
    assert (forall i j, nth_error (t_ws t) j = Some s -> nth_error (t_wa t) i = Some a ->
              cell bs' i j = cell (t_bs t) i j) as E.
    { intros i j Hj Hi. apply B2.
      - apply nth_error_Some. congruence.
      - apply nth_error_Some. congruence.
      - intros [Ii Ij]. apply N. apply In_nth_error in Ii. apply In_nth_error in Ij.
        destruct Ii as [p Hp]. destruct Ij as [q Hq]. apply R5 in Hp. apply C5 in Hq.
        destruct Hp as [x [P1 P2]]. destruct Hq as [y [Q1 Q2]].
        split; [replace s with y by congruence|replace a with x by congruence]; eapply nth_error_In; eauto. }
    split; intros [i [j L]]; exists i, j; simpl in *; pose proof (cell_listed _ _ _ _ _ _ _ _ L) as V;
      destruct L as [Hj [Hi _]].
    + rewrite E in V by auto. rewrite <- V. apply listed_cell; auto.
    + rewrite <- E in V by auto. rewrite <- V. apply listed_cell; auto.
Qed.

Lemma change_entries_missing : forall t new ws wa,
  (match ws with None => False | Some l => l = [] \/ exists x, In x l /\ ~ (0 <= x /\ In x (t_ws t)) end \/
   match wa with None => False
   | Some l => l = [] \/ exists x, In x l /\ ~ In (nmod x 360) (t_wa t) end) ->
  change_entries t new ws wa = Raise ValueError.
Proof.
  intros t new ws wa H. unfold change_entries.
  assert (forall sel, get_indices normalize_ws (t_ws t) sel = Raise ValueError \/
            exists l, get_indices normalize_ws (t_ws t) sel = Ok l) as G1.
  { intros [l|]; simpl; [|eauto]. unfold normalize_ws. destruct (existsb _ l); simpl; auto.
    destruct l as [|y l]; auto.
    match goal with |- context [if ?b then _ else _] => destruct b; eauto end. }
  assert (forall sel, get_indices normalize_wa (t_wa t) sel = Raise ValueError \/
            exists l, get_indices normalize_wa (t_wa t) sel = Ok l) as G2.
  { intros [l|]; simpl; [|eauto]. destruct (map _ l); auto. destruct (forallb _ _); eauto. }
  destruct (G1 ws) as [E1|[c E1]]; rewrite E1; cbn [rbind]; auto.
  destruct (G2 wa) as [E2|[r E2]]; rewrite E2; cbn [rbind]; auto.
  exfalso. destruct H as [H|H].
  - destruct ws as [l|]; [|contradiction]. unfold get_indices, normalize_ws in E1.
    destruct (existsb _ l) eqn:E; [discriminate|]. rewrite existsb_neg in E. cbn [rbind] in E1.
    destruct H as [->|[x [H1 H2]]]; [discriminate|].
    destruct l as [|y l0] eqn:L; [destruct H1|]. rewrite <- L in *.
    destruct (forallb _ l) eqn:F; [|discriminate]. rewrite forallb_forall in F.
    specialize (F x H1). apply nmem_R in F. auto.
  - destruct wa as [l|]; [|contradiction].
    rewrite (get_indices_missing (t_wa t) l (map (fun x => nmod x 360) l) normalize_wa) in E2;
      [discriminate|reflexivity|].
    destruct H as [->|[x [H1 H2]]]; [left; auto|right].
    exists (nmod x 360). split; auto. apply in_map_iff. eauto.
Qed.

(* ---- interpolation ---- *)

Lemma points_In : forall t s a v, table_ok t -> (In (s, a, v) (points t) <-> entry t s a v).
Proof.
  intros t s a v [_ [_ [_ [_ SH]]]]. unfold entry. rewrite listed_In. unfold points.
  rewrite in_flat_map. split.
  - intros [[a' r] [H1 H2]]. simpl in H2. apply in_map_iff in H2.
    destruct H2 as [[s' v'] [E H2]]. simpl in E. inversion E; subst. eauto.
  - intros [r [H1 H2]]. exists (a, r). split; auto. simpl. apply in_map_iff.
    exists (s, v). auto.
Qed.

Lemma np_mask_marks : forall A (pts : list A) (P : A -> Prop) m,
  length m = length pts -> (forall i p, nth_error pts i = Some p -> (nth_error m i = Some true <-> P p)) ->
  exists ps, np_mask pts m = Ok ps /\ (forall p, In p ps <-> In p pts /\ P p).
Proof.
  intros A pts P m L H. exists (mask_list pts m). split.
  - unfold np_mask. rewrite L, Nat.eqb_refl. auto.
  - clear -L H. revert m L H. induction pts as [|a pts IH]; intros [|c m] L H; simpl in *; try discriminate.
    + intros p. tauto.
    + assert (forall p, In p (mask_list pts m) <-> In p pts /\ P p) as I.
      { apply IH; [lia|]. intros i p Hp. apply (H (S i) p Hp). }
      pose proof (H O a eq_refl) as H0. simpl in H0.
      destruct c; simpl; intros p; rewrite I.
      * split; [intros [<-|[]]; intuition|intuition].
      * split; [intuition|]. intros [[<-|J] Hp]; [|intuition].
        exfalso. assert (Some false = Some true) by (apply H0; auto). discriminate.
Qed.
