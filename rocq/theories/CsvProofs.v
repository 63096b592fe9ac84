From Coq Require Import String Ascii.
From Coq Require Import List Bool Arith ZArith Reals Lra Lia Sorted.
From Verif Require Import Py Num PySort ListX TableModel TableSpec TableProofs TableProofs2 TableProofs3 CsvModel CsvSpec.
Import ListNotations.
Open Scope string_scope.
Open Scope list_scope.
Open Scope R_scope.

Lemma transpose_twice : forall n (rows : list (list R)),
  (forall r, In r rows -> length r = n) ->
  transpose (length rows) (transpose n rows) = rows.
Proof.
  intros n rows L. apply nth_error_ext. intros i.
  unfold transpose at 1. rewrite nth_error_map, nth_error_seq. simpl.
  destruct (Nat.ltb_spec i (length rows)) as [I|I].
  - simpl. destruct (nth_error rows i) as [r|] eqn:E; [|apply nth_error_None in E; lia].
    f_equal. unfold transpose. rewrite map_map.
    rewrite <- (map_nth_seq _ r 0). rewrite (L r) by (eapply nth_error_In; eauto).
    apply map_ext_in. intros j _. apply nth_error_nth. apply (map_nth_error (fun r => nth j r 0)). auto.
  - simpl. symmetry. apply nth_error_None. auto.
Qed.

Lemma sort_by_key_id : forall A (keys : list R) (vals : list A), length keys = length vals ->
  StronglySorted Rle keys -> sort_by_key keys vals = combine keys vals.
Proof.
  intros A keys vals L S. unfold sort_by_key. apply py_sorted_id.
  assert (StronglySorted (fun x y : R * A => Rle (fst x) (fst y)) (combine keys vals)) as S2.
  { apply (StronglySorted_of_map _ _ fst Rle). rewrite ListX.map_fst_combine; auto. }
  clear - S2. induction S2 as [|x l S IH F]; constructor; auto.
  eapply Forall_impl; [|exact F]. intros y H. unfold leP. simpl in *. rnum. apply Rleb_true. auto.
Qed.

(** Constructing a table from the parts of a table gives the table back. *)
Lemma table_new_same : forall t : table R, table_ok t -> t_ws t <> [] -> t_wa t <> [] ->
  table_new (RIter (t_ws t)) (RIter (t_wa t)) (Some (Nd2 (t_bs t))) =
  Ok (mkTable (t_ws t) (t_wa t) (t_bs t) false).
Proof.
  intros t [T1 [T2 [T3 [T4 [L1 L2]]]]] NS NA. unfold table_new.
  rewrite (build_ws_iter _ NS T3), (build_wa_iter _ NA). cbn [rbind].
  assert (map (fun x => nmod x 360) (t_wa t) = t_wa t) as ->.
  { rewrite <- (map_id (t_wa t)) at 2. apply map_ext_in. intros a Ha. apply nmod_small. auto. }
  rewrite (proj2 (has_shape_iff _ _ _)) by (split; auto). unfold sort_table.
  destruct (t_wa t) as [|a wa] eqn:EA; [contradiction|].
  destruct (t_ws t) as [|s ws] eqn:ES; [contradiction|]. rewrite <- EA, <- ES in *. symmetry in L1.
  rewrite (sort_by_key_id _ (t_wa t)) by auto. rewrite ListX.map_fst_combine, ListX.map_snd_combine by auto.
  assert (length (t_ws t) = length (transpose (length (t_ws t)) (t_bs t))) as LT
    by (rewrite transpose_length; auto).
  rewrite (sort_by_key_id _ (t_ws t)) by auto.
  rewrite ListX.map_fst_combine, ListX.map_snd_combine by auto. cbn [rbind].
  rewrite L1, transpose_twice by auto. reflexivity.
Qed.

Lemma mapM_show : forall (show : R -> string) lit l, (forall x, In x l -> lit (show x) = Ok x) ->
  mapM lit (map show l) = Ok l.
Proof.
  induction l as [|x l IH]; intros H; simpl; auto. rewrite H by (left; auto). cbn [rbind].
  rewrite IH by (intros; apply H; right; auto). reflexivity.
Qed.

Lemma mapM_mapM_show : forall (show : R -> string) lit l,
  (forall r x, In r l -> In x r -> lit (show x) = Ok x) ->
  mapM (mapM lit) (map (map show) l) = Ok l.
Proof.
  induction l as [|r l IH]; intros H; simpl; auto.
  rewrite mapM_show by (intros; apply (H r); auto; left; auto). cbn [rbind].
  rewrite IH by (intros; apply (H r0); auto; right; auto). reflexivity.
Qed.

Lemma no_degree_same : forall s, no_degree s -> remove_degree s = s.
Proof.
  induction s as [|a s IH]; intros H; auto. simpl in H. destruct H as [Ha H].
  destruct s as [|b s]; auto. change (remove_degree (String a (String b s))) with
    (if (Nat.eqb (nat_of_ascii a) 194 && Nat.eqb (nat_of_ascii b) 176)%bool
      then remove_degree s else String a (remove_degree (String b s))).
  apply Nat.eqb_neq in Ha. rewrite Ha. simpl andb. cbv iota. rewrite IH; auto.
Qed.

Lemma of_lists_same : forall t : table R, table_ok t -> t_ws t <> [] -> t_wa t <> [] ->
  table_of_lists (t_ws t) (t_wa t) (t_bs t) = Ok (mkTable (t_ws t) (t_wa t) (t_bs t) false).
Proof.
  intros t OK NS NA. unfold table_of_lists. pose proof (table_new_same t OK NS NA) as E.
  destruct (t_bs t) as [|r bs] eqn:EB; auto. exfalso.
  destruct OK as [_ [_ [_ [_ [L _]]]]]. rewrite EB in L. destruct (t_wa t); [contradiction|discriminate].
Qed.

Lemma read_rows_show : forall show lit (rows : list (R * list R)),
  (forall a r, In (a, r) rows -> lit (show a) = Ok a /\ no_degree (show a)) ->
  (forall a r x, In (a, r) rows -> In x r -> lit (show x) = Ok x /\ show x <> "") ->
  read_rows lit (map (fun ar => map show (fst ar :: snd ar)) rows) = Ok (map fst rows, map snd rows).
Proof.
  intros show lit rows HA HR. unfold read_rows.
  match goal with |- (do l <- ?m; _) = _ => assert (m = Ok rows) as ->; [|reflexivity] end.
  induction rows as [|[a r] rows IH]; simpl; auto.
  destruct (HA a r) as [E D]; [left; auto|]. rewrite no_degree_same, E by auto. cbn [rbind].
  match goal with |- context [mapM ?f (map show r)] => assert (mapM f (map show r) = Ok r) as -> end.
  { assert (forall x, In x r -> lit (show x) = Ok x /\ show x <> "") as HR'
      by (intros; eapply HR; [left; eauto|auto]).
    clear - HR'. induction r as [|x r IH]; simpl; auto.
    destruct (HR' x) as [E N]; [left; auto|]. apply String.eqb_neq in N. rewrite N, E. cbn [rbind].
    rewrite IH by (intros; apply HR'; right; auto). reflexivity. }
  cbn [rbind]. simpl in IH. rewrite IH; [reflexivity| |].
  - intros; eapply HA; right; eauto.
  - intros; eapply HR; [right; eauto|auto].
Qed.

Lemma chkfinite_show : forall (show : R -> string) tofloat l, (forall x, In x l -> tofloat (show x) = Some x) ->
  chkfinite (map tofloat (map show l)) = Ok l.
Proof.
  induction l as [|x l IH]; intros H; simpl; auto. unfold chkfinite in *. simpl.
  rewrite H by (left; auto). cbn [rbind]. rewrite IH by (intros; apply H; right; auto). reflexivity.
Qed.
