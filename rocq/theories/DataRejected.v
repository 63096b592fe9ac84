(** * What a rejected update leaves behind (C10)

    [update] of core/data.py 179-217 is modelled in DataModel.v. *)

From Coq Require Import String.
From Coq Require Import List Bool Arith ZArith QArith Lia.
From Verif Require Import Py Dict DataModel DataSpec DataProofs DataProofs2.
Import ListNotations.
Open Scope string_scope.
Open Scope list_scope.
Open Scope nat_scope.

Lemma homogeneous_dec : forall l, homogeneous l \/ ~ homogeneous l.
Proof.
  intros l. destruct (get_type l) as [t|e] eqn:E.
  - left. eapply get_type_ok_homogeneous; eauto.
  - right. intros H. apply get_type_homogeneous in H. destruct H; congruence.
Qed.

(** The first entry of the dictionary that does not fit. *)
Lemma first_misfit : forall (P : string -> uval -> Prop) (items : dict uval), (forall k u, P k u \/ ~ P k u) ->
  (forall k u, In (k, u) items -> P k u) \/
  exists before k u after, items = before ++ (k, u) :: after /\ ~ P k u /\ forall k' u', In (k', u') before -> P k' u'.
Proof.
  intros P items D. induction items as [|[k u] items IH]; [left; intros k u []|].
  destruct (D k u) as [Y|N].
  - destruct IH as [A|[b [k1 [u1 [a [E [N1 B]]]]]]].
    + left. intros k' u' [E|I]; [inversion E; subst; auto|auto].
    + right. exists ((k, u) :: b), k1, u1, a. split; [rewrite E; auto|]. split; auto.
      intros k' u' [E'|I]; [inversion E'; subst; auto|auto].
  - right. exists [], k, u, items. split; auto. split; auto. intros k' u' [].
Qed.

Lemma extend_all_app : forall a b d, extend_all d (a ++ b) = ubind (extend_all d a) (fun d' _ => extend_all d' b).
Proof.
  induction a as [|[k u] a IH]; intros b d; [reflexivity|].
  rewrite <- app_comm_cons, !extend_all_step. destruct (extend d k (cells_of u)) as [d1 [x|e]]; simpl; auto.
Qed.

Lemma extend_all_exact : forall items d d', extend_all d items = (d', Ok tt) ->
  forall k, ~ In k (dkeys items) -> dget k (types d') = dget k (types d).
Proof.
  induction items as [|[k0 u] items IH]; intros d d' E k N; [injection E as <-; auto|].
  rewrite extend_all_step in E. destruct (extend d k0 (cells_of u)) as [d1 [x|e]] eqn:E1; cbn [ubind] in E; [|discriminate].
  simpl in N. rewrite (IH _ _ E) by tauto.
  unfold extend in E1. destruct (get_type (cells_of u)) as [t|e]; [|discriminate].
  destruct (dget k0 (cols d)) as [c|].
  - destruct (dget k0 (types d)) as [t0|]; [|discriminate].
    match type of E1 with context [if ?c then _ else _] => destruct c; [discriminate|] end.
    injection E1 as <- _. cbn [types]. destruct t0; auto. apply dget_dset_other. intros ->. tauto.
  - injection E1 as <- _. cbn [types]. apply dget_dset_other. intros ->. tauto.
Qed.

(** C10, exact: a dictionary is rejected exactly if an entry does not fit the type of its column.
    Then the entries before the first such entry have been added below the old rows, the columns
    of the others are as before (of new keys: [n] times None), and no column has been levelled. *)
Theorem update_rejected_state : forall d n items, well_formed d n -> NoDup (dkeys items) ->
  (forall d', update d items false = (d', Ok tt) <-> d' = fst (update d items false) /\
     forall k u, In (k, u) items -> homogeneous (column_or_none d n k ++ cells_of u)) /\
  forall d' e, update d items false = (d', Raise e) ->
    e = ValueError /\
    exists before k u after, items = before ++ (k, u) :: after /\
      ~ homogeneous (column_or_none d n k ++ cells_of u) /\
      (forall k' u', In (k', u') before -> homogeneous (column_or_none d n k' ++ cells_of u')) /\
      data_keys d' = data_keys d ++ filter (fun k => negb (smem k (data_keys d))) (dkeys items) /\
      (forall k', In k' (data_keys d') -> get_col d' k' = Ok (column_or_none d n k' ++ given before k')) /\
      max_len d' = Z.of_nat (n + added_rows before).
Proof.
  intros d n items W ND.
  assert (forall k u, homogeneous (column_or_none d n k ++ cells_of u) \/ ~ homogeneous (column_or_none d n k ++ cells_of u)) as DEC
    by (intros; apply homogeneous_dec).
  destruct (first_misfit (fun k u => homogeneous (column_or_none d n k ++ cells_of u)) items DEC) as [ALL|[b [k [u [a [EI [NH HB]]]]]]].
  { destruct (update_ok d n items W ND ALL) as [d1 [E1 _]]. rewrite E1. split.
    - intros d'. split; [intros E; injection E as <-; auto|intros [-> _]; auto].
    - intros d' e E. discriminate. }
  assert (exists d1, update d items false = (d1, Raise ValueError)) as [d1 E1].
  { apply (update_fail d n items W ND). exists k, u. split; auto. rewrite EI. apply in_or_app. right. left. auto. }
  rewrite E1. split.
  { intros d'. split; [discriminate|]. intros [_ H]. exfalso. apply NH. apply H. rewrite EI. apply in_or_app. right. left. auto. }
  intros d' e E. injection E as <- <-. split; auto. exists b, k, u, a. split; auto. split; auto. split; auto.
  destruct (update_first_fill d n items W ND) as [d0 [F1 [T1 [M1 [K1 [C1 X1]]]]]].
  assert (forall k, In k (dkeys items) -> In k (data_keys d0)) as I1.
  { intros k' Hk. rewrite K1. apply in_or_app. destruct (smem k' (data_keys d)) eqn:Es.
    - left. apply smem_In; auto.
    - right. apply filter_In. rewrite Es. auto. }
  assert (forall k' u', In (k', u') b -> In k' (dkeys items)) as IB.
  { intros k' u' H. rewrite EI. unfold dkeys. rewrite map_app. apply in_or_app. left. apply in_map_iff. exists (k', u'); auto. }
  assert (NoDup (dkeys b) /\ ~ In k (dkeys b)) as [NB NK].
  { rewrite EI in ND. unfold dkeys in *. rewrite map_app in ND. simpl in ND. split.
    - clear - ND. induction (map fst b) as [|x l IH]; [constructor|]. simpl in ND. inversion ND; subst. constructor; auto. intros H; apply H1. apply in_or_app. auto.
    - apply NoDup_remove_2 in ND. intros H. apply ND. apply in_or_app. auto. }
  destruct (extend_all_ok b d0 T1 NB) as [d2 [E2 [T2 [K2 [C2 M2]]]]].
  { intros k' u' H. apply X1, I1. eauto. }
  { intros k' u' H. rewrite C1 by (apply I1; eauto). auto. }
  { intros k' H. apply I1. apply in_map_iff in H. destruct H as [[k1 u1] [<- H]]. eauto. }
  assert (In k (dkeys items)) as IK.
  { rewrite EI. unfold dkeys. rewrite map_app. apply in_or_app. right. left. auto. }
  assert (given b k = []) as GK by (unfold given; rewrite (proj2 (dget_None _ k b)); auto).
  assert (col_or d2 k = column_or_none d n k) as CK by (rewrite C2, C1, GK, app_nil_r; auto).
  assert (exists d3, extend d2 k (cells_of u) = (d3, Raise ValueError)) as [d3 E3].
  { apply extend_unhomogeneous; auto.
    - destruct (X1 k (I1 k IK)) as [t [Y1 Y2]]. exists t. split.
      + rewrite (extend_all_exact b d0 d2 E2 k NK). auto.
      + rewrite CK. rewrite C1 in Y2 by auto. auto.
    - rewrite CK. auto. }
  pose proof (extend_atomic _ _ _ _ _ E3) as ->.
  unfold update in E1. rewrite F1 in E1. cbn [ubind negb orb] in E1. unfold unsafe_update in E1.
  rewrite EI, extend_all_app, E2 in E1. cbn [ubind] in E1. rewrite extend_all_step, E3 in E1. cbn [ubind] in E1.
  injection E1 as <-. split; [congruence|]. split.
  - intros k' H. rewrite get_col_col_or by auto. rewrite C2, C1 by congruence. auto.
  - rewrite M2. unfold added_rows.
    replace (map (fun kv => Z.of_nat (length (col_or d0 (fst kv) ++ cells_of (snd kv)))) b)
      with (map (fun x : nat => Z.of_nat (n + x)) (map (fun kv : string * uval => length (cells_of (snd kv))) b)).
    + pose proof (fold_left_Zmax_const (map (fun kv : string * uval => length (cells_of (snd kv))) b) (Z.of_nat n) n) as F.
      rewrite Z.max_id in F. rewrite M1, F. lia.
    + rewrite map_map. apply map_ext_in. intros [k' u'] Hin. simpl. rewrite app_length, C1 by (apply I1; eauto).
      rewrite column_or_none_length; auto.
Qed.
Print Assumptions update_rejected_state.

(** The witness of [update_rejected_refuted]: one of the two columns has grown. *)
Example update_rejected_state_case :
  let boat := mkData [("BSP", [Some (VFloat 5); Some (VFloat 6)]); ("TWS", [Some (VFloat 10); Some (VFloat 12)])]
                [("BSP", Some TFloat); ("TWS", Some TFloat)] 2 in
  exists d', update boat [("BSP", UOne (Some (VFloat 8))); ("TWS", UOne (Some (VInt 3)))] false = (d', Raise ValueError) /\
    get_col d' "BSP" = Ok [Some (VFloat 5); Some (VFloat 6); Some (VFloat 8)] /\ get_col d' "TWS" = Ok [Some (VFloat 10); Some (VFloat 12)] /\
    max_len d' = 3%Z.
Proof. eexists. repeat split; reflexivity. Qed.
