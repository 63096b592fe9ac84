(** * Where the values of the default pipeline come from *)

From Coq Require Import String.
From Coq Require Import List Bool Arith ZArith QArith Reals Qreals Lra Lia Permutation.
From Verif Require Import Py Num Dict ListX NhoodModel NhoodSpec InterpModel InterpSpec InterpProofs InterpProps TableModel
  TableSpec TableProofs TableProps WindModel InfluenceModel InjectModel InjectProps ExtModel ExtProps
  DataModel DataSpec DataProofs WPointsModel ImputModel PipeModel PipeSpec PipeProps WholeModel.
Import List ListNotations.
Open Scope string_scope.
Open Scope list_scope.
Open Scope nat_scope.

(** Column [k] holds the value [v]. *)
Definition value (d : Data) (k : string) (v : pyval) : Prop :=
  exists col, dget k (cols d) = Some col /\ In (Some v) col.

(** ** Concatenation *)

Lemma dget_dset : forall A (d : dict A) k0 x k, dget k (dset k0 x d) = if String.eqb k0 k then Some x else dget k d.
Proof.
  intros A d k0 x k. destruct (String.eqb_spec k0 k) as [->|NE]; [apply dget_dset_same|apply dget_dset_other; auto].
Qed.

Lemma value_dset : forall d k0 col t n k v, value (mkData (dset k0 col (cols d)) t n) k v ->
  (k = k0 /\ In (Some v) col) \/ (k <> k0 /\ value d k v).
Proof.
  intros d k0 col t n k v [c [H I]]. cbn [cols] in H. rewrite dget_dset in H.
  destruct (String.eqb_spec k0 k) as [->|NE]; [injection H as <-; auto|]. right. split; auto. exists c. auto.
Qed.

Lemma extend_value : forall d k0 l d' r k v, extend d k0 l = (d', r) -> value d' k v -> value d k v \/ (k = k0 /\ In (Some v) l).
Proof.
  intros d k0 l d' r k v H V. unfold extend in H.
  destruct (get_type l) as [ty|]; [|injection H as <- <-; auto].
  destruct (dget k0 (cols d)) as [col|] eqn:E.
  - destruct (dget k0 (types d)) as [t0|]; [|injection H as <- <-; auto].
    match type of H with (if ?b then _ else _) = _ => destruct b end; injection H as <- <-.
    + left. exact V.
    + apply value_dset in V. destruct V as [[-> I]|[_ V]]; auto. apply in_app_or in I. destruct I as [I|I]; auto.
      left. exists col. auto.
  - injection H as <- <-. apply value_dset in V. tauto.
Qed.

Lemma fill1_value : forall d n k0 d' r k v, fill1 d n k0 = (d', r) -> value d' k v -> value d k v.
Proof.
  intros d n k0 d' r k v H V. unfold fill1 in H.
  set (cs := if dmem k0 (cols d) then cols d else dset k0 [] (cols d)) in *.
  assert (forall k c, dget k cs = Some c -> c = [] \/ dget k (cols d) = Some c) as G.
  { intros k1 c. unfold cs. destruct (dmem k0 (cols d)); auto. rewrite dget_dset.
    destruct (String.eqb_spec k0 k1); auto. intros [= <-]. auto. }
  destruct (dget k0 cs) as [col|] eqn:E; [|injection H as <- <-; auto].
  set (l := repeat None _) in *.
  assert (forall t m, value (mkData (dset k0 (col ++ l) cs) t m) k v -> value d k v) as K.
  { intros t m [c [H1 I]]. cbn [cols] in H1. rewrite dget_dset in H1. destruct (String.eqb_spec k0 k) as [->|NE].
    - injection H1 as <-. apply in_app_or in I. destruct I as [I|I].
      + apply G in E. destruct E as [->|E]; [destruct I|exists col; auto].
      + apply repeat_spec in I. discriminate.
    - apply G in H1. destruct H1 as [->|H1]; [destruct I|exists c; auto]. }
  destruct (get_type (col ++ l)); injection H as <- <-; eapply K; eauto.
Qed.

Lemma fill_keys_value : forall ks d n d' r k v, fill_keys d n ks = (d', r) -> value d' k v -> value d k v.
Proof.
  induction ks as [|k0 ks IH]; intros d n d' r k v H V; cbn [fill_keys] in H.
  - injection H as <- <-. auto.
  - destruct (fill1 d n k0) as [d1 [u|e]] eqn:E; cbn [ubind] in H.
    + eapply fill1_value; eauto.
    + injection H as <- <-. eapply fill1_value; eauto.
Qed.

Lemma extend_all_value : forall (l : dict (list cell)) d d' r k v, extend_all d (dmap UList l) = (d', r) -> value d' k v ->
  value d k v \/ exists col, In (k, col) l /\ In (Some v) col.
Proof.
  induction l as [|[k0 c] l IH]; intros d d' r k v H V; cbn in H.
  - injection H as <- <-. auto.
  - destruct (extend d k0 c) as [d1 [u|e]] eqn:E; cbn [ubind] in H.
    + destruct (IH _ _ _ _ _ H V) as [V1|[col [I1 I2]]].
      * destruct (extend_value _ _ _ _ _ _ _ E V1) as [V2|[-> I]]; auto. right. exists c. cbn. auto.
      * right. exists col. cbn. auto.
    + injection H as <- <-. destruct (extend_value _ _ _ _ _ _ _ E V) as [V2|[-> I]]; auto. right. exists c. cbn. auto.
Qed.

(** Entries of a dictionary as list of pairs; keys of [Data] objects are distinct. *)
Definition listed (d : Data) (k : string) (v : pyval) : Prop := exists col, In (k, col) (cols d) /\ In (Some v) col.

Lemma update_data_value : forall d o d' r k v, update_data d o = (d', r) -> value d' k v -> value d k v \/ listed o k v.
Proof.
  intros d o d' r k v H V. unfold update_data, update in H.
  destruct (fill_keys d _ _) as [d1 [u|e]] eqn:E; cbn [ubind] in H.
  - cbn [negb orb] in H. unfold unsafe_update in H.
    destruct (extend_all d1 _) as [d2 [u2|e2]] eqn:E2; cbn [ubind] in H.
    + assert (value d2 k v) as V2 by (eapply fill_keys_value; eauto).
      destruct (extend_all_value _ _ _ _ _ _ E2 V2) as [V1|L]; auto. left. eapply fill_keys_value; eauto.
    + injection H as <- <-. destruct (extend_all_value _ _ _ _ _ _ E2 V) as [V1|L]; auto. left. eapply fill_keys_value; eauto.
  - injection H as <- <-. left. eapply fill_keys_value; eauto.
Qed.

Lemma concat_onto_value : forall l d d' r k v, concat_onto d l = (d', r) -> value d' k v ->
  value d k v \/ exists o, In o l /\ listed o k v.
Proof.
  induction l as [|o l IH]; intros d d' r k v H V; cbn in H.
  - injection H as <- <-. auto.
  - destruct (update_data d o) as [d1 [u|e]] eqn:E; cbn [ubind] in H.
    + destruct (IH _ _ _ _ _ H V) as [V1|[q [I L]]].
      * destruct (update_data_value _ _ _ _ _ _ E V1) as [V2|L]; auto. right. exists o. cbn. auto.
      * right. exists q. cbn. auto.
    + injection H as <- <-. destruct (update_data_value _ _ _ _ _ _ E V) as [V2|L]; auto. right. exists o. cbn. auto.
Qed.

Lemma concatenate_value : forall l d k v, concatenate l = Ok d -> value d k v -> exists o, In o l /\ listed o k v.
Proof.
  intros l d k v H V. unfold concatenate in H. destruct (concat_onto empty_data l) as [d' [u|e]] eqn:E; [|discriminate].
  injection H as ->. destruct (concat_onto_value _ _ _ _ _ _ E V) as [[c [H _]]|]; auto. discriminate.
Qed.

(** *** Keys *)

Definition has (d : Data) (k : string) : Prop := In k (data_keys d).

Lemma has_dset : forall (c : dict (list cell)) k0 col k, In k (dkeys (dset k0 col c)) <-> k = k0 \/ In k (dkeys c).
Proof.
  intros c k0 col k. split.
  - intros H. apply dget_In_key in H. destruct H as [v H]. rewrite dget_dset in H.
    destruct (String.eqb_spec k0 k); auto. right. apply dget_In_key. eauto.
  - intros H. apply dget_In_key. rewrite dget_dset. destruct (String.eqb_spec k0 k); [eauto|].
    destruct H as [->|H]; [congruence|]. apply dget_In_key in H. auto.
Qed.

Lemma extend_has : forall d k0 l d' k, extend d k0 l = (d', Ok tt) -> (has d' k <-> k = k0 \/ has d k).
Proof.
  intros d k0 l d' k H. unfold extend in H. unfold has, data_keys.
  destruct (get_type l) as [ty|]; [|discriminate].
  destruct (dget k0 (cols d)) as [col|] eqn:E.
  - destruct (dget k0 (types d)) as [t0|]; [|discriminate].
    match type of H with (if ?b then _ else _) = _ => destruct b end; [discriminate|]. injection H as <-. apply has_dset.
  - injection H as <-. apply has_dset.
Qed.

Lemma fill1_has : forall d n k0 d' k, fill1 d n k0 = (d', Ok tt) -> (has d' k <-> k = k0 \/ has d k).
Proof.
  intros d n k0 d' k H. unfold fill1 in H. unfold has, data_keys.
  set (cs := if dmem k0 (cols d) then cols d else dset k0 [] (cols d)) in *.
  assert (forall k, (k = k0 \/ In k (dkeys cs)) <-> (k = k0 \/ In k (dkeys (cols d)))) as G.
  { intros k1. unfold cs. destruct (dmem k0 (cols d)); [tauto|]. rewrite has_dset. tauto. }
  destruct (dget k0 cs) as [col|] eqn:E; [|discriminate].
  destruct (get_type _); [|discriminate]. injection H as <-. cbn [cols]. rewrite has_dset. apply G.
Qed.

Lemma fill_keys_has : forall ks d n d' k, fill_keys d n ks = (d', Ok tt) -> (has d' k <-> In k ks \/ has d k).
Proof.
  induction ks as [|k0 ks IH]; intros d n d' k H; cbn [fill_keys] in H.
  - injection H as <-. cbn. tauto.
  - destruct (fill1 d n k0) as [d1 [[]|e]] eqn:E; cbn [ubind] in H; [|discriminate].
    rewrite (IH _ _ _ _ H), (fill1_has _ _ _ _ k E). cbn. split; intuition auto.
Qed.

Lemma extend_all_has : forall (l : dict (list cell)) d d' k, extend_all d (dmap UList l) = (d', Ok tt) ->
  (has d' k <-> In k (dkeys l) \/ has d k).
Proof.
  induction l as [|[k0 c] l IH]; intros d d' k H; cbn in H.
  - injection H as <-. cbn. tauto.
  - destruct (extend d k0 c) as [d1 [[]|e]] eqn:E; cbn [ubind] in H; [|discriminate].
    rewrite (IH _ _ _ H), (extend_has _ _ _ _ k E). cbn. split; intuition auto.
Qed.

Lemma update_data_has : forall d o d' k, update_data d o = (d', Ok tt) -> (has d' k <-> has d k \/ has o k).
Proof.
  intros d o d' k H. unfold update_data, update in H.
  destruct (fill_keys d _ _) as [d1 [[]|e]] eqn:E; cbn [ubind] in H; [|discriminate].
  cbn [negb orb] in H. unfold unsafe_update in H.
  destruct (extend_all d1 _) as [d2 [[]|e2]] eqn:E2; cbn [ubind] in H; [|discriminate].
  unfold fill in H. rewrite (fill_keys_has _ _ _ _ k H). rewrite (extend_all_has _ _ _ k E2), (fill_keys_has _ _ _ _ k E).
  assert (In k (dkeys (dmap UList (cols o))) <-> has o k) as KO.
  { unfold has, data_keys, dkeys, dmap. rewrite map_map. tauto. }
  rewrite in_app_iff, KO. unfold has at 1. rewrite (extend_all_has _ _ _ k E2), (fill_keys_has _ _ _ _ k E), in_app_iff, KO.
  unfold has. tauto.
Qed.

Lemma concatenate_has : forall l d k, concatenate l = Ok d -> (has d k <-> exists o, In o l /\ has o k).
Proof.
  intros l d k H. unfold concatenate in H.
  assert (forall l a d, concat_onto a l = (d, Ok tt) -> (has d k <-> has a k \/ exists o, In o l /\ has o k)) as G.
  { clear. induction l as [|o l IH]; intros a d H; cbn in H.
    - injection H as <-. split; auto. intros [H|[o [[] _]]]; auto.
    - destruct (update_data a o) as [d1 [[]|e]] eqn:E; cbn [ubind] in H; [|discriminate].
      rewrite (IH _ _ H), (update_data_has _ _ _ k E). split.
      + intros [[Q|Q]|[q [I Q]]]; auto; right; [exists o|exists q]; cbn; auto.
      + intros [Q|[q [[<-|I] Q]]]; auto. right. eauto. }
  destruct (concat_onto empty_data l) as [d' [[]|e]] eqn:E; [|discriminate]. injection H as ->.
  rewrite (G _ _ _ E). unfold has at 2, data_keys. cbn. tauto.
Qed.

(** ** Rows removed, gaps filled *)

Lemma mask_list_In : forall A (l : list A) m x, In x (mask_list l m) -> In x l.
Proof. induction l as [|y l IH]; intros [|b m] x H; cbn in H; try contradiction. destruct b; cbn in *; intuition eauto. Qed.

Lemma listed_mask : forall d m k v, listed (mask_rows d m) k v -> listed d k v.
Proof.
  intros d m k v [col [H I]]. unfold mask_rows, dmap in H. cbn [cols] in H. apply in_map_iff in H.
  destruct H as [[k0 c] [[= -> <-] H]]. exists c. split; auto. apply mask_list_In in I. auto.
Qed.

Lemma has_mask : forall d m k, has (mask_rows d m) k <-> has d k.
Proof. intros. unfold has, data_keys, mask_rows, dkeys, dmap. cbn [cols]. rewrite map_map. tauto. Qed.

Lemma drop_rows_In : forall idx l x, In x (drop_rows idx l) -> In x l.
Proof.
  intros idx l x H. unfold drop_rows in H. apply in_map_iff in H. destruct H as [[i y] [<- H]].
  apply filter_In in H. destruct H as [H _]. apply enumerate_In in H. auto.
Qed.

Lemma listed_delete : forall d idx k v, listed (delete_rows d idx) k v -> listed d k v.
Proof.
  intros d [|i idx] k v [col [H I]]; [exists col; auto|]. unfold delete_rows, dmap in H. cbn [cols] in H. apply in_map_iff in H.
  destruct H as [[k0 c] [[= -> <-] H]]. exists c. split; auto. eapply drop_rows_In; eauto.
Qed.

Lemma has_delete : forall d idx k, has (delete_rows d idx) k <-> has d k.
Proof. intros d [|i idx] k; [tauto|]. unfold has, data_keys, delete_rows, dkeys, dmap. cbn [cols]. rewrite map_map. tauto. Qed.

Lemma dset_In : forall A (d : dict A) k v k' v', In (k', v') (dset k v d) -> (k' = k /\ v' = v) \/ In (k', v') d.
Proof.
  induction d as [|[k0 v0] d IH]; intros k v k' v' H; cbn in H.
  - destruct H as [[= <- <-]|[]]; auto.
  - destruct (String.eqb_spec k0 k) as [->|NE]; cbn in H.
    + destruct H as [[= <- <-]|H]; cbn; auto.
    + destruct H as [[= <- <-]|H]; cbn; auto. apply IH in H. tauto.
Qed.

Lemma fill_entry_source : forall mx k ts col i v b,
  fill_entry default_fill_before default_fill_between default_fill_after mx k ts col i = (Some v, b) -> In (Some v) col.
Proof.
  intros mx k ts col i v b H. unfold fill_entry in H.
  assert (forall j w, nth j col None = Some w -> In (Some w) col) as N.
  { intros j w E. destruct (nth_in_or_default j col None) as [I|I]; rewrite E in I; [auto|discriminate]. }
  destruct (nth i col None) as [w|] eqn:E; [injection H as -> <-; eauto|].
  unfold value_at, default_fill_before, default_fill_between, default_fill_after in H.
  destruct (start_end _ _ _ _) as [[s|] [e|]].
  - destruct (_ <? _)%Z.
    + destruct (nth s col None) eqn:Es; [injection H as -> <-; eauto|discriminate].
    + destruct (nth s col None) eqn:Es; [|discriminate]. destruct (nth e col None); [injection H as -> <-; eauto|discriminate].
  - destruct (nth s col None) eqn:Es; [injection H as -> <-; eauto|discriminate].
  - destruct (nth e col None) eqn:Es; [injection H as -> <-; eauto|discriminate].
  - discriminate.
Qed.

Lemma default_impute_source : forall d d' k v, default_impute d = Ok d' -> k <> "datetime" -> listed d' k v -> listed d k v.
Proof.
  intros d d' k v H NK L. unfold default_impute, fill_local in H.
  destruct (get_col (strip_cols d) "datetime") as [col|]; cbn [rbind] in H; [|discriminate].
  destruct (mapM time_of col) as [ts|]; cbn [rbind] in H; [|discriminate].
  injection H as <-. cbn [fst] in L. apply listed_delete in L.
  destruct L as [c [L I]]. cbn [cols] in L. rewrite map_map in L. apply in_map_iff in L.
  destruct L as [[k0 c0] [E L]]. cbn [fst snd] in E. injection E as -> E.
  destruct (String.eqb_spec k "datetime") as [|_]; [congruence|]. rewrite <- E in I.
  apply in_map_iff in I. destruct I as [[x b] [Ex I]]. cbn in Ex. subst x. unfold fill_column in I.
  apply in_map_iff in I. destruct I as [i [Ef _]]. apply fill_entry_source in Ef.
  assert (listed (delete_rows (mkData (dset "datetime" (map (option_map VDatetime) (interp_times default_max_diff ts)) (cols (strip_cols d)))
            (types (strip_cols d)) (max_len (strip_cols d))) (none_rows (map (option_map VDatetime) (interp_times default_max_diff ts)))) k v) as L2
    by (exists c0; auto).
  apply listed_delete in L2. destruct L2 as [c2 [L2 I2]]. cbn [cols] in L2. apply dset_In in L2.
  destruct L2 as [[-> _]|L2]; [congruence|]. unfold strip_cols in L2. cbn [cols] in L2. apply filter_In in L2. exists c2. tauto.
Qed.

Lemma default_impute_has : forall d d' k, default_impute d = Ok d' -> k <> "datetime" -> (has d' k <-> exists v, listed d k v).
Proof.
  intros d d' k H NK. unfold default_impute, fill_local in H.
  destruct (get_col (strip_cols d) "datetime") as [col|]; cbn [rbind] in H; [|discriminate].
  destruct (mapM time_of col) as [ts|]; cbn [rbind] in H; [|discriminate].
  injection H as <-. cbn [fst]. rewrite has_delete. unfold has at 1, data_keys. cbn [cols]. unfold dkeys. rewrite !map_map. cbn [fst].
  match goal with |- In k (map (fun x => fst x) (cols ?D)) <-> _ => change (In k (map (fun x => fst x) (cols D))) with (has D k) end.
  rewrite has_delete. unfold has, data_keys. cbn [cols]. rewrite has_dset.
  split.
  - intros [->|H]; [congruence|]. unfold strip_cols in H. cbn [cols] in H. unfold dkeys in H. apply in_map_iff in H. destruct H as [[k0 c] [E H]].
    cbn in E. subst k0. apply filter_In in H. destruct H as [H F]. cbn [snd] in F. apply negb_true_iff in F.
    assert (exists v, In (Some v) c) as [v I].
    { clear - F. induction c as [|[v|] c IH]; cbn in F; [discriminate| |].
      - exists v. cbn; auto.
      - destruct (IH F) as [v I]. exists v. cbn; auto. }
    exists v, c. auto.
  - intros [v [c [H I]]]. right. unfold strip_cols. cbn [cols]. unfold dkeys. apply in_map_iff. exists (k, c). split; auto.
    apply filter_In. split; auto. cbn [snd]. apply negb_true_iff. destruct (forallb is_none c) eqn:F; auto.
    rewrite forallb_forall in F. apply F in I. discriminate.
Qed.
