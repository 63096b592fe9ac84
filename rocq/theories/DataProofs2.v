(** * More proofs about [Data]: histories, deletion, renaming, selection *)

From Coq Require Import String.
From Coq Require Import List Bool Arith ZArith QArith Lia Permutation.
From Verif Require Import Py Dict DataModel DataSpec DataProofs.
Import ListNotations.
Open Scope list_scope.
Open Scope nat_scope.

(* ---- extend is atomic ---- *)

Lemma Data_eta : forall d, mkData (cols d) (types d) (max_len d) = d.
Proof. intros []; reflexivity. Qed.

Lemma extend_atomic : forall d k l d' e,
  extend d k l = (d', Raise e) -> d' = d.
Proof.
  intros d k l d' e H. unfold extend in H.
  destruct (get_type l) as [dt|e']; [|congruence].
  destruct (dget k (cols d)) as [col|]; [|congruence].
  destruct (dget k (types d)) as [t0|]; [|congruence].
  destruct t0 as [t0|].
  - destruct dt as [a|]; [|congruence].
    destruct (ptype_eqb a t0); simpl in H; [congruence|].
    inversion H. apply Data_eta.
  - destruct dt as [a|]; [|congruence].
    rewrite ptype_eqb_refl in H. simpl in H. congruence.
Qed.

(* ---- typed is preserved by every operation ---- *)

Lemma typed_extend : forall d k l, typed d -> typed (fst (extend d k l)).
Proof.
  intros d k l T. destruct (extend d k l) as [d' [u|e]] eqn:E.
  - unfold extend in E. destruct (get_type l) as [dt|e'] eqn:Eg; [|congruence].
    apply get_type_fits in Eg.
    destruct (dget k (cols d)) as [col|] eqn:Ec.
    + pose proof T as [T1 [T2 T3]]. destruct (T3 _ _ Ec) as [t0 [Et F]].
      rewrite Et in E.
      destruct t0 as [t0|].
      * assert (type_fits (Some t0) (col ++ l)) as F'.
        { intros v Hv. apply in_app_or in Hv. destruct Hv as [Hv|Hv]; [apply F; auto|].
          apply Eg in Hv. subst dt. destruct (ptype_eqb (vtype v) t0) eqn:Ee.
          - apply ptype_eqb_eq in Ee. congruence.
          - simpl in E. congruence. }
        destruct dt as [a|]; [destruct (ptype_eqb a t0); simpl in E; [|congruence]|];
          inversion E; subst; simpl; eapply typed_set_col; eauto.
      * assert (type_fits dt (col ++ l)) as F'.
        { intros v Hv. apply in_app_or in Hv. destruct Hv as [Hv|Hv].
          - apply F in Hv. discriminate.
          - apply Eg; auto. }
        destruct dt as [a|]; [rewrite ptype_eqb_refl in E; simpl in E|];
          inversion E; subst; simpl; apply typed_set; auto.
    + inversion E; subst; simpl. apply typed_set; auto.
  - apply extend_atomic in E. subst. auto.
Qed.

Lemma typed_fill_keys : forall ks d L, typed d -> typed (fst (fill_keys d L ks)).
Proof.
  intros. destruct (fill_keys_spec ks d L H) as [d' [E [T _]]]. rewrite E. auto.
Qed.

Lemma typed_extend_all : forall items d, typed d -> typed (fst (extend_all d items)).
Proof.
  induction items as [|[k u] items IH]; intros d T; [auto|].
  rewrite extend_all_step. pose proof (typed_extend d k (cells_of u) T) as T1.
  destruct (extend d k (cells_of u)) as [d1 [x|e]]; simpl in *; auto.
Qed.

Lemma typed_unsafe_update : forall items d, typed d -> typed (fst (unsafe_update d items)).
Proof.
  intros items d T. unfold unsafe_update.
  pose proof (typed_extend_all items d T) as T1.
  destruct (extend_all d items) as [d1 [x|e]]; simpl in *; auto.
  apply typed_fill_keys; auto.
Qed.

Lemma removelast_In : forall A (l : list A) x, In x (removelast l) -> In x l.
Proof.
  induction l as [|a l IH]; simpl; intros x H; auto.
  destruct l; [destruct H|]. destruct H as [H|H]; auto.
Qed.

Lemma typed_drop_lasts : forall ks d, typed d ->
  (forall k, In k ks -> In k (data_keys d)) -> typed (drop_lasts d ks).
Proof.
  induction ks as [|k ks IH]; intros d T H; simpl; auto.
  apply IH.
  - destruct (typed_types_exist d k T) as [t Et]; [apply H; simpl; auto|].
    eapply typed_set_col; eauto.
    pose proof (typed_fits d k t T Et) as F. unfold col_or in F.
    eapply type_fits_sub; [|exact F]. intros v. apply removelast_In.
  - intros k' Hk'. unfold data_keys; simpl. apply dset_In_keys. right. apply H. simpl; auto.
Qed.

Lemma all_last_none_keys : forall ks d b, all_last_none d ks = Ok b -> b = true ->
  forall k, In k ks -> In k (data_keys d).
Proof.
  induction ks as [|k ks IH]; simpl; intros d b H Hb k' Hk'; [contradiction|].
  destruct (dget k (cols d)) as [c|] eqn:E; [|discriminate].
  destruct (py_last c) as [x|e]; simpl in H; [|discriminate].
  destruct (is_none x).
  - destruct Hk' as [<-|Hk']; [|eapply IH; eauto].
    apply dget_In_key. eauto.
  - congruence.
Qed.

Lemma typed_update : forall d items c, typed d -> typed (fst (update d items c)).
Proof.
  intros d items c T. unfold update.
  destruct (fill_keys_spec (dkeys items ++ data_keys d) d (max_len d) T)
    as [d1 [E [T1 [M1 [K1 _]]]]].
  rewrite E. cbn [ubind].
  destruct (negb c || (max_len d1 =? 0)%Z).
  - apply typed_unsafe_update; auto.
  - destruct (all_last_none d1 (dkeys items)) as [[]|e] eqn:A; auto;
      try (apply typed_unsafe_update; auto).
    apply typed_drop_lasts; auto. eapply all_last_none_keys; eauto.
Qed.

Lemma typed_ddel : forall d k m, typed d ->
  typed (mkData (ddel k (cols d)) (ddel k (types d)) m).
Proof.
  intros d k m [T1 [T2 T3]]. split; [|split]; simpl.
  - apply ddel_NoDup; auto.
  - apply ddel_NoDup; auto.
  - intros k' c Hc. destruct (string_dec k k').
    + subst. rewrite dget_ddel_same in Hc by auto. discriminate.
    + rewrite dget_ddel_other in * by auto. auto.
Qed.

Lemma typed_filter_keys : forall ks d tl, typed d -> typed (fst (filter_types_keys d ks tl)).
Proof.
  induction ks as [|k ks IH]; intros d tl T; simpl; auto.
  destruct (dget k (types d)); auto. apply IH.
  destruct (match o with Some p => existsb (ptype_eqb p) tl | None => false end); auto.
  apply typed_ddel; auto.
Qed.

Lemma typed_delete_col : forall d k, typed d -> typed (fst (delete_col d k)).
Proof.
  intros d k T. unfold delete_col. destruct (dmem k (cols d)) eqn:Ec; auto.
  destruct (dmem k (types d)) eqn:Et; simpl.
  - apply typed_ddel; auto.
  - exfalso. apply dmem_In in Ec. apply dmem_false in Et.
    destruct (typed_types_exist d k T Ec) as [t Ht]. apply Et. apply dget_In_key. eauto.
Qed.

Lemma typed_delete_cols : forall ks d, typed d -> typed (fst (delete_cols d ks)).
Proof.
  induction ks as [|k ks IH]; intros d T; simpl; auto.
  pose proof (typed_delete_col d k T). destruct (delete_col d k) as [d1 [x|e]]; simpl in *; auto.
Qed.

Lemma typed_map_cols : forall d (f : list cell -> list cell) m, typed d ->
  (forall col v, In (Some v) (f col) -> In (Some v) col) ->
  typed (mkData (dmap f (cols d)) (types d) m).
Proof.
  intros d f m [T1 [T2 T3]] Hf. split; [|split]; simpl; auto.
  - rewrite dmap_keys; auto.
  - intros k c Hc. rewrite dget_dmap in Hc. destruct (dget k (cols d)) as [c0|] eqn:E; simpl in Hc; [|discriminate].
    inversion Hc; subst. destruct (T3 _ _ E) as [t [Et F]].
    exists t. split; auto. eapply type_fits_sub; [|exact F]. apply Hf.
Qed.

Lemma drop_rows_In : forall idx l v, In v (drop_rows idx l) -> In v l.
Proof.
  intros idx l v H. unfold drop_rows in H. apply in_map_iff in H.
  destruct H as [[i x] [<- H]]. apply filter_In in H. destruct H as [H _].
  unfold enumerate in H. simpl. eapply in_combine_r; eauto.
Qed.

Lemma typed_delete_rows : forall d idx, typed d -> typed (delete_rows d idx).
Proof.
  intros d [|i idx] T; simpl; auto. apply typed_map_cols; auto.
  intros col v. apply drop_rows_In.
Qed.

Lemma typed_rename : forall d a b, typed d -> typed (fst (rename d a b)).
Proof.
  intros d a b T. unfold rename. destruct (String.eqb a b); auto.
  destruct (smem b (data_keys d)) eqn:E; auto.
  destruct (dget a (cols d)) as [c|] eqn:Ec; auto.
  destruct (dget a (types d)) as [t|] eqn:Et.
  - apply typed_delete_col. apply typed_set; auto.
    pose proof (typed_fits d a t T Et) as F. unfold col_or in F. rewrite Ec in F. auto.
  - exfalso. destruct (typed_types_exist d a T) as [t Ht]; [|congruence].
    apply dget_In_key. eauto.
Qed.

Lemma filter_keys_NoDup : forall V (p : string * V -> bool) (d : dict V),
  NoDup (dkeys d) -> NoDup (dkeys (filter p d)).
Proof.
  induction d as [|[k v] d IH]; simpl; intros ND; auto.
  inversion ND; subst. destruct (p (k, v)); simpl; auto.
  constructor; auto. intros H. apply H1. unfold dkeys in H. apply in_map_iff in H.
  destruct H as [[k' v'] [<- H]]. apply filter_In in H. destruct H as [H _].
  apply in_map_iff. exists (k', v'); auto.
Qed.

Lemma dget_filter_some : forall V (p : string * V -> bool) (d : dict V) k v,
  NoDup (dkeys d) -> dget k (filter p d) = Some v <-> (dget k d = Some v /\ p (k, v) = true).
Proof.
  intros V p d k v ND. split.
  - intros H. apply dget_Some_In in H. apply filter_In in H. destruct H as [H1 H2].
    split; auto. apply NoDup_dget; auto.
  - intros [H1 H2]. apply NoDup_dget.
    + apply filter_keys_NoDup; auto.
    + apply filter_In. split; auto. apply dget_Some_In; auto.
Qed.

Lemma typed_strip_cols : forall d, typed d -> typed (strip_cols d).
Proof.
  intros d [T1 [T2 T3]]. split; [|split]; simpl; auto.
  - apply filter_keys_NoDup; auto.
  - intros k c Hc. apply dget_filter_some in Hc; auto. destruct Hc; auto.
Qed.

Lemma firstn_In : forall A n (l : list A) x, In x (firstn n l) -> In x l.
Proof. induction n; intros [|a l] x H; simpl in *; try tauto. destruct H; auto. Qed.
Lemma skipn_In : forall A n (l : list A) x, In x (skipn n l) -> In x l.
Proof. induction n; intros [|a l] x H; simpl in *; try tauto. auto. Qed.

Lemma py_slice_In : forall A (l : list A) a b x, In x (py_slice l a b) -> In x l.
Proof. intros. unfold py_slice in H. apply firstn_In in H. eapply skipn_In; eauto. Qed.

Lemma typed_strip_rows : forall f d, typed d -> typed (fst (strip_rows f d)).
Proof.
  intros f d T. unfold strip_rows. destruct (skip_none_rows f (cols d) 0 1) as [a|]; auto.
  destruct (skip_none_rows f (cols d) (max_len d - 1) (-1)) as [b|]; auto.
  simpl. apply typed_map_cols; auto. intros col v. apply py_slice_In.
Qed.

Lemma typed_mask_rows : forall d m, typed d -> typed (mask_rows d m).
Proof.
  intros d m T. unfold mask_rows. apply typed_map_cols; auto.
  intros col v. apply mask_list_In.
Qed.

Lemma typed_get_slice : forall d ks, typed d -> typed (get_slice d ks).
Proof.
  intros d ks [T1 [T2 T3]]. split; [|split]; simpl.
  - apply filter_keys_NoDup; auto.
  - apply filter_keys_NoDup; auto.
  - intros k c Hc. pose proof (dget_filter_key _ (fun k => smem k ks) (cols d) k) as G1.
    pose proof (dget_filter_key _ (fun k => smem k ks) (types d) k) as G2.
    cbv beta in G1, G2. rewrite Hc in G1. rewrite G2.
    destruct (smem k ks); [auto|discriminate].
Qed.

Lemma typed_standard_loop : forall ks d, typed d -> typed (fst (standard_keys_loop d ks)).
Proof.
  induction ks as [|k ks IH]; intros d T; cbn [standard_keys_loop]; auto.
  destruct (get_standard_key k) as [s|]; auto.
  destruct (String.eqb k s); auto.
  destruct (free_key _ _ _ _ _) as [nk|]; auto.
  pose proof (typed_rename d k nk T). destruct (rename d k nk) as [d1 [x|e]]; simpl in *; auto.
Qed.

Lemma typed_aggregate : forall d, typed d -> typed (fst (aggregate_datetime d)).
Proof.
  intros d T. unfold aggregate_datetime.
  destruct (dmem "time" (cols d) && dmem "date" (cols d)); auto.
  destruct (dget "date" (cols d)) as [ds|]; auto.
  destruct (dget "time" (cols d)) as [ts|]; auto.
  destruct (mapM _ _) as [dts|]; auto.
  pose proof (typed_extend d "datetime" dts T) as T1.
  destruct (extend d "datetime" dts) as [d1 [x|e]]; simpl in *; auto.
  pose proof (typed_delete_col d1 "date" T1) as T2.
  destruct (delete_col d1 "date") as [d2 [y|e]]; simpl in *; auto.
  apply typed_delete_col; auto.
Qed.

Lemma floats_of_types : forall pf l l', floats_of pf l = Some l' ->
  length l' = length l /\ forall v, In (Some v) l' -> vtype v = TFloat.
Proof.
  induction l as [|[v|] l IH]; simpl; intros l' H.
  - inversion H; subst. split; auto. intros v [].
  - destruct (to_float pf v) as [w|] eqn:E; [|discriminate].
    destruct (floats_of pf l) as [r|]; [|discriminate]. simpl in H. inversion H; subst.
    destruct (IH r eq_refl) as [L F]. split; [simpl; congruence|].
    intros x [Hx|Hx]; auto. inversion Hx; subst.
    destruct v; simpl in E; try discriminate; try (inversion E; reflexivity).
    destruct (pf s); simpl in E; inversion E; reflexivity.
  - destruct (floats_of pf l) as [r|]; [|discriminate]. simpl in H. inversion H; subst.
    destruct (IH r eq_refl) as [L F]. split; [simpl; congruence|].
    intros x [Hx|Hx]; [discriminate|auto].
Qed.

Lemma typed_ensure_floats : forall pf ks d, typed d -> typed (fst (ensure_floats pf d ks)).
Proof.
  induction ks as [|k ks IH]; intros d T; simpl; auto.
  destruct (dget k (types d)) as [t|]; auto.
  destruct (dget k (cols d)) as [c|]; auto.
  apply IH. destruct (castable t); auto.
  destruct (floats_of pf c) as [c'|] eqn:E; auto.
  apply typed_set; auto. apply floats_of_types in E. destruct E as [_ E].
  intros v Hv. f_equal. symmetry. auto.
Qed.

Lemma typed_standard_format : forall pf d, typed d ->
  typed (fst (hrosailing_standard_format pf d)).
Proof.
  intros pf d T. unfold hrosailing_standard_format.
  pose proof (typed_standard_loop (data_keys d) d T) as T1.
  destruct (standard_keys_loop d (data_keys d)) as [d1 [x|e]]; simpl in *; auto.
  pose proof (typed_aggregate d1 T1) as T2.
  destruct (aggregate_datetime d1) as [d2 [y|e]]; simpl in *; auto.
  apply typed_ensure_floats; auto.
Qed.

Lemma typed_run_op : forall d o, typed d -> typed (run_op d o).
Proof.
  intros d [] T; simpl.
  - apply typed_extend; auto.
  - apply typed_extend; auto.
  - apply typed_update; auto.
  - apply typed_update; auto.
  - apply typed_fill_keys; auto.
  - apply typed_filter_keys; auto.
  - apply typed_rename; auto.
  - apply typed_delete_col; auto.
  - apply typed_delete_cols; auto.
  - apply typed_delete_rows; auto.
  - apply typed_strip_cols; auto.
  - apply typed_strip_rows; auto.
  - apply typed_strip_rows. apply typed_strip_cols. auto.
  - apply typed_standard_format; auto.
  - apply typed_mask_rows; auto.
  - apply typed_get_slice; auto.
Qed.

Lemma typed_history : forall ops, typed (fold_left run_op ops empty_data).
Proof.
  intros ops. assert (forall d, typed d -> typed (fold_left run_op ops d)) as H.
  { induction ops; simpl; auto. intros. apply IHops. apply typed_run_op; auto. }
  apply H. apply empty_wf.
Qed.

(* ---- concatenate ---- *)

Lemma added_rows_data : forall d n, well_formed d n -> cols d <> [] \/ n = 0 ->
  added_rows (dmap UList (cols d)) = n.
Proof.
  intros d n [T [M R]] H. unfold added_rows, dmap. rewrite map_map. simpl.
  destruct H as [H|H].
  - assert (forall kv, In kv (cols d) -> length (snd kv) = n) as L.
    { intros [k c] Hin. simpl. apply (R k). apply NoDup_dget; auto. apply T. }
    destruct (cols d) as [|kv cs] eqn:E; [contradiction|]. clear -L.
    assert (forall cs', (forall x, In x cs' -> In x (kv :: cs)) ->
              fold_right max 0 (map (fun x : string * list cell => length (snd x)) cs') <= n) as U.
    { induction cs' as [|x cs' IH]; simpl; intros Hs; [lia|].
      rewrite (L x) by (apply Hs; auto). assert (forall x, In x cs' -> In x (kv :: cs)) by (intros; apply Hs; auto).
      specialize (IH H). lia. }
    simpl. rewrite (L kv) by (left; auto).
    specialize (U cs). assert (forall x, In x cs -> In x (kv :: cs)) by (intros; right; auto).
    specialize (U H). lia.
  - subst n. assert (forall kv, In kv (cols d) -> length (snd kv) = 0) as L.
    { intros [k c] Hin. simpl. apply (R k). apply NoDup_dget; auto. apply T. }
    clear R; induction (cols d) as [|kv cs IH]; simpl; auto.
    rewrite (L kv) by (left; auto). rewrite IH; auto. intros; apply L; right; auto.
Qed.

Lemma given_data : forall d n k, well_formed d n ->
  pad_to n (given (dmap UList (cols d)) k) = column_or_none d n k.
Proof.
  intros d n k [T [M R]]. unfold given, column_or_none. rewrite dget_dmap.
  destruct (dget k (cols d)) as [c|] eqn:E; simpl.
  - apply pad_to_id. rewrite (R _ _ E). lia.
  - unfold pad_to. simpl. rewrite Nat.sub_0_r. reflexivity.
Qed.

Lemma column_or_none_get : forall d n k c, get_col d k = Ok c -> column_or_none d n k = c.
Proof.
  unfold get_col, column_or_none. intros. destruct (dget k (cols d)); congruence.
Qed.

Lemma repeat_none_homog : forall l n, homogeneous l -> homogeneous (repeat None n ++ l).
Proof.
  intros l n [t H]. exists t. intros v Hv. apply in_app_or in Hv. destruct Hv as [Hv|Hv]; auto.
  apply repeat_spec in Hv. discriminate.
Qed.

Definition joins_to (start : Data * nat) (ds : list (Data * nat)) (d' : Data) : Prop :=
  well_formed d' (snd start + total_rows ds) /\
  (forall k, In k (data_keys d') <->
     In k (data_keys (fst start)) \/ exists dn, In dn ds /\ In k (data_keys (fst dn))) /\
  (forall k, column_or_none d' (snd start + total_rows ds) k =
     column_or_none (fst start) (snd start) k ++ stacked ds k).

Lemma concat_onto_ok : forall ds d n, well_formed d n ->
  (forall dn, In dn ds -> well_formed (fst dn) (snd dn) /\ (cols (fst dn) <> [] \/ snd dn = 0)) ->
  (forall k, homogeneous (column_or_none d n k ++ stacked ds k)) ->
  exists d', concat_onto d (map fst ds) = (d', Ok tt) /\ joins_to (d, n) ds d'.
Proof.
  induction ds as [|[o m] ds IH]; intros d n W HW HH.
  - exists d. split; auto. simpl. unfold joins_to, total_rows. simpl. rewrite Nat.add_0_r.
    split; [auto|]. split.
    + intros k. split; auto. intros [H|[dn [[] _]]]; auto.
    + intros k. rewrite app_nil_r. reflexivity.
  - destruct (HW (o, m)) as [Wo Ho]; [left; auto|]. simpl in Wo, Ho.
    assert (NoDup (dkeys (dmap UList (cols o)))) as ND.
    { rewrite dmap_keys. apply Wo. }
    destruct (update_ok d n (dmap UList (cols o)) W ND) as [d1 [E1 [W1 [K1 C1]]]].
    { intros k u Hin. eapply homogeneous_sub; [|apply (HH k)].
      intros v Hv. apply in_app_or in Hv. apply in_or_app. destruct Hv as [Hv|Hv]; auto.
      right. simpl. apply in_or_app. left.
      pose proof (NoDup_dget _ k _ u ND Hin) as G. rewrite dget_dmap in G.
      unfold column_or_none. destruct (dget k (cols o)) as [c|]; simpl in G; [|discriminate].
      inversion G; subst. exact Hv. }
    rewrite (added_rows_data o m Wo Ho) in W1, C1.
    assert (forall k, column_or_none d1 (n + m) k =
                      column_or_none d n k ++ column_or_none o m k) as C.
    { intros k. destruct (in_dec string_dec k (data_keys d1)) as [Hk|Hk].
      - pose proof (C1 k Hk) as G. rewrite given_data in G by auto.
        eapply column_or_none_get; eauto.
      - unfold column_or_none at 1. assert (dget k (cols d1) = None) as ->.
        { apply dget_None; auto. }
        unfold column_or_none. assert (dget k (cols d) = None) as ->.
        { apply dget_None. intros Hk'. apply Hk. rewrite K1. apply in_or_app; auto. }
        assert (dget k (cols o) = None) as ->.
        { apply dget_None. intros Hk'. apply Hk. rewrite K1. apply in_or_app.
          destruct (smem k (data_keys d)) eqn:Es.
          - left. apply smem_In; auto.
          - right. apply filter_In. rewrite dmap_keys, Es. auto. }
        apply repeat_app. }
    destruct (IH d1 (n + m) W1) as [d' [E' [W' [K' C']]]].
    + intros dn Hin. apply HW. right; auto.
    + intros k. rewrite C. rewrite <- app_assoc. apply (HH k).
    + exists d'. cbn [map fst concat_onto]. unfold update_data. rewrite E1. cbn [ubind].
      split; auto. cbn [fst snd] in *. unfold joins_to. cbn [fst snd].
      replace (n + total_rows ((o, m) :: ds)) with (n + m + total_rows ds)
        by (unfold total_rows; simpl; lia).
      split; auto. split.
      * intros k. rewrite K'. rewrite K1, in_app_iff, filter_In, dmap_keys. split.
        -- intros [[H|[H _]]|[dn [H1 H2]]]; auto.
           ++ right. exists (o, m). simpl; auto.
           ++ right. exists dn. simpl; auto.
        -- intros [H|[dn [[H1|H1] H2]]]; auto.
           ++ subst dn. simpl in H2. left. destruct (smem k (data_keys d)) eqn:Es.
              ** left. apply smem_In; auto.
              ** right. auto.
           ++ right. exists dn; auto.
      * intros k. rewrite C', C. simpl. rewrite app_assoc. reflexivity.
Qed.

Lemma concatenate_ok : forall ds,
  (forall dn, In dn ds -> well_formed (fst dn) (snd dn) /\ (cols (fst dn) <> [] \/ snd dn = 0)) ->
  (forall k, homogeneous (stacked ds k)) ->
  exists d', concatenate (map fst ds) = Ok d' /\
    well_formed d' (total_rows ds) /\
    (forall k, In k (data_keys d') <-> exists dn, In dn ds /\ In k (data_keys (fst dn))) /\
    (forall k, In k (data_keys d') -> get_col d' k = Ok (stacked ds k)).
Proof.
  intros ds HW HH. destruct (concat_onto_ok ds empty_data 0 empty_wf HW) as [d' [E [W [K C]]]].
  { intros k. unfold column_or_none. simpl. apply HH. }
  exists d'. unfold concatenate. rewrite E. split; auto. simpl in *. split; auto. split.
  - intros k. rewrite K. split; [intros [[]|H]; auto|auto].
  - intros k Hk. rewrite get_col_col_or by auto. f_equal.
    specialize (C k). change (column_or_none empty_data 0 k) with (@nil cell) in C.
    simpl in C. rewrite <- C.
    unfold column_or_none, col_or. apply dget_In_key in Hk. destruct Hk as [c Hc].
    rewrite Hc. reflexivity.
Qed.

Lemma stacked_sub_fail : forall d n o m k,
  well_formed d n -> well_formed o m -> ~ homogeneous (column_or_none d n k ++ column_or_none o m k) ->
  exists d', update_data d o = (d', Raise ValueError).
Proof.
  intros d n o m k W Wo H.
  assert (NoDup (dkeys (dmap UList (cols o)))) as ND by (rewrite dmap_keys; apply Wo).
  destruct (dget k (cols o)) as [c|] eqn:E.
  - apply (update_fail d n (dmap UList (cols o)) W ND).
    exists k, (UList c). split.
    + apply dget_Some_In. rewrite dget_dmap, E. reflexivity.
    + simpl. intros Hh. apply H. unfold column_or_none at 2. rewrite E. auto.
  - exfalso. apply H. unfold column_or_none at 2. rewrite E.
    eapply homogeneous_sub; [|apply (typed_homogeneous d k); apply W].
    intros v Hv. apply in_app_or in Hv. destruct Hv as [Hv|Hv].
    + unfold column_or_none in Hv. unfold col_or. destruct (dget k (cols d)); auto.
      apply repeat_spec in Hv. discriminate.
    + apply repeat_spec in Hv. discriminate.
Qed.
