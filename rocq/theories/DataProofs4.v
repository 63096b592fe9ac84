(** * Proofs about [Data.hrosailing_standard_format] *)

From Coq Require Import String Ascii DecimalString DecimalNat.
From Coq Require Import List Bool Arith ZArith QArith Lia Permutation.
From Verif Require Import Py Dict DataModel DataSpec DataProofs DataProofs2 DataProofs3.
Import ListNotations.
Open Scope string_scope.
Open Scope list_scope.
Open Scope nat_scope.

(* ---- standard keys ---- *)

Definition result_eqb (a b : result string) : bool :=
  match a, b with
  | Ok x, Ok y => String.eqb x y
  | _, _ => false
  end.

Lemma synonyms_stable : forallb (fun kv => result_eqb (get_standard_key (snd kv)) (Ok (snd kv)))
  keysynonyms = true.
Proof. vm_compute. reflexivity. Qed.

Lemma standard_key_idempotent : forall k s, get_standard_key k = Ok s -> get_standard_key s = Ok s.
Proof.
  intros k s H.
  assert (forall l, dget l keysynonyms = Some s -> get_standard_key s = Ok s) as G.
  { intros l Hl. apply dget_Some_In in Hl. pose proof synonyms_stable as S.
    rewrite forallb_forall in S. specialize (S _ Hl). simpl in S.
    unfold result_eqb in S. destruct (get_standard_key s); [|discriminate].
    apply String.eqb_eq in S. congruence. }
  pose proof H as H0. unfold get_standard_key in H.
  destruct (slast _) as [c|e]; [|discriminate]. cbn [rbind] in H.
  destruct (dget (strip (smap sep_to_space (smap lower_char k))) keysynonyms) eqn:E1.
  - inversion H; subst. eapply G; eauto.
  - destruct (dget _ keysynonyms) eqn:E2 in H.
    + inversion H; subst. eapply G; eauto.
    + inversion H; subst. exact H0.
Qed.

(* ---- free keys ---- *)

Lemma string_of_nat_inj : forall n m, string_of_nat n = string_of_nat m -> n = m.
Proof.
  intros n m H. unfold string_of_nat in H.
  apply (f_equal NilEmpty.uint_of_string) in H.
  rewrite !NilEmpty.usu in H. inversion H. apply Unsigned.to_uint_inj in H1. auto.
Qed.

Lemma sappend_inj_l : forall a b c, (a ++ b = a ++ c)%string -> b = c.
Proof. induction a; simpl; intros b c H; auto. inversion H; auto. Qed.

Lemma slength_app : forall a b, String.length (a ++ b)%string = String.length a + String.length b.
Proof. induction a; simpl; auto. Qed.

Lemma sappend_inj_r : forall a b c, (a ++ c = b ++ c)%string -> a = b.
Proof.
  induction a as [|x a IH]; intros [|y b] c H; simpl in *; auto.
  - exfalso. apply (f_equal String.length) in H. simpl in H. rewrite slength_app in H. lia.
  - exfalso. apply (f_equal String.length) in H. simpl in H. rewrite slength_app in H. lia.
  - inversion H; subst. f_equal. eauto.
Qed.

Lemma control_key_inj : forall b i j, control_key b i = control_key b j -> i = j.
Proof.
  intros b i j H. unfold control_key in H. apply sappend_inj_l in H. apply sappend_inj_l in H.
  apply sappend_inj_r in H. apply string_of_nat_inj; auto.
Qed.

Lemma control_key_not_base : forall b i, control_key b i <> b.
Proof.
  intros b i H. unfold control_key in H. apply (f_equal String.length) in H.
  rewrite slength_app in H. simpl in H. lia.
Qed.

Lemma candidate_inj : forall b i j, candidate b i = candidate b j -> i = j.
Proof.
  intros b [|i] [|j] H; simpl in H; auto.
  - symmetry in H. apply control_key_not_base in H. contradiction.
  - apply control_key_not_base in H. contradiction.
  - apply control_key_inj in H. auto.
Qed.

Lemma free_key_spec : forall fuel keys b i,
  (exists j, free_key fuel keys b (candidate b i) i = Ok (candidate b j) /\ i <= j /\
     ~ In (candidate b j) keys /\ forall l, i <= l < j -> In (candidate b l) keys) \/
  (free_key fuel keys b (candidate b i) i = Raise OutOfFuel /\
   forall l, i <= l < i + fuel -> In (candidate b l) keys).
Proof.
  induction fuel as [|f IH]; intros keys b i; cbn [free_key].
  - right. split; auto. intros; lia.
  - destruct (smem (candidate b i) keys) eqn:E.
    + apply smem_In in E. change (control_key b (S i)) with (candidate b (S i)).
      destruct (IH keys b (S i)) as [[j [H1 [H2 [H3 H4]]]]|[H1 H2]].
      * left. exists j. repeat split; auto; [lia|]. intros l Hl.
        destruct (Nat.eq_dec l i); [subst; auto|]. apply H4. lia.
      * right. split; auto. intros l Hl. destruct (Nat.eq_dec l i); [subst; auto|]. apply H2. lia.
    + apply smem_false in E. left. exists i. repeat split; auto. intros; lia.
Qed.

Lemma free_key_total : forall keys b,
  exists j, free_key (S (S (length keys))) keys b b 0 = Ok (candidate b j) /\
    ~ In (candidate b j) keys /\ forall l, l < j -> In (candidate b l) keys.
Proof.
  intros keys b. destruct (free_key_spec (S (S (length keys))) keys b 0)
    as [[j [H1 [H2 [H3 H4]]]]|[H1 H2]].
  - exists j. split; [exact H1|]. split; auto. intros; apply H4; lia.
  - exfalso.
    assert (incl (map (candidate b) (seq 0 (S (length keys)))) keys) as I.
    { intros x Hx. apply in_map_iff in Hx. destruct Hx as [l [<- Hl]]. apply in_seq in Hl.
      apply H2. lia. }
    apply NoDup_incl_length in I.
    + rewrite map_length, seq_length in I. lia.
    + clear. generalize (seq 0 (S (length keys))) (seq_NoDup (S (length keys)) 0).
      intros l. induction l as [|a l IH]; simpl; intros ND; constructor.
      * inversion ND; subst. intros H. apply in_map_iff in H. destruct H as [x [Hx Hi]].
        apply candidate_inj in Hx. subst; auto.
      * inversion ND; auto.
Qed.

(* ---- renaming all columns ---- *)

Lemma standard_loop_ok : forall ks d, typed d -> NoDup ks ->
  (forall k, In k ks -> In k (data_keys d) /\ exists s, get_standard_key k = Ok s) ->
  exists d' f, standard_keys_loop d ks = (d', Ok tt) /\ typed d' /\ renamed_by f d d' /\
    (forall k, In k ks -> standard_name k (f k)) /\
    (forall k, In k ks -> get_standard_key k = Ok k -> f k = k) /\
    (forall k, In k (data_keys d) -> ~ In k ks -> f k = k).
Proof.
  induction ks as [|k ks IH]; intros d T ND HK.
  - exists d, (fun k => k). simpl. split; auto. split; auto. split.
    + split; [auto|split; [|auto]]. intros k. split; [eauto|]. intros [k0 [H <-]]; auto.
    + split; [intros k []|]. split; [intros k []|]. auto.
  - cbn [standard_keys_loop]. destruct (HK k) as [Hk [s Hs]]; [simpl; auto|]. rewrite Hs.
    inversion ND; subst.
    destruct (String.eqb_spec k s) as [->|Hne].
    + destruct (IH d T) as [d' [f [E [T' [R [N [I O]]]]]]]; auto.
      { intros; apply HK; simpl; auto. }
      exists d', f. split; auto. split; auto. split; auto. split; [|split].
      * intros k' [<-|Hk']; auto. exists s, 0. split; [auto|]. simpl. apply O; auto.
      * intros k' [<-|Hk'] Hst; auto.
      * intros k' Hk' Hn. apply O; auto. intros Hc. apply Hn. simpl; auto.
    + destruct (free_key_total (data_keys d) s) as [j [Ef [Hf Hmin]]]. rewrite Ef.
      set (nk := candidate s j) in *.
      assert (k <> nk) as Hkn by (intros ->; contradiction).
      destruct (rename_ok d k nk T Hkn Hk Hf) as [d1 [E1 [T1 [K1 [M1 [C1 [Y1 O1]]]]]]].
      rewrite E1. cbn [ubind].
      assert (forall x, In x (data_keys d1) <-> (In x (data_keys d) /\ x <> k) \/ x = nk) as KI.
      { intros x. rewrite K1, in_app_iff, filter_In. simpl.
        rewrite negb_true_iff, String.eqb_neq. intuition. }
      destruct (IH d1 T1) as [d' [f [E [T' [R [N [I O]]]]]]]; auto.
      { intros x Hx. destruct (HK x) as [Hx1 Hx2]; [simpl; auto|]. split; auto. apply KI.
        left. split; auto. intros ->; contradiction. }
      assert (~ In nk ks) as Hnk.
      { intros Hc. apply Hf. destruct (HK nk); simpl; auto. }
      exists d', (fun x => if String.eqb x k then f nk else f x).
      assert (f nk = nk) as Fn by (apply O; auto; apply KI; auto).
      split; auto. split; auto. destruct R as [R1 [R2 [R3 R4]]]. split; [split; [|split; [|split]]|split; [|split]].
      * intros k1 k2 H4 H5 H6. destruct (String.eqb_spec k1 k), (String.eqb_spec k2 k); subst; auto.
        -- exfalso. apply R1 in H6; [subst; contradiction|apply KI; auto|apply KI; left; auto].
        -- exfalso. apply R1 in H6; [subst; contradiction|apply KI; left; auto|apply KI; auto].
        -- apply R1 in H6; auto; apply KI; left; auto.
      * intros x. rewrite R2. split.
        -- intros [k0 [H4 H5]]. apply KI in H4. destruct H4 as [[H4 H6]|H4].
           ++ exists k0. split; auto. destruct (String.eqb_spec k0 k); [contradiction|auto].
           ++ subst k0. exists k. rewrite String.eqb_refl. auto.
        -- intros [k0 [H4 H5]]. destruct (String.eqb_spec k0 k).
           ++ exists nk. split; auto. apply KI; auto.
           ++ exists k0. split; auto. apply KI; left; auto.
      * intros x Hx. destruct (String.eqb_spec x k).
        -- subst x. destruct (R3 nk) as [A B]; [apply KI; auto|]. rewrite A, B. auto.
        -- destruct (R3 x) as [A B]; [apply KI; left; auto|]. rewrite A, B.
           apply O1; auto. intros ->. contradiction.
      * congruence.
      * intros x [<-|Hx].
        -- rewrite String.eqb_refl, Fn. exists s, j. auto.
        -- destruct (String.eqb_spec x k); [subst; contradiction|]. auto.
      * intros x [<-|Hx] Hst.
        -- exfalso. rewrite Hs in Hst. inversion Hst. subst. contradiction.
        -- destruct (String.eqb_spec x k); [subst; contradiction|]. auto.
      * intros x Hx Hn. simpl in Hn. destruct (String.eqb_spec x k); [subst; tauto|].
        apply O; [|tauto]. apply KI; left; auto.
Qed.

Lemma renamed_wf : forall f d d' n, renamed_by f d d' -> typed d' -> well_formed d n ->
  well_formed d' n.
Proof.
  intros f d d' n [R1 [R2 [R3 R4]]] T' [T [M R]]. split; auto. split; [congruence|].
  intros k c Hc. assert (In k (data_keys d')) as Hk by (apply dget_In_key; eauto).
  apply R2 in Hk. destruct Hk as [k0 [H0 <-]]. destruct (R3 k0 H0) as [A _]. rewrite A in Hc. eauto.
Qed.

Lemma standard_loop_bad : forall ks d k e, typed d -> NoDup ks ->
  (forall k, In k ks -> In k (data_keys d)) ->
  In k ks -> get_standard_key k = Raise e ->
  exists d' e', standard_keys_loop d ks = (d', Raise e').
Proof.
  induction ks as [|k0 ks IH]; intros d k e T ND HK Hin Hr; [destruct Hin|].
  cbn [standard_keys_loop]. inversion ND; subst.
  destruct (get_standard_key k0) as [s|e0] eqn:Es; [|eauto].
  destruct Hin as [->|Hin]; [congruence|].
  destruct (String.eqb_spec k0 s).
  - eapply IH; eauto. intros; apply HK; simpl; auto.
  - destruct (free_key_total (data_keys d) s) as [j [Ef [Hf Hmin]]]. rewrite Ef.
    destruct (rename_ok d k0 (candidate s j) T) as [d1 [E1 [T1 [K1 _]]]]; auto.
    { intros Hc. apply Hf. rewrite <- Hc. apply HK; simpl; auto. }
    { apply HK; simpl; auto. }
    rewrite E1. cbn [ubind]. eapply IH; eauto.
    intros x Hx. rewrite K1. apply in_or_app. left. apply filter_In. split.
    + apply HK; simpl; auto.
    + apply negb_true_iff, String.eqb_neq. intros ->; contradiction.
Qed.

(* ---- date and time ---- *)

Lemma combine_columns : forall ds ts, date_column ds -> time_column ts ->
  mapM (fun p => combine_dt (fst p) (snd p)) (combine ds ts) =
  Ok (map (fun p => moment (fst p) (snd p)) (combine ds ts)).
Proof.
  intros ds ts HD HT. apply mapM_Ok_map. intros [a b] H. simpl.
  pose proof (in_combine_l _ _ _ _ H) as Ha. pose proof (in_combine_r _ _ _ _ H) as Hb.
  destruct a as [a|]; simpl; auto. destruct (HD a Ha) as [x ->].
  destruct b as [b|]; simpl; auto. destruct (HT b Hb) as [y ->]. cbn [combine_dt moment fst snd].
  replace (x * 86400000000 + y)%Z with (86400 * 1000000 * x + y)%Z by lia. reflexivity.
Qed.

Lemma moments_homogeneous : forall l, homogeneous (map (fun p : cell * cell => moment (fst p) (snd p)) l).
Proof.
  intros l. exists TDatetime. intros v H. apply in_map_iff in H. destruct H as [[a b] [H _]].
  simpl in H. destruct a as [[]|], b as [[]|]; simpl in H; try discriminate. inversion H; reflexivity.
Qed.

Lemma aggregate_ok : forall d n ds ts, well_formed d n ->
  get_col d "date" = Ok ds -> get_col d "time" = Ok ts ->
  date_column ds -> time_column ts -> ~ In "datetime" (data_keys d) ->
  exists d', aggregate_datetime d = (d', Ok tt) /\ well_formed d' n /\
    (forall k, In k (data_keys d') <-> k = "datetime" \/
               (In k (data_keys d) /\ k <> "date" /\ k <> "time")) /\
    get_col d' "datetime" = Ok (map (fun p => moment (fst p) (snd p)) (combine ds ts)) /\
    (forall k, In k (data_keys d) -> k <> "date" -> k <> "time" -> get_col d' k = get_col d k).
Proof.
  intros d n ds ts W Hd Ht HD HT HN. pose proof W as [T [M R]].
  unfold get_col in Hd, Ht.
  destruct (dget "date" (cols d)) as [c1|] eqn:E1; [|discriminate].
  destruct (dget "time" (cols d)) as [c2|] eqn:E2; [|discriminate].
  inversion Hd; inversion Ht; subst c1 c2. clear Hd Ht.
  unfold aggregate_datetime. unfold dmem. rewrite E1, E2. cbn [andb].
  rewrite combine_columns by auto.
  set (dts := map (fun p => moment (fst p) (snd p)) (combine ds ts)).
  assert (length dts = n) as Ldts.
  { unfold dts. rewrite map_length, combine_length, (R _ _ E1), (R _ _ E2). lia. }
  assert (exists t, get_type dts = Ok t) as [t Et] by (apply get_type_homogeneous, moments_homogeneous).
  unfold extend. rewrite Et.
  assert (dget "datetime" (cols d) = None) as E3 by (apply dget_None; auto).
  rewrite E3. cbn [ubind].
  set (d1 := mkData (dset "datetime" dts (cols d)) (dset "datetime" t (types d)) (grow (max_len d) dts)).
  assert (typed d1) as T1.
  { apply typed_set; auto. apply get_type_fits; auto. }
  assert (n_rows d1 = Z.of_nat n) as M1.
  { unfold d1, n_rows, grow. simpl. unfold n_rows in M. rewrite M, Ldts. lia. }
  assert (forall k, In k (data_keys d1) <-> k = "datetime" \/ In k (data_keys d)) as K1.
  { intros k. unfold d1, data_keys. simpl. apply dset_In_keys. }
  assert (forall k, k <> "datetime" -> dget k (cols d1) = dget k (cols d)) as C1.
  { intros k Hk. unfold d1. simpl. apply dget_dset_other. auto. }
  assert (dget "datetime" (cols d1) = Some dts) as C1' by (unfold d1; simpl; apply dget_dset_same).
  clearbody d1.
  assert (In "date" (data_keys d1)) as I1.
  { apply K1. right. apply dget_In_key. eauto. }
  destruct (delete_col_ok d1 "date" T1 I1) as [d2 [F2 [K2 [M2 C2]]]].
  rewrite F2. cbn [ubind].
  assert (typed d2) as T2.
  { pose proof (typed_delete_col d1 "date" T1) as G. rewrite F2 in G. exact G. }
  assert (forall k, In k (data_keys d2) <-> In k (data_keys d1) /\ k <> "date") as K2'.
  { intros k. rewrite K2, filter_In, negb_true_iff, String.eqb_neq. tauto. }
  assert (In "time" (data_keys d2)) as I2.
  { apply K2'. split; [|discriminate]. apply K1. right. apply dget_In_key. eauto. }
  destruct (delete_col_ok d2 "time" T2 I2) as [d3 [F3 [K3 [M3 C3]]]].
  assert (typed d3) as T3.
  { pose proof (typed_delete_col d2 "time" T2) as G. rewrite F3 in G. exact G. }
  assert (forall k, In k (data_keys d3) <-> In k (data_keys d2) /\ k <> "time") as K3'.
  { intros k. rewrite K3, filter_In, negb_true_iff, String.eqb_neq. tauto. }
  exists d3. split; auto.
  assert (get_col d3 "datetime" = Ok dts) as CD.
  { unfold get_col. destruct (C3 "datetime") as [-> _]; [discriminate|].
    destruct (C2 "datetime") as [-> _]; [discriminate|]. rewrite C1'. reflexivity. }
  assert (forall k, k <> "datetime" -> k <> "date" -> k <> "time" -> dget k (cols d3) = dget k (cols d)) as CO.
  { intros k H1 H2 H3. destruct (C3 k) as [-> _]; auto. destruct (C2 k) as [-> _]; auto. }
  split; [|split; [|split]]; auto.
  - split; auto. split; [congruence|]. intros k c Hc.
    assert (In k (data_keys d3)) as Hk by (apply dget_In_key; eauto).
    apply K3' in Hk. destruct Hk as [Hk Hk3]. apply K2' in Hk. destruct Hk as [Hk Hk2].
    destruct (string_dec k "datetime") as [->|Hk1].
    + unfold get_col in CD. rewrite Hc in CD. inversion CD; subst. auto.
    + rewrite CO in Hc by auto. eauto.
  - intros k. rewrite K3', K2', K1. split; [|].
    + intros [[[H|H] H2] H3]; auto.
    + intros [->|[H1 [H2 H3]]]; [|tauto]. repeat split; auto; discriminate.
  - intros k H1 H2 H3. unfold get_col. rewrite CO; auto. intros ->. contradiction.
Qed.

Lemma aggregate_none : forall d, ~ In "date" (data_keys d) \/ ~ In "time" (data_keys d) ->
  aggregate_datetime d = (d, Ok tt).
Proof.
  intros d H. unfold aggregate_datetime.
  assert (dmem "time" (cols d) && dmem "date" (cols d) = false) as ->; auto.
  apply andb_false_iff. rewrite !dmem_false. tauto.
Qed.

(* ---- casting to float ---- *)

Section Floats.
  Variable pf : string -> option Q.

  (** What the float cast does to a column of a given type. *)
  Definition cast_column (t : option ptype) (col : list cell) : list cell :=
    if castable t then match floats_of pf col with Some c => c | None => col end else col.

  Lemma cast_column_length : forall t c, length (cast_column t c) = length c.
  Proof.
    intros. unfold cast_column. destruct (castable t); auto.
    destruct (floats_of pf c) eqn:E; auto. apply floats_of_types in E. tauto.
  Qed.

  Lemma ensure_floats_spec : forall ks d, typed d -> NoDup ks ->
    (forall k, In k ks -> In k (data_keys d)) ->
    exists d', ensure_floats pf d ks = (d', Ok tt) /\ typed d' /\
      data_keys d' = data_keys d /\ n_rows d' = n_rows d /\
      (forall k t c, In k ks -> dget k (types d) = Some t -> dget k (cols d) = Some c ->
         dget k (cols d') = Some (cast_column t c)) /\
      (forall k, ~ In k ks -> dget k (cols d') = dget k (cols d) /\ dget k (types d') = dget k (types d)).
  Proof.
    induction ks as [|k ks IH]; intros d T ND HK.
    - exists d. simpl. repeat split; auto; try apply T. intros k t c [].
    - cbn [ensure_floats]. inversion ND; subst.
      assert (In k (data_keys d)) as Hk by (apply HK; simpl; auto).
      destruct (typed_types_exist d k T Hk) as [t Et].
      pose proof Hk as Hc. apply dget_In_key in Hc. destruct Hc as [c Hc]. rewrite Et, Hc.
      set (d1 := if castable t then _ else d).
      assert (typed d1 /\ data_keys d1 = data_keys d /\ n_rows d1 = n_rows d /\
              dget k (cols d1) = Some (cast_column t c) /\
              forall k', k' <> k -> dget k' (cols d1) = dget k' (cols d) /\
                                    dget k' (types d1) = dget k' (types d)) as [T1 [K1 [M1 [C1 O1]]]].
      { unfold d1, cast_column. destruct (castable t) eqn:Ct; [|auto 8].
        destruct (floats_of pf c) as [c'|] eqn:Ef; [|auto 8].
        split; [|split; [|split; [|split]]]; simpl; auto.
        - apply typed_set; auto. apply floats_of_types in Ef. destruct Ef as [_ Ef].
          intros v Hv. f_equal. symmetry. auto.
        - unfold data_keys. simpl. apply dset_keys_in. auto.
        - apply dget_dset_same.
        - intros k' Hk'. rewrite !dget_dset_other by auto. auto. }
      clearbody d1.
      destruct (IH d1 T1) as [d' [E [T' [K' [M' [C' O']]]]]]; auto.
      { intros. rewrite K1. apply HK; simpl; auto. }
      exists d'. split; auto. split; auto. split; [congruence|]. split; [congruence|]. split.
      + intros k' t' c' [<-|Hin] Ht Hcc.
        * destruct (O' k) as [-> _]; auto. congruence.
        * assert (k' <> k) by (intros ->; contradiction).
          destruct (O1 k') as [A B]; auto. apply C'; auto; congruence.
      + intros k' Hn. simpl in Hn. destruct (O' k') as [A B]; [tauto|].
        destruct (O1 k') as [A' B']; [intros ->; tauto|]. split; congruence.
  Qed.

  Lemma ensure_floats_ok : forall d n, well_formed d n ->
    exists d', ensure_floats pf d (data_keys d) = (d', Ok tt) /\ well_formed d' n /\
      data_keys d' = data_keys d /\
      (forall k t c, dget k (types d) = Some t -> get_col d k = Ok c ->
         get_col d' k = Ok (cast_column t c)).
  Proof.
    intros d n [T [M R]].
    destruct (ensure_floats_spec (data_keys d) d T) as [d' [E [T' [K' [M' [C' O']]]]]]; auto.
    { apply T. }
    exists d'. split; auto.
    assert (forall k t c, dget k (types d) = Some t -> get_col d k = Ok c ->
         get_col d' k = Ok (cast_column t c)) as C.
    { intros k t c Ht Hc. unfold get_col in *. destruct (dget k (cols d)) as [c0|] eqn:Ec; [|discriminate].
      inversion Hc; subst. rewrite (C' k t c); auto. apply dget_In_key. eauto. }
    split; [|split; auto]. split; auto. split; [congruence|].
    intros k c Hc. assert (In k (data_keys d')) as Hk by (apply dget_In_key; eauto).
    rewrite K' in Hk. destruct (typed_types_exist d k T Hk) as [t Et].
    pose proof Hk as Hc0. apply dget_In_key in Hc0. destruct Hc0 as [c0 Hc0].
    specialize (C k t c0 Et). unfold get_col in C. rewrite Hc0, Hc in C.
    specialize (C eq_refl). inversion C. rewrite cast_column_length. eauto.
  Qed.

  (** Without a date/time pair the whole standardisation succeeds, keeps the
      rows and only renames columns and casts them. *)
  Lemma standard_format_ok : forall d n, well_formed d n ->
    (forall k, In k (data_keys d) -> exists s, get_standard_key k = Ok s) ->
    (forall k, In k (data_keys d) -> get_standard_key k <> Ok "date") ->
    exists d' f, hrosailing_standard_format pf d = (d', Ok tt) /\ well_formed d' n /\
      (forall k1 k2, In k1 (data_keys d) -> In k2 (data_keys d) -> f k1 = f k2 -> k1 = k2) /\
      (forall k, In k (data_keys d') <-> exists k0, In k0 (data_keys d) /\ f k0 = k) /\
      (forall k, In k (data_keys d) -> standard_name k (f k)) /\
      (forall k t c, dget k (types d) = Some t -> get_col d k = Ok c ->
         get_col d' (f k) = Ok (cast_column t c)).
  Proof.
    intros d n W HS HD. pose proof W as [T _].
    destruct (standard_loop_ok (data_keys d) d T) as [d1 [f [E1 [T1 [R1 [N1 [I1 _]]]]]]].
    { apply T. } { auto. }
    assert (well_formed d1 n) as W1 by (eapply renamed_wf; eauto).
    pose proof R1 as [RA [RB [RC RD]]].
    assert (~ In "date" (data_keys d1)) as ND1.
    { intros H. apply RB in H. destruct H as [k0 [H0 Hf]].
      destruct (N1 k0 H0) as [s [j [Hs Hj]]]. rewrite Hj in Hf. destruct j as [|j].
      - simpl in Hf. subst. apply (HD k0 H0). congruence.
      - simpl in Hf. unfold control_key in Hf.
        apply (f_equal String.length) in Hf. rewrite !slength_app in Hf. simpl in Hf. lia. }
    destruct (ensure_floats_ok d1 n W1) as [d' [E' [W' [K' C']]]].
    exists d', f. unfold hrosailing_standard_format. rewrite E1. cbn [ubind].
    rewrite aggregate_none by auto. cbn [ubind]. split; auto. split; auto. split; auto.
    split; [intros k; rewrite K'; apply RB|]. split; auto.
    intros k t c Ht Hc. assert (In k (data_keys d)) as Hk.
    { unfold get_col in Hc. destruct (dget k (cols d)) eqn:E; [|discriminate]. apply dget_In_key. eauto. }
    destruct (RC k Hk) as [A B]. apply C'; [congruence|].
    unfold get_col in *. rewrite A. exact Hc.
  Qed.
End Floats.

Lemma floats_of_spec : forall pf c,
  match floats_of pf c with
  | Some c' => Forall2 (fun x y => match x with
                       | None => y = None
                       | Some v => exists q, number_of pf v = Some q /\ y = Some (VFloat q)
                       end) c c'
  | None => exists v, In (Some v) c /\ number_of pf v = None
  end.
Proof.
  induction c as [|[v|] c IH]; simpl.
  - constructor.
  - destruct (to_float pf v) as [w|] eqn:E.
    + destruct (floats_of pf c); simpl.
      * constructor; auto. destruct v; simpl in *; inversion E; subst; eauto.
        destruct (pf s); simpl in *; inversion E; eauto.
      * destruct IH as [u [H1 H2]]. eauto.
    + exists v. split; auto. destruct v; simpl in *; try discriminate; auto.
      destruct (pf s); simpl in *; [discriminate|auto].
  - destruct (floats_of pf c); simpl.
    + constructor; auto.
    + destruct IH as [u [H1 H2]]. eauto.
Qed.

Lemma cast_column_converted : forall pf t c, converted pf t c (cast_column pf t c).
Proof.
  intros. unfold converted, cast_column, convertible_type. pose proof (floats_of_spec pf c) as F.
  destruct (castable t) eqn:E.
  - assert (t = Some TInt \/ t = Some TStr \/ t = Some TDecimal \/ t = Some TNpFloat) as Ht.
    { destruct t as [[]|]; simpl in E; try discriminate; auto. }
    destruct (floats_of pf c); auto.
  - right. split; auto. left. intros [H|[H|[H|H]]]; subst; discriminate.
Qed.
