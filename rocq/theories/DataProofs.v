(** * Proofs about [Data] *)

From Coq Require Import String.
From Coq Require Import List Bool Arith ZArith QArith Lia.
From Verif Require Import Py Dict DataModel DataSpec.
Import ListNotations.
Open Scope list_scope.
Open Scope nat_scope.

Lemma ptype_eqb_eq : forall a b, ptype_eqb a b = true <-> a = b.
Proof. intros [] []; simpl; split; congruence. Qed.

Lemma ptype_eqb_refl : forall a, ptype_eqb a a = true.
Proof. intros. apply ptype_eqb_eq. reflexivity. Qed.

(* ---- _get_type ---- *)

Lemma get_type_from_some : forall l t r,
  get_type_from (Some t) l = Ok r ->
  r = Some t /\ forall v, In (Some v) l -> vtype v = t.
Proof.
  induction l as [|[v|] l IH]; simpl; intros t r H.
  - inversion H; subst; split; [auto|tauto].
  - destruct (ptype_eqb (vtype v) t) eqn:E; [|discriminate].
    apply ptype_eqb_eq in E. apply IH in H. destruct H as [-> H].
    split; auto. intros w [Hw|Hw]; [inversion Hw; subst; auto|auto].
  - apply IH in H. destruct H as [-> H]. split; auto.
    intros w [Hw|Hw]; [discriminate|auto].
Qed.

Lemma get_type_from_some_ok : forall l t,
  (forall v, In (Some v) l -> vtype v = t) -> get_type_from (Some t) l = Ok (Some t).
Proof.
  induction l as [|[v|] l IH]; simpl; intros t H; auto.
  rewrite (H v) by auto. rewrite ptype_eqb_refl. auto.
Qed.

Lemma get_type_fits : forall l t, get_type l = Ok t -> type_fits t l.
Proof.
  unfold get_type, type_fits. induction l as [|[w|] l IH]; simpl; intros t H v Hv.
  - contradiction.
  - apply get_type_from_some in H. destruct H as [-> H].
    destruct Hv as [Hv|Hv]; [inversion Hv; subst; auto|].
    f_equal. symmetry. auto.
  - destruct Hv as [Hv|Hv]; [discriminate|]. eapply IH; eauto.
Qed.

Lemma get_type_homogeneous : forall l, homogeneous l -> exists t, get_type l = Ok t.
Proof.
  unfold get_type. induction l as [|[v|] l IH]; simpl; intros [t H].
  - exists None; reflexivity.
  - exists (Some (vtype v)). apply get_type_from_some_ok.
    intros w Hw. rewrite (H w), (H v); simpl; auto.
  - apply IH. exists t. intros w Hw. apply H; simpl; auto.
Qed.

Lemma get_type_from_raise : forall l c e, get_type_from c l = Raise e -> e = ValueError.
Proof.
  induction l as [|[v|] l IH]; simpl; intros c e H; try discriminate.
  - destruct c as [t|]; [destruct (ptype_eqb (vtype v) t)|]; eauto; congruence.
  - eauto.
Qed.

Lemma get_type_ok_homogeneous : forall l t, get_type l = Ok t -> homogeneous l.
Proof.
  intros l [t|] H; apply get_type_fits in H.
  - exists t. intros v Hv. apply H in Hv. congruence.
  - exists TFloat. intros v Hv. apply H in Hv. discriminate.
Qed.

Lemma get_type_raise : forall l, ~ homogeneous l -> get_type l = Raise ValueError.
Proof.
  intros l H. destruct (get_type l) as [t|e] eqn:E.
  - exfalso. apply H. eapply get_type_ok_homogeneous; eauto.
  - f_equal. eapply get_type_from_raise; eauto.
Qed.

Lemma get_type_none_iff : forall l, get_type l = Ok None <-> forall v, ~ In (Some v) l.
Proof.
  split.
  - intros H v Hv. apply get_type_fits in H. apply H in Hv. discriminate.
  - unfold get_type. induction l as [|[v|] l IH]; simpl; intros H; auto.
    + exfalso. apply (H v). auto.
    + apply IH. intros v Hv. apply (H v). auto.
Qed.

Lemma get_type_some_iff : forall l t, get_type l = Ok (Some t) ->
  exists v, In (Some v) l /\ vtype v = t.
Proof.
  unfold get_type. induction l as [|[v|] l IH]; simpl; intros t H.
  - discriminate.
  - apply get_type_from_some in H. destruct H as [H _]. inversion H. eauto.
  - apply IH in H. destruct H as [v [H1 H2]]. eauto.
Qed.

Lemma homogeneous_sub : forall l l',
  (forall v, In (Some v) l -> In (Some v) l') -> homogeneous l' -> homogeneous l.
Proof. intros l l' H [t Ht]. exists t. auto. Qed.

Lemma type_fits_homogeneous : forall t l, type_fits t l -> homogeneous l.
Proof.
  intros [t|] l H.
  - exists t. intros v Hv. apply H in Hv. congruence.
  - exists TFloat. intros v Hv. apply H in Hv. discriminate.
Qed.

Lemma type_fits_sub : forall t l l',
  (forall v, In (Some v) l -> In (Some v) l') -> type_fits t l' -> type_fits t l.
Proof. unfold type_fits. auto. Qed.

Lemma in_pad : forall v n l, In (Some v) (pad_to n l) <-> In (Some v) l.
Proof.
  intros. unfold pad_to. rewrite in_app_iff. split; auto.
  intros [H|H]; auto. apply repeat_spec in H. discriminate.
Qed.

Lemma pad_to_length : forall n l, length (pad_to n l) = max n (length l).
Proof. intros. unfold pad_to. rewrite app_length, repeat_length. lia. Qed.

Lemma pad_to_id : forall n l, n <= length l -> pad_to n l = l.
Proof.
  intros. unfold pad_to. replace (n - length l) with 0 by lia.
  simpl. apply app_nil_r.
Qed.

Lemma pad_to_idem : forall n l, pad_to n (pad_to n l) = pad_to n l.
Proof. intros. apply pad_to_id. rewrite pad_to_length. lia. Qed.

(* ---- fill ---- *)

Definition col_or (d : Data) (k : string) : list cell :=
  match dget k (cols d) with Some c => c | None => [] end.

Definition add_key (k : string) (ks : list string) : list string :=
  if smem k ks then ks else ks ++ [k].

Lemma fold_add_key_app : forall ks base, NoDup base ->
  NoDup (fold_left (fun b k => add_key k b) ks base) /\
  (forall k, In k (fold_left (fun b k => add_key k b) ks base) <-> In k base \/ In k ks).
Proof.
  induction ks as [|k ks IH]; simpl; intros base ND.
  - split; auto. intros; tauto.
  - assert (NoDup (add_key k base)) as ND'.
    { unfold add_key. destruct (smem k base) eqn:E; auto.
      apply NoDup_app_single; auto. apply smem_false; auto. }
    destruct (IH _ ND') as [H1 H2]. split; auto.
    intros k'. rewrite H2. unfold add_key. destruct (smem k base) eqn:E.
    + apply smem_In in E. split; intros; intuition; subst; auto.
    + rewrite in_app_iff. simpl. intuition.
Qed.

Lemma dset_keys_add : forall V k (v : V) d, dkeys (dset k v d) = add_key k (dkeys d).
Proof.
  intros. unfold add_key. destruct (smem k (dkeys d)) eqn:E.
  - apply smem_In in E. apply dset_keys_in; auto.
  - apply smem_false in E. rewrite dset_keys_notin by auto.
    rewrite dkeys_app. reflexivity.
Qed.

Lemma typed_types_exist : forall d k, typed d -> In k (dkeys (cols d)) ->
  exists t, dget k (types d) = Some t.
Proof.
  intros d k [_ [_ H]] Hk. apply dget_In_key in Hk. destruct Hk as [c Hc].
  destruct (H _ _ Hc) as [t [Ht _]]. eauto.
Qed.

Lemma typed_fits : forall d k t, typed d -> dget k (types d) = Some t ->
  type_fits t (col_or d k).
Proof.
  intros d k t [_ [_ H]] Ht. unfold col_or. destruct (dget k (cols d)) eqn:E.
  - destruct (H _ _ E) as [t' [Ht' F]]. assert (t = t') as -> by congruence. auto.
  - intros v [].
Qed.

Lemma typed_homogeneous : forall d k, typed d -> homogeneous (col_or d k).
Proof.
  intros d k T. unfold col_or. destruct (dget k (cols d)) eqn:E.
  - destruct T as [_ [_ H]]. destruct (H _ _ E) as [t [_ F]].
    eapply type_fits_homogeneous; eauto.
  - exists TFloat. intros v [].
Qed.

Lemma typed_set : forall d k col t m,
  typed d -> type_fits t col ->
  typed (mkData (dset k col (cols d)) (dset k t (types d)) m).
Proof.
  intros d k col t m [H1 [H2 H3]] F. split; [|split]; simpl.
  - apply dset_NoDup; auto.
  - apply dset_NoDup; auto.
  - intros k' col' Hc. destruct (string_dec k k').
    + subst. rewrite dget_dset_same in *. inversion Hc; subst. eauto.
    + rewrite dget_dset_other in * by auto. auto.
Qed.

Lemma typed_set_col : forall d k col t m,
  typed d -> dget k (types d) = Some t -> type_fits t col ->
  typed (mkData (dset k col (cols d)) (types d) m).
Proof.
  intros d k col t m [H1 [H2 H3]] Ht F. split; [|split]; simpl; auto.
  - apply dset_NoDup; auto.
  - intros k' col' Hc. destruct (string_dec k k').
    + subst. rewrite dget_dset_same in *. inversion Hc; subst. eauto.
    + rewrite dget_dset_other in * by auto. auto.
Qed.

Lemma dset_dset : forall V k (v w : V) d, dset k w (dset k v d) = dset k w d.
Proof.
  induction d as [|[k' v'] d IH]; simpl.
  - rewrite String.eqb_refl; auto.
  - destruct (String.eqb_spec k' k); simpl.
    + subst. rewrite String.eqb_refl; auto.
    + destruct (String.eqb_spec k' k); [contradiction|]. f_equal; auto.
Qed.

Lemma fill1_eq : forall d L k, typed d ->
  exists t, get_type (pad_to (Z.to_nat L) (col_or d k)) = Ok t /\
  fill1 d L k =
    (mkData (dset k (pad_to (Z.to_nat L) (col_or d k)) (cols d))
            (dset k t (types d)) (max_len d), Ok tt).
Proof.
  intros d L k T.
  assert (homogeneous (pad_to (Z.to_nat L) (col_or d k))) as Hh.
  { eapply homogeneous_sub; [|apply (typed_homogeneous d k T)].
    intros v. apply in_pad. }
  destruct (get_type_homogeneous _ Hh) as [t Ht]. exists t. split; auto.
  unfold fill1, dmem, col_or in *.
  destruct (dget k (cols d)) as [col|] eqn:E.
  - rewrite E. replace (Z.to_nat (Z.max 0 (L - Z.of_nat (length col))))
      with (Z.to_nat L - length col) by lia.
    fold (pad_to (Z.to_nat L) col). rewrite Ht. reflexivity.
  - rewrite dget_dset_same. cbn [length app].
    replace (Z.to_nat (Z.max 0 (L - Z.of_nat 0))) with (Z.to_nat L - 0) by lia.
    change (repeat None (Z.to_nat L - 0)) with (pad_to (Z.to_nat L) []).
    rewrite Ht, dset_dset. reflexivity.
Qed.

Lemma col_or_set : forall d k c ty m,
  col_or (mkData (dset k c (cols d)) ty m) k = c.
Proof. intros. unfold col_or. simpl. rewrite dget_dset_same. reflexivity. Qed.

Lemma col_or_set_other : forall d k k' c ty m, k <> k' ->
  col_or (mkData (dset k c (cols d)) ty m) k' = col_or d k'.
Proof. intros. unfold col_or. simpl. rewrite dget_dset_other by auto. reflexivity. Qed.

Lemma fill_keys_spec : forall ks d L, typed d ->
  exists d', fill_keys d L ks = (d', Ok tt) /\ typed d' /\
    max_len d' = max_len d /\
    data_keys d' = fold_left (fun b k => add_key k b) ks (data_keys d) /\
    (forall k, col_or d' k =
       if smem k ks then pad_to (Z.to_nat L) (col_or d k) else col_or d k) /\
    (forall k, In k ks -> exists t, dget k (types d') = Some t /\
       get_type (col_or d' k) = Ok t) /\
    (forall k, ~ In k ks -> dget k (types d') = dget k (types d)).
Proof.
  induction ks as [|k0 ks IH]; intros d L T.
  - exists d. simpl. repeat split; auto; try apply T. intros k [].
  - destruct (fill1_eq d L k0 T) as [t [Ht E]].
    set (d1 := mkData (dset k0 (pad_to (Z.to_nat L) (col_or d k0)) (cols d))
                      (dset k0 t (types d)) (max_len d)) in *.
    assert (typed d1) as T1.
    { apply typed_set; auto. apply get_type_fits in Ht. auto. }
    destruct (IH d1 L T1) as [d' [E' [T' [M' [K' [C' [Y' Z']]]]]]].
    exists d'. cbn [fill_keys]. rewrite E. cbn [ubind]. rewrite E'.
    split; [reflexivity|]. split; [auto|]. split; [auto|]. split.
    { rewrite K'. cbn [fold_left]. f_equal. unfold data_keys, d1. simpl.
      apply dset_keys_add. }
    split; [|split].
    + intros k. rewrite C'. cbn [smem existsb]. fold (smem k ks).
      destruct (String.eqb_spec k k0).
      * subst k0. unfold d1. rewrite col_or_set. simpl.
        destruct (smem k ks); auto. apply pad_to_idem.
      * unfold d1. rewrite col_or_set_other by auto. simpl. reflexivity.
    + intros k [<-|Hk].
      * destruct (smem k0 ks) eqn:Ek.
        -- apply Y'. apply smem_In; auto.
        -- exists t. rewrite Z' by (apply smem_false; auto). unfold d1 at 1. simpl.
           rewrite dget_dset_same. split; auto.
           rewrite C', Ek. unfold d1. rewrite col_or_set. auto.
      * apply Y'; auto.
    + intros k Hk. simpl in Hk. rewrite Z' by tauto. unfold d1. simpl.
      apply dget_dset_other. tauto.
Qed.

(* ---- extend ---- *)

Lemma extend_outcome : forall d k data, typed d ->
  (homogeneous (col_or d k ++ data) -> 
     (forall t, dget k (types d) = Some (Some t) -> dget k (cols d) <> None ->
        forall v, In (Some v) data -> vtype v = t) ->
     exists ty, extend d k data =
       (mkData (dset k (col_or d k ++ data) (cols d)) ty
               (grow (max_len d) (col_or d k ++ data)), Ok tt) /\
       typed (mkData (dset k (col_or d k ++ data) (cols d)) ty
               (grow (max_len d) (col_or d k ++ data))) /\
       (forall k', k' <> k -> dget k' ty = dget k' (types d))).
Proof.
  intros d k data T Hh Ht.
  assert (homogeneous data) as Hd.
  { eapply homogeneous_sub; [|exact Hh]. intros; apply in_or_app; auto. }
  destruct (get_type_homogeneous _ Hd) as [dt Edt].
  unfold extend. rewrite Edt.
  destruct (dget k (cols d)) as [col|] eqn:Ec.
  - destruct T as [T1 [T2 T3]]. destruct (T3 _ _ Ec) as [t0 [Et0 F0]].
    rewrite Et0. unfold col_or in *. rewrite Ec in *.
    assert (F: type_fits (match t0 with Some t => Some t | None => dt end) (col ++ data)).
    { intros v Hv. apply in_app_or in Hv. destruct t0 as [t0|].
      - destruct Hv as [Hv|Hv].
        + apply F0 in Hv; auto.
        + f_equal. symmetry. apply (Ht t0); auto. discriminate.
      - destruct Hv as [Hv|Hv].
        + apply F0 in Hv; discriminate.
        + apply (get_type_fits _ _ Edt); auto. }
    destruct t0 as [t0|].
    + assert (match dt with
              | Some a => negb (ptype_eqb a t0) | None => false end = false) as ->.
      { destruct dt as [a|]; auto. apply get_type_some_iff in Edt.
        destruct Edt as [v [Hv <-]]. rewrite (Ht t0 Et0); auto; [|discriminate].
        rewrite ptype_eqb_refl. reflexivity. }
      exists (types d). split; [reflexivity|]. split; auto.
      eapply typed_set_col; eauto. split; auto.
    + assert (match dt with
              | Some a => match dt with Some b => negb (ptype_eqb a b) | None => true end
              | None => false end = false) as ->.
      { destruct dt as [a|]; auto. rewrite ptype_eqb_refl. auto. }
      exists (dset k dt (types d)). split; [reflexivity|]. split.
      * apply typed_set; auto. split; auto.
      * intros k' Hk'. apply dget_dset_other; auto.
  - unfold col_or in *. rewrite Ec in *. simpl in *.
    exists (dset k dt (types d)). split; [reflexivity|]. split.
    + apply typed_set; auto. apply get_type_fits; auto.
    + intros k' Hk'. apply dget_dset_other; auto.
Qed.

Lemma extend_unhomogeneous : forall d k data, typed d ->
  (exists t, dget k (types d) = Some t /\ get_type (col_or d k) = Ok t) ->
  ~ homogeneous (col_or d k ++ data) ->
  exists d', extend d k data = (d', Raise ValueError).
Proof.
  intros d k data T [t [Et Eg]] Hn. unfold extend.
  destruct (get_type data) as [dt|e] eqn:Ed.
  - unfold col_or in *. destruct (dget k (cols d)) as [col|] eqn:Ec.
    + rewrite Et. destruct dt as [a|].
      * destruct t as [b|].
        -- destruct (ptype_eqb a b) eqn:Eab; simpl; [|eauto].
           exfalso. apply Hn. apply ptype_eqb_eq in Eab. subst b.
           apply get_type_fits in Ed. apply get_type_fits in Eg.
           exists a. intros v Hv. apply in_app_or in Hv.
           destruct Hv as [Hv|Hv]; [apply Eg in Hv|apply Ed in Hv]; congruence.
        -- exfalso. apply Hn. apply get_type_fits in Ed. apply get_type_fits in Eg.
           exists a. intros v Hv. apply in_app_or in Hv.
           destruct Hv as [Hv|Hv]; [apply Eg in Hv|apply Ed in Hv]; congruence.
      * exfalso. apply Hn. apply get_type_fits in Ed. apply get_type_fits in Eg.
        apply (type_fits_homogeneous t). intros v Hv. apply in_app_or in Hv.
        destruct Hv as [Hv|Hv]; [apply Eg in Hv; auto|apply Ed in Hv; discriminate].
    + exfalso. apply Hn. simpl. eapply get_type_ok_homogeneous; eauto.
  - exists d. f_equal. f_equal. eapply get_type_from_raise; eauto.
Qed.

Definition exact_type (d : Data) (k : string) : Prop :=
  exists t, dget k (types d) = Some t /\ get_type (col_or d k) = Ok t.

Lemma exact_extend_ok : forall d k data, typed d -> exact_type d k ->
  homogeneous (col_or d k ++ data) ->
  (forall t, dget k (types d) = Some (Some t) -> dget k (cols d) <> None ->
     forall v, In (Some v) data -> vtype v = t).
Proof.
  intros d k data T [t0 [Et Eg]] [t Ht] t1 E1 _ v Hv.
  assert (t0 = Some t1) by congruence. subst t0.
  apply get_type_some_iff in Eg. destruct Eg as [w [Hw <-]].
  rewrite (Ht v), (Ht w); auto; apply in_or_app; auto.
Qed.

Lemma extend_all_step : forall d k u r,
  extend_all d ((k, u) :: r) = ubind (extend d k (cells_of u)) (fun d' _ => extend_all d' r).
Proof. intros d k [l|c] r; reflexivity. Qed.

Lemma extend_all_ok : forall items d, typed d -> NoDup (dkeys items) ->
  (forall k u, In (k, u) items -> exact_type d k) ->
  (forall k u, In (k, u) items -> homogeneous (col_or d k ++ cells_of u)) ->
  (forall k, In k (dkeys items) -> In k (data_keys d)) ->
  exists d', extend_all d items = (d', Ok tt) /\ typed d' /\
    data_keys d' = data_keys d /\
    (forall k, col_or d' k = col_or d k ++ given items k) /\
    max_len d' = fold_left Z.max
       (map (fun kv => Z.of_nat (length (col_or d (fst kv) ++ cells_of (snd kv)))) items)
       (max_len d).
Proof.
  induction items as [|[k u] items IH]; intros d T ND HE HH HK.
  - exists d. simpl. repeat split; auto; try apply T.
    intros k. unfold given. simpl. rewrite app_nil_r. reflexivity.
  - rewrite extend_all_step. inversion ND; subst.
    destruct (extend_outcome d k (cells_of u) T) as [ty [E [T1 O1]]].
    + apply HH. left; auto.
    + apply exact_extend_ok; auto; [eapply HE; left; eauto | apply HH; left; auto].
    + rewrite E. cbn [ubind].
      set (d1 := mkData _ ty _) in *.
      assert (data_keys d1 = data_keys d) as K1.
      { unfold data_keys, d1; simpl. apply dset_keys_in. apply HK. simpl; auto. }
      assert (forall k', k' <> k -> col_or d1 k' = col_or d k') as C1.
      { intros. unfold d1. apply col_or_set_other; auto. }
      assert (forall k' u', In (k', u') items -> k' <> k) as Nk.
      { intros k' u' Hin ->. apply H1. apply in_map_iff. exists (k, u'); auto. }
      destruct (IH d1 T1 H2) as [d' [E' [T' [K' [C' M']]]]].
      * intros k' u' Hin. destruct (HE k' u') as [t [Et Eg]]; [right; auto|].
        exists t. rewrite C1 by eauto. split; auto. unfold d1; simpl.
        rewrite O1 by eauto. auto.
      * intros k' u' Hin. rewrite C1 by eauto. apply HH; right; auto.
      * intros k' Hin. rewrite K1. apply HK. simpl; auto.
      * exists d'. split; [auto|]. split; [auto|]. split; [congruence|]. split.
        -- intros k'. rewrite C'. unfold given. simpl.
           destruct (String.eqb_spec k k').
           ++ subst k'. assert (dget k items = None) as -> by (apply dget_None; auto).
              rewrite app_nil_r. unfold d1. apply col_or_set.
           ++ rewrite C1 by auto. reflexivity.
        -- rewrite M'. cbn [map fold_left fst snd]. f_equal.
           ++ apply map_ext_in. intros [k' u'] Hin. simpl. rewrite C1; eauto.
Qed.

Lemma extend_all_fail : forall items d, typed d -> NoDup (dkeys items) ->
  (forall k u, In (k, u) items -> exact_type d k) ->
  (forall k, In k (dkeys items) -> In k (data_keys d)) ->
  (exists k u, In (k, u) items /\ ~ homogeneous (col_or d k ++ cells_of u)) ->
  exists d', extend_all d items = (d', Raise ValueError).
Proof.
  induction items as [|[k u] items IH]; intros d T ND HE HK [k0 [u0 [Hin Hn]]].
  - destruct Hin.
  - rewrite extend_all_step. inversion ND; subst.
    destruct (get_type (col_or d k ++ cells_of u)) as [t|e] eqn:Eg.
    + destruct (extend_outcome d k (cells_of u) T) as [ty [E [T1 O1]]].
      * eapply get_type_ok_homogeneous; eauto.
      * apply exact_extend_ok; auto; [eapply HE; left; eauto |].
        eapply get_type_ok_homogeneous; eauto.
      * rewrite E. cbn [ubind]. set (d1 := mkData _ ty _) in *.
        assert (forall k' u', In (k', u') items -> k' <> k) as Nk.
        { intros k' u' Hi ->. apply H1. apply in_map_iff. exists (k, u'); auto. }
        assert (forall k', k' <> k -> col_or d1 k' = col_or d k') as C1.
        { intros. unfold d1. apply col_or_set_other; auto. }
        apply IH; auto.
        -- intros k' u' Hi. destruct (HE k' u') as [t' [Et' Eg']]; [right; auto|].
           exists t'. rewrite C1 by eauto. split; auto. unfold d1; simpl.
           rewrite O1 by eauto. auto.
        -- intros k' Hi. unfold data_keys, d1; simpl.
           rewrite dset_keys_in; apply HK; simpl; auto.
        -- destruct Hin as [Hin|Hin].
           ++ inversion Hin; subst. exfalso. apply Hn.
              eapply get_type_ok_homogeneous; eauto.
           ++ exists k0, u0. split; auto. rewrite C1 by eauto. auto.
    + destruct (extend_unhomogeneous d k (cells_of u) T) as [d' E'].
      * eapply HE. left; eauto.
      * intros Hh. apply get_type_homogeneous in Hh. destruct Hh; congruence.
      * exists d'. rewrite E'. reflexivity.
Qed.

(* ---- update ---- *)

Lemma fold_left_Zmax_const : forall l a n, 
  fold_left Z.max (map (fun x : nat => Z.of_nat (n + x)) l) (Z.max a (Z.of_nat n)) =
  Z.max a (Z.of_nat (n + fold_right max 0 l)).
Proof.
  assert (forall l a, fold_left Z.max l a = fold_right Z.max a l) as F.
  { intros l a. apply fold_symmetric; [intros; lia|intros; lia]. }
  intros l a n. rewrite F. induction l as [|x l IH]; simpl.
  - rewrite Nat.add_0_r. reflexivity.
  - rewrite IH. lia.
Qed.

Lemma fold_add_key_notin : forall ks base,
  fold_left (fun b k => add_key k b) ks base =
  base ++ fold_left (fun b k => if smem k base then b else add_key k b) ks [].
Proof.
  assert (G: forall ks base acc,
    fold_left (fun b k => add_key k b) ks (base ++ acc) =
    base ++ fold_left (fun b k => if smem k base then b else add_key k b) ks acc).
  { induction ks as [|k ks IH]; intros base acc; simpl; auto.
    assert (add_key k (base ++ acc) =
            base ++ (if smem k base then acc else add_key k acc)) as ->; auto.
    unfold add_key. unfold smem. rewrite existsb_app.
    destruct (existsb (String.eqb k) base); simpl; auto.
    destruct (existsb (String.eqb k) acc); auto.
    rewrite app_assoc. reflexivity. }
  intros. rewrite <- (app_nil_r base) at 1. apply G.
Qed.

Lemma fold_new_filter : forall ks base acc, NoDup ks ->
  (forall k, In k acc -> ~ In k ks) ->
  fold_left (fun b k => if smem k base then b else add_key k b) ks acc =
  acc ++ filter (fun k => negb (smem k base)) ks.
Proof.
  induction ks as [|k ks IH]; simpl; intros base acc ND Hd.
  - rewrite app_nil_r. reflexivity.
  - inversion ND; subst. destruct (smem k base) eqn:E; simpl.
    + apply IH; auto. intros k' Hk'. specialize (Hd k' Hk'). auto.
    + unfold add_key. assert (smem k acc = false) as ->.
      { apply smem_false. intros Hk. apply (Hd k Hk). auto. }
      rewrite IH; auto.
      * rewrite <- app_assoc. reflexivity.
      * intros k' Hk' Hin. apply in_app_or in Hk'. destruct Hk' as [Hk'|[<-|[]]].
        -- apply (Hd k' Hk'). auto.
        -- contradiction.
Qed.

Lemma fold_add_existing : forall ks base,
  (forall k, In k ks -> In k base) -> fold_left (fun b k => add_key k b) ks base = base.
Proof.
  induction ks as [|k ks IH]; simpl; intros base H; auto.
  unfold add_key at 2. assert (smem k base = true) as -> by (apply smem_In; auto).
  apply IH; auto.
Qed.

Lemma wf_col_length : forall d n k, well_formed d n ->
  In k (data_keys d) -> length (col_or d k) = n.
Proof.
  intros d n k [_ [_ R]] Hk. unfold data_keys in Hk. apply dget_In_key in Hk.
  destruct Hk as [c Hc]. unfold col_or. rewrite Hc. eauto.
Qed.

(** State reached by the first [fill] of [update]. *)
Lemma update_first_fill : forall d n (items : dict uval), well_formed d n -> NoDup (dkeys items) ->
  exists d1, fill_keys d (max_len d) (dkeys items ++ data_keys d) = (d1, Ok tt) /\
    typed d1 /\ max_len d1 = Z.of_nat n /\
    data_keys d1 = data_keys d ++ filter (fun k => negb (smem k (data_keys d))) (dkeys items) /\
    (forall k, In k (data_keys d1) -> col_or d1 k = column_or_none d n k) /\
    (forall k, In k (data_keys d1) -> exact_type d1 k).
Proof.
  intros d n items W ND. pose proof W as [T [HM HR]]. unfold n_rows in HM.
  destruct (fill_keys_spec (dkeys items ++ data_keys d) d (max_len d) T)
    as [d1 [E [T1 [M1 [K1 [C1 [Y1 _]]]]]]].
  exists d1. split; auto. split; auto. split; [congruence|].
  assert (data_keys d1 = data_keys d ++
            filter (fun k => negb (smem k (data_keys d))) (dkeys items)) as K.
  { rewrite K1, fold_left_app.
    rewrite (fold_add_key_notin (dkeys items)).
    rewrite fold_new_filter by (auto; intros k []). simpl.
    apply fold_add_existing. intros k Hk. apply in_or_app; auto. }
  assert (forall k, In k (data_keys d1) -> In k (dkeys items ++ data_keys d)) as I1.
  { intros k Hk. rewrite K in Hk. apply in_app_or in Hk. apply in_or_app.
    destruct Hk as [Hk|Hk]; auto. apply filter_In in Hk. tauto. }
  split; auto. split.
  - intros k Hk. rewrite C1.
    assert (smem k (dkeys items ++ data_keys d) = true) as ->.
    { apply smem_In. auto. }
    rewrite HM, Nat2Z.id. unfold column_or_none, col_or.
    destruct (dget k (cols d)) as [c|] eqn:Ec.
    + apply pad_to_id. rewrite (HR _ _ Ec). lia.
    + unfold pad_to. simpl. rewrite Nat.sub_0_r. reflexivity.
  - intros k Hk. apply Y1. auto.
Qed.

Lemma dget_given : forall (items : dict uval) k u,
  NoDup (dkeys items) -> In (k, u) items -> given items k = cells_of u.
Proof.
  intros. unfold given. rewrite (NoDup_dget _ k items u); auto.
Qed.

Lemma unsafe_update_ok : forall d1 n items, typed d1 -> max_len d1 = Z.of_nat n ->
  NoDup (dkeys items) ->
  (forall k, In k (data_keys d1) -> exact_type d1 k) ->
  (forall k, In k (dkeys items) -> In k (data_keys d1)) ->
  (forall k u, In (k, u) items -> homogeneous (col_or d1 k ++ cells_of u)) ->
  exists d', unsafe_update d1 items = (d', Ok tt) /\ typed d' /\
    data_keys d' = data_keys d1 /\
    max_len d' = fold_left Z.max
       (map (fun kv => Z.of_nat (length (col_or d1 (fst kv) ++ cells_of (snd kv)))) items)
       (Z.of_nat n) /\
    (forall k, In k (data_keys d') -> col_or d' k =
       pad_to (Z.to_nat (max_len d')) (col_or d1 k ++ given items k)).
Proof.
  intros d1 n items T1 M1 ND X1 I1 HH.
  destruct (extend_all_ok items d1 T1 ND) as [d2 [E2 [T2 [K2 [C2 M2]]]]]; auto.
  { intros k u Hin. apply X1. apply I1. apply in_map_iff. exists (k, u); auto. }
  destruct (fill_keys_spec (data_keys d2) d2 (max_len d2) T2)
    as [d3 [E3 [T3 [M3 [K3 [C3 [Y3 _]]]]]]].
  exists d3. unfold unsafe_update. rewrite E2. cbn [ubind]. unfold fill. rewrite E3.
  assert (data_keys d3 = data_keys d1) as K.
  { rewrite K3. rewrite fold_add_existing by auto. congruence. }
  split; auto. split; auto. split; auto. split.
  - rewrite M3, M2, M1. reflexivity.
  - intros k Hk. rewrite C3, M3.
    assert (smem k (data_keys d2) = true) as ->.
    { apply smem_In. congruence. }
    rewrite C2. reflexivity.
Qed.

Lemma cells_length_max : forall (items : dict uval) k u, In (k, u) items ->
  length (cells_of u) <= added_rows items.
Proof.
  unfold added_rows. induction items as [|[k' u'] items IH]; simpl; intros k u H.
  - contradiction.
  - destruct H as [H|H]; [inversion H; subst; lia|]. apply IH in H. lia.
Qed.

Lemma given_length : forall items k, NoDup (dkeys items) ->
  length (given items k) <= added_rows items.
Proof.
  intros. unfold given. destruct (dget k items) eqn:E; simpl; [|lia].
  apply dget_Some_In in E. eapply cells_length_max; eauto.
Qed.

Lemma column_or_none_length : forall d n k, well_formed d n ->
  length (column_or_none d n k) = n.
Proof.
  intros d n k [_ [_ R]]. unfold column_or_none. destruct (dget k (cols d)) eqn:E.
  - eauto.
  - apply repeat_length.
Qed.

Lemma get_col_col_or : forall d k, In k (data_keys d) -> get_col d k = Ok (col_or d k).
Proof.
  intros d k H. unfold data_keys in H. apply dget_In_key in H. destruct H as [c Hc].
  unfold get_col, col_or. rewrite Hc. reflexivity.
Qed.

Lemma typed_col_or_wf : forall d n, typed d -> max_len d = Z.of_nat n ->
  (forall k, In k (data_keys d) -> length (col_or d k) = n) -> well_formed d n.
Proof.
  intros d n T M H. split; auto. split; auto. intros k c Hc.
  assert (In k (data_keys d)) as Hk by (apply dget_In_key; eauto).
  specialize (H k Hk). unfold col_or in H. rewrite Hc in H. auto.
Qed.

Lemma update_ok : forall d n items, well_formed d n -> NoDup (dkeys items) ->
  (forall k u, In (k, u) items -> homogeneous (column_or_none d n k ++ cells_of u)) ->
  exists d', update d items false = (d', Ok tt) /\ updated d n items d'.
Proof.
  intros d n items W ND HH.
  destruct (update_first_fill d n items W ND) as [d1 [E1 [T1 [M1 [K1 [C1 X1]]]]]].
  assert (forall k, In k (dkeys items) -> In k (data_keys d1)) as I1.
  { intros k Hk. rewrite K1. apply in_or_app. destruct (smem k (data_keys d)) eqn:E.
    - left. apply smem_In; auto.
    - right. apply filter_In. rewrite E. auto. }
  destruct (unsafe_update_ok d1 n items T1 M1 ND X1 I1) as [d' [E' [T' [K' [M' C']]]]].
  { intros k u Hin. rewrite C1.
    - apply HH; auto.
    - apply I1. apply in_map_iff. exists (k, u); auto. }
  exists d'. unfold update. rewrite E1. cbn [ubind negb orb]. split; auto.
  assert (max_len d' = Z.of_nat (n + added_rows items)) as M.
  { rewrite M'. unfold added_rows.
    replace (map (fun kv => Z.of_nat (length (col_or d1 (fst kv) ++ cells_of (snd kv)))) items)
      with (map (fun x : nat => Z.of_nat (n + x))
                (map (fun kv : string * uval => length (cells_of (snd kv))) items)).
    - pose proof (fold_left_Zmax_const
        (map (fun kv : string * uval => length (cells_of (snd kv))) items) (Z.of_nat n) n) as F.
      rewrite Z.max_id in F. rewrite F. lia.
    - rewrite map_map. apply map_ext_in. intros [k u] Hin. simpl.
      rewrite app_length. rewrite C1.
      + rewrite column_or_none_length; auto.
      + apply I1. apply in_map_iff. exists (k, u); auto. }
  assert (forall k, In k (data_keys d') ->
     col_or d' k = column_or_none d n k ++ pad_to (added_rows items) (given items k)) as C.
  { intros k Hk. rewrite C' by auto. rewrite M, Nat2Z.id.
    rewrite C1 by congruence. unfold pad_to. rewrite app_length.
    rewrite column_or_none_length by auto. rewrite <- app_assoc. f_equal. f_equal.
    f_equal. lia. }
  split; [|split].
  - apply typed_col_or_wf; auto. intros k Hk. rewrite C by auto.
    rewrite app_length, column_or_none_length, pad_to_length by auto.
    pose proof (given_length items k ND). lia.
  - congruence.
  - intros k Hk. rewrite get_col_col_or by auto. rewrite C; auto.
Qed.

Lemma update_fail : forall d n items, well_formed d n -> NoDup (dkeys items) ->
  (exists k u, In (k, u) items /\ ~ homogeneous (column_or_none d n k ++ cells_of u)) ->
  exists d', update d items false = (d', Raise ValueError).
Proof.
  intros d n items W ND [k [u [Hin Hn]]].
  destruct (update_first_fill d n items W ND) as [d1 [E1 [T1 [M1 [K1 [C1 X1]]]]]].
  assert (forall k, In k (dkeys items) -> In k (data_keys d1)) as I1.
  { intros k' Hk. rewrite K1. apply in_or_app. destruct (smem k' (data_keys d)) eqn:E.
    - left. apply smem_In; auto.
    - right. apply filter_In. rewrite E. auto. }
  assert (forall k' u', In (k', u') items -> In k' (data_keys d1)) as I2.
  { intros. apply I1. apply in_map_iff. exists (k', u'); auto. }
  destruct (extend_all_fail items d1 T1 ND) as [d' E']; auto.
  - intros k' u' Hi. apply X1. eauto.
  - exists k, u. split; auto. rewrite C1 by eauto. auto.
  - exists d'. unfold update. rewrite E1. cbn [ubind negb orb].
    unfold unsafe_update. rewrite E'. reflexivity.
Qed.

Lemma empty_wf : well_formed empty_data 0.
Proof.
  split; [split; [|split]|split]; simpl; try constructor; intros k c H; discriminate.
Qed.
