(** * More proofs about [Data]: compressing update, deletion, strip, rename,
      selection *)

From Coq Require Import String.
From Coq Require Import List Bool Arith ZArith QArith Lia Permutation.
From Verif Require Import Py Dict DataModel DataSpec DataProofs DataProofs2.
Import ListNotations.
Open Scope list_scope.
Open Scope nat_scope.

(* ---- update with compress ---- *)

Lemma get_type_from_app_none : forall l c, get_type_from c (l ++ [None]) = get_type_from c l.
Proof.
  induction l as [|[v|] l IH]; intros c; simpl; auto.
  destruct c as [t|]; auto. destruct (ptype_eqb (vtype v) t); auto.
Qed.

Lemma removelast_last_none : forall (c : list cell), py_last c = Ok None -> c = removelast c ++ [None].
Proof.
  intros c H. destruct (exists_last (l := c)) as [l [a ->]].
  - intros ->. discriminate.
  - rewrite py_last_app in H. inversion H; subst. rewrite removelast_last. reflexivity.
Qed.

Lemma drop_lasts_spec : forall ks d, NoDup ks -> (forall k, In k ks -> In k (data_keys d)) ->
  data_keys (drop_lasts d ks) = data_keys d /\ types (drop_lasts d ks) = types d /\
  max_len (drop_lasts d ks) = max_len d /\
  (forall k, col_or (drop_lasts d ks) k =
     if smem k ks then removelast (col_or d k) else col_or d k).
Proof.
  induction ks as [|k ks IH]; intros d ND H; simpl; auto.
  inversion ND; subst.
  match goal with |- context [drop_lasts ?d1 ks] => destruct (IH d1) as [K [Ty [M C]]] end; auto.
  - intros k' Hk'. unfold data_keys; simpl. apply dset_In_keys. right. apply H. simpl; auto.
  - rewrite K, Ty, M. unfold data_keys. simpl. repeat split; auto.
    + apply dset_keys_in. apply H. simpl; auto.
    + intros k'. rewrite C. unfold smem at 2. simpl. destruct (String.eqb_spec k' k).
      * subst. simpl. assert (smem k ks = false) as -> by (apply smem_false; auto).
        rewrite col_or_set. reflexivity.
      * simpl. fold (smem k' ks). rewrite col_or_set_other by auto. reflexivity.
Qed.

Lemma all_last_none_true : forall ks d,
  (forall k, In k ks -> py_last (col_or d k) = Ok None /\ In k (data_keys d)) ->
  all_last_none d ks = Ok true.
Proof.
  induction ks as [|k ks IH]; intros d H; simpl; auto.
  destruct (H k) as [H1 H2]; [simpl; auto|]. unfold data_keys in H2. apply dget_In_key in H2.
  destruct H2 as [c Hc]. unfold col_or in H1. rewrite Hc in *. rewrite H1. simpl.
  apply IH. intros. apply H. simpl; auto.
Qed.

Lemma all_last_none_false : forall ks d n,
  (forall k, In k ks -> In k (data_keys d) /\ length (col_or d k) = S n) ->
  (exists k v, In k ks /\ py_last (col_or d k) = Ok (Some v)) ->
  all_last_none d ks = Ok false.
Proof.
  induction ks as [|k ks IH]; intros d n H [k0 [v [Hin Hl]]]; simpl; [contradiction|].
  destruct (H k) as [H1 H2]; [simpl; auto|]. unfold data_keys in H1. apply dget_In_key in H1.
  destruct H1 as [c Hc]. unfold col_or in H2. rewrite Hc in *.
  destruct (py_last c) as [x|e] eqn:E.
  - simpl. destruct x as [x|]; simpl; auto. apply (IH d n).
    + intros; apply H; simpl; auto.
    + exists k0, v. split; auto. destruct Hin as [->|]; auto.
      unfold col_or in Hl. rewrite Hc in Hl. congruence.
  - unfold py_last in E. destruct (rev c) eqn:Er; [|discriminate].
    assert (length (rev c) = 0) by (rewrite Er; auto). rewrite rev_length in H0. lia.
Qed.

Lemma items_in_keys : forall d items (d1 : Data),
  data_keys d1 = data_keys d ++ filter (fun k => negb (smem k (data_keys d))) (dkeys (V:=uval) items) ->
  forall k, In k (dkeys items) -> In k (data_keys d1).
Proof.
  intros d items d1 K1 k Hk. rewrite K1. apply in_or_app. destruct (smem k (data_keys d)) eqn:E.
  - left. apply smem_In; auto.
  - right. apply filter_In. rewrite E. auto.
Qed.

Lemma update_compress_merge : forall d n items, well_formed d n -> NoDup (dkeys items) -> n > 0 ->
  (forall k u, In (k, u) items -> homogeneous (column_or_none d n k ++ cells_of u)) ->
  (forall k, In k (dkeys items) -> py_last (column_or_none d n k) = Ok None) ->
  exists d', update d items true = (d', Ok tt) /\ merged d n items d'.
Proof.
  intros d n items W ND Hn HH HL.
  destruct (update_first_fill d n items W ND) as [d1 [E1 [T1 [M1 [K1 [C1 X1]]]]]].
  pose proof (items_in_keys d items d1 K1) as I1.
  assert (all_last_none d1 (dkeys items) = Ok true) as A.
  { apply all_last_none_true. intros k Hk. split; [rewrite C1|]; auto. }
  destruct (drop_lasts_spec (dkeys items) d1 ND I1) as [K2 [Ty2 [M2 C2]]].
  set (d2 := drop_lasts d1 (dkeys items)) in *.
  assert (typed d2) as T2 by (apply typed_drop_lasts; auto).
  assert (forall k, In k (dkeys items) -> col_or d1 k = removelast (col_or d1 k) ++ [None]) as RL.
  { intros k Hk. apply removelast_last_none. rewrite C1; auto. }
  assert (forall k, In k (data_keys d2) -> exact_type d2 k) as X2.
  { intros k Hk. rewrite K2 in Hk. destruct (X1 k Hk) as [t [Et Eg]]. exists t. rewrite Ty2.
    split; auto. rewrite C2. destruct (smem k (dkeys items)) eqn:E; auto.
    apply smem_In in E. rewrite (RL k E) in Eg. unfold get_type in *.
    rewrite get_type_from_app_none in Eg. exact Eg. }
  destruct (unsafe_update_ok d2 n items T2) as [d' [E' [T' [K' [M' C']]]]]; auto.
  { congruence. }
  { intros k Hk. rewrite K2. auto. }
  { intros k u Hin. assert (In k (dkeys items)) as Hk by (apply in_map_iff; exists (k,u); auto).
    eapply homogeneous_sub; [|apply (HH k u Hin)]. rewrite C2.
    assert (smem k (dkeys items) = true) as -> by (apply smem_In; auto).
    rewrite <- (C1 k) by auto. intros v Hv. apply in_app_or in Hv. apply in_or_app.
    destruct Hv as [Hv|Hv]; auto. left. apply removelast_In; auto. }
  assert (forall k, In k (dkeys items) -> col_or d2 k = firstn (n - 1) (column_or_none d n k)) as F.
  { intros k Hk. rewrite C2. assert (smem k (dkeys items) = true) as -> by (apply smem_In; auto).
    pose proof (column_or_none_length d n k W) as L. rewrite <- (C1 k) in * by auto.
    rewrite (RL k Hk) in L at 1. rewrite app_length in L. simpl in L.
    rewrite (RL k Hk) at 2. rewrite firstn_app.
    replace (n - 1 - length (removelast (col_or d1 k))) with 0 by lia.
    rewrite firstn_O, app_nil_r. rewrite firstn_all2; auto. lia. }
  assert (max_len d' = Z.of_nat (merged_rows n items)) as M.
  { rewrite M'.
    replace (map (fun kv => Z.of_nat (length (col_or d2 (fst kv) ++ cells_of (snd kv)))) items)
      with (map (fun x : nat => Z.of_nat (n - 1 + x))
                (map (fun kv : string * uval => length (cells_of (snd kv))) items)).
    - pose proof (fold_left_Zmax_const
        (map (fun kv : string * uval => length (cells_of (snd kv))) items) (Z.of_nat n) (n - 1)) as G.
      replace (Z.max (Z.of_nat n) (Z.of_nat (n - 1))) with (Z.of_nat n) in G by lia.
      rewrite G. unfold merged_rows, added_rows. lia.
    - rewrite map_map. apply map_ext_in. intros [k u] Hin. simpl.
      rewrite app_length. rewrite F.
      + rewrite firstn_length, column_or_none_length by auto. f_equal. lia.
      + apply in_map_iff. exists (k, u); auto. }
  exists d'. unfold update. rewrite E1. cbn [ubind negb orb].
  rewrite M1. replace (Z.of_nat n =? 0)%Z with false by (symmetry; apply Z.eqb_neq; lia).
  rewrite A. split; auto.
  assert (forall k, In k (data_keys d') -> col_or d' k = pad_to (merged_rows n items)
      (match dget k items with
       | Some u => firstn (n - 1) (column_or_none d n k) ++ cells_of u
       | None => column_or_none d n k
       end)) as C.
  { intros k Hk. rewrite C' by auto. rewrite M, Nat2Z.id. f_equal.
    unfold given. destruct (dget k items) as [u|] eqn:E.
    - rewrite F; auto. apply dget_In_key; eauto.
    - rewrite app_nil_r, C2.
      assert (smem k (dkeys items) = false) as -> by (apply smem_false; apply dget_None; auto).
      apply C1. congruence. }
  split; [|split].
  - apply typed_col_or_wf; auto. intros k Hk. rewrite C by auto. rewrite pad_to_length.
    unfold merged_rows. destruct (dget k items) as [u|] eqn:E.
    + rewrite app_length, firstn_length, column_or_none_length by auto.
      apply dget_Some_In in E. apply cells_length_max in E. lia.
    + rewrite column_or_none_length by auto. lia.
  - congruence.
  - intros k Hk. rewrite get_col_col_or by auto. rewrite C; auto.
Qed.

Lemma update_compress_append : forall d n items, well_formed d n -> NoDup (dkeys items) ->
  (n = 0 \/ exists k v, In k (dkeys items) /\ py_last (column_or_none d n k) = Ok (Some v)) ->
  update d items true = update d items false.
Proof.
  intros d n items W ND H.
  destruct (update_first_fill d n items W ND) as [d1 [E1 [T1 [M1 [K1 [C1 X1]]]]]].
  pose proof (items_in_keys d items d1 K1) as I1.
  unfold update. rewrite E1. cbn [ubind negb orb]. rewrite M1.
  destruct H as [H|[k [v [Hk Hl]]]].
  - subst n. reflexivity.
  - destruct n as [|n].
    { reflexivity. }
    destruct (Z.of_nat (S n) =? 0)%Z; auto.
    rewrite (all_last_none_false (dkeys items) d1 n); auto.
    + intros k' Hk'. split; auto. rewrite C1, column_or_none_length; auto.
    + exists k, v. split; auto. rewrite C1; auto.
Qed.

(* ---- delete rows ---- *)

Lemma enumerate_nth : forall A (l : list A) d,
  enumerate l = map (fun i => (i, nth i l d)) (seq 0 (length l)).
Proof.
  intros. unfold enumerate. 
  assert (forall l s, combine (seq s (length l)) l = map (fun i => (i, nth (i - s) l d)) (seq s (length l))) as G.
  { clear l. induction l as [|a l IH]; intros s; simpl; auto.
    rewrite Nat.sub_diag. f_equal. rewrite IH. apply map_ext_in. intros i Hi. apply in_seq in Hi.
    f_equal. destruct (i - s) eqn:E; [lia|]. f_equal. lia. }
  rewrite (G l 0). apply map_ext. intros. rewrite Nat.sub_0_r. reflexivity.
Qed.

Lemma drop_rows_surviving : forall idx l,
  drop_rows idx l = map (fun i => nth i l None) (surviving (length l) idx).
Proof.
  intros. unfold drop_rows, surviving. rewrite (enumerate_nth _ l None).
  induction (seq 0 (length l)) as [|i s IH]; simpl; auto.
  destruct (negb (existsb (Z.eqb (Z.of_nat i)) idx)); simpl; rewrite IH; reflexivity.
Qed.

Lemma surviving_length : forall n idx, NoDup idx ->
  (forall i, In i idx -> (0 <= i < Z.of_nat n)%Z) ->
  length (surviving n idx) = n - length idx /\ length idx <= n.
Proof.
  intros n idx ND R.
  set (p := fun i => existsb (Z.eqb (Z.of_nat i)) idx).
  assert (Permutation (filter p (seq 0 n)) (map Z.to_nat idx)) as P.
  { apply NoDup_Permutation.
    - apply NoDup_filter. apply seq_NoDup.
    - assert (forall l, NoDup l -> (forall i, In i l -> (0 <= i)%Z) -> NoDup (map Z.to_nat l)) as G.
      { induction l as [|a l IH]; simpl; intros Hn Hp; constructor.
        - inversion Hn; subst. intros Hc. apply in_map_iff in Hc. destruct Hc as [b [Hb Hi]].
          apply Z2Nat.inj in Hb; auto. subst; auto.
        - inversion Hn; subst. apply IH; auto. }
      apply G; auto. intros i Hi. apply R in Hi. lia.
    - intros x. rewrite filter_In, in_seq, in_map_iff. unfold p. rewrite existsb_exists. split.
      + intros [H1 [z [H2 H3]]]. apply Z.eqb_eq in H3. subst z. exists (Z.of_nat x). split; [lia|auto].
      + intros [z [H1 H2]]. pose proof (R z H2). split; [lia|]. exists z. split; auto.
        apply Z.eqb_eq. lia. }
  apply Permutation_length in P. rewrite map_length in P.
  assert (forall l : list nat, length (filter p l) + length (filter (fun i => negb (p i)) l) = length l) as G.
  { induction l as [|a l IH]; simpl; auto. destruct (p a); simpl; lia. }
  specialize (G (seq 0 n)). rewrite seq_length in G. unfold surviving. unfold p in *. lia.
Qed.

Lemma delete_rows_cols : forall d n idx, well_formed d n ->
  data_keys (delete_rows d idx) = data_keys d /\
  forall k col, get_col d k = Ok col ->
    get_col (delete_rows d idx) k = Ok (map (fun i => nth i col None) (surviving n idx)).
Proof.
  intros d n idx [T [M R]]. destruct idx as [|i idx].
  - simpl. split; auto. intros k col H. rewrite H. f_equal.
    assert (length col = n) as <-.
    { apply (R k). unfold get_col in H. destruct (dget k (cols d)); congruence. }
    unfold surviving. simpl.
    assert (forall s, filter (fun _ : nat => true) s = s) as G.
    { induction s; simpl; congruence. }
    rewrite G. clear. 
    assert (forall (l : list cell) s, map (fun i => nth (i - s) l None) (seq s (length l)) = l) as G.
    { induction l as [|a l IH]; intros s; simpl; auto. rewrite Nat.sub_diag. f_equal.
      rewrite <- (IH (S s)) at 2. apply map_ext_in. intros i Hi. apply in_seq in Hi.
      destruct (i - s) eqn:E; [lia|]. f_equal. lia. }
    rewrite <- (G col 0) at 1. apply map_ext. intros. rewrite Nat.sub_0_r. reflexivity.
  - simpl. unfold data_keys. simpl. rewrite dmap_keys. split; auto.
    intros k col H. unfold get_col in *. simpl. rewrite dget_dmap.
    destruct (dget k (cols d)) as [c|] eqn:E; [|discriminate]. inversion H; subst. simpl.
    rewrite drop_rows_surviving. rewrite (R _ _ E). reflexivity.
Qed.

Lemma delete_rows_wf : forall d n idx, well_formed d n -> NoDup idx ->
  (forall i, In i idx -> (0 <= i < Z.of_nat n)%Z) ->
  well_formed (delete_rows d idx) (n - length idx).
Proof.
  intros d n idx W ND R. pose proof W as [T [M RR]].
  destruct (surviving_length n idx ND R) as [SL SN].
  split; [apply typed_delete_rows; auto|]. split.
  - destruct idx as [|i idx].
    + simpl. rewrite Nat.sub_0_r. auto.
    + unfold n_rows in *. cbn [delete_rows max_len]. rewrite M. lia.
  - intros k col H. destruct (delete_rows_cols d n idx W) as [K C].
    assert (In k (data_keys d)) as Hk.
    { rewrite <- K. apply dget_In_key. eauto. }
    apply dget_In_key in Hk. destruct Hk as [c Hc]. specialize (C k c). unfold get_col in C.
    rewrite Hc, H in C. specialize (C eq_refl). inversion C. rewrite map_length. auto.
Qed.

(* ---- strip ---- *)

Lemma strip_cols_exact : forall d k col, typed d ->
  (dget k (cols (strip_cols d)) = Some col <->
   dget k (cols d) = Some col /\ exists v, In (Some v) col).
Proof.
  intros d k col T. unfold strip_cols. simpl. rewrite dget_filter_some by apply T. simpl.
  assert (negb (forallb is_none col) = true <-> exists v, In (Some v) col) as ->; [|tauto].
  rewrite negb_true_iff. split.
  - intros H. destruct (existsb (fun c => negb (is_none c)) col) eqn:E.
    + apply existsb_exists in E. destruct E as [[v|] [H1 H2]]; [eauto|discriminate].
    + exfalso. assert (forallb is_none col = true); [|congruence].
      apply forallb_forall. intros c Hc. destruct (is_none c) eqn:Ec; auto.
      assert (existsb (fun c => negb (is_none c)) col = true); [|congruence].
      apply existsb_exists. exists c. rewrite Ec. auto.
  - intros [v Hv]. destruct (forallb is_none col) eqn:E; auto.
    rewrite forallb_forall in E. apply E in Hv. discriminate.
Qed.

Lemma filter_keys_sublist : forall V (p : string * V -> bool) (d : dict V),
  NoDup (dkeys d) ->
  dkeys (filter p d) = filter (fun k => match dget k d with Some v => p (k, v) | None => false end) (dkeys d).
Proof.
  intros V p d. 
  assert (forall d0 d1 : dict V, NoDup (dkeys (d0 ++ d1)) -> dkeys (filter p d1) =
     filter (fun k => match dget k (d0 ++ d1) with Some v => p (k, v) | None => false end) (dkeys d1)) as G.
  { intros d0 d1. revert d0. induction d1 as [|[k v] d1 IH]; intros d0 ND; simpl; auto.
    assert (dget k (d0 ++ (k, v) :: d1) = Some v) as ->.
    { apply NoDup_dget; auto. apply in_or_app. simpl; auto. }
    specialize (IH (d0 ++ [(k, v)])). rewrite <- app_assoc in IH. simpl in IH.
    destruct (p (k, v)); simpl; rewrite IH; auto. }
  intros ND. apply (G [] d ND).
Qed.

Lemma py_index_nat : forall A (l : list A) i d, i < length l ->
  py_index l (Z.of_nat i) = Ok (nth i l d).
Proof.
  intros. unfold py_index. destruct (Z.of_nat i <? 0)%Z eqn:E; [apply Z.ltb_lt in E; lia|].
  rewrite E. rewrite Nat2Z.id. unfold py_nth. rewrite (nth_error_nth' l d) by auto. reflexivity.
Qed.

Lemma row_all_none_spec : forall cs i,
  (forall k c, In (k, c) cs -> i < length c) ->
  row_all_none cs (Z.of_nat i) =
    Ok (forallb (fun kv : string * list cell => is_none (nth i (snd kv) None)) cs).
Proof.
  induction cs as [|[k c] cs IH]; simpl; intros i H; auto.
  rewrite (py_index_nat _ c i None) by (eapply H; eauto). simpl.
  destruct (is_none (nth i c None)); simpl; auto. apply IH. eauto.
Qed.

Lemma row_all_none_wf : forall d n i, well_formed d n -> i < n ->
  exists b, row_all_none (cols d) (Z.of_nat i) = Ok b /\ (b = true <-> empty_row d i).
Proof.
  intros d n i [T [M R]] Hi. eexists. split.
  - apply row_all_none_spec. intros k c H. rewrite (R k c); auto. apply NoDup_dget; auto. apply T.
  - rewrite forallb_forall. unfold empty_row. split.
    + intros H k col Hc. apply dget_Some_In in Hc. specialize (H (k, col) Hc). simpl in H.
      destruct (nth i col None); [discriminate|auto].
    + intros H [k c] Hin. simpl. rewrite (H k c); auto. apply NoDup_dget; auto. apply T.
Qed.

Lemma skip_up : forall d n a, well_formed d n -> a < n -> ~ empty_row d a ->
  forall fuel s, s <= a -> (forall i, s <= i < a -> empty_row d i) -> a - s < fuel ->
  skip_none_rows fuel (cols d) (Z.of_nat s) 1 = Ok (Z.of_nat a).
Proof.
  intros d n a W Ha Hn. induction fuel as [|f IH]; intros s Hs HE Hf; [lia|].
  cbn [skip_none_rows]. destruct (row_all_none_wf d n s W) as [b [-> Hb]]; [lia|]. cbn [rbind].
  destruct (Nat.eq_dec s a) as [->|Hne].
  - destruct b; auto. exfalso. apply Hn. apply Hb. auto.
  - assert (b = true) as -> by (apply Hb; apply HE; lia).
    replace (Z.of_nat s + 1)%Z with (Z.of_nat (S s)) by lia. apply IH; [lia| |lia].
    intros. apply HE. lia.
Qed.

Lemma skip_down : forall d n b0, well_formed d n -> ~ empty_row d b0 ->
  forall fuel s, s < n -> b0 <= s -> (forall i, b0 < i <= s -> empty_row d i) -> s - b0 < fuel ->
  skip_none_rows fuel (cols d) (Z.of_nat s) (-1) = Ok (Z.of_nat b0).
Proof.
  intros d n b0 W Hn. induction fuel as [|f IH]; intros s Hs Hb0 HE Hf; [lia|].
  cbn [skip_none_rows]. destruct (row_all_none_wf d n s W) as [b [-> Hb]]; [lia|]. cbn [rbind].
  destruct (Nat.eq_dec s b0) as [->|Hne].
  - destruct b; auto. exfalso. apply Hn. apply Hb. auto.
  - assert (b = true) as -> by (apply Hb; apply HE; lia).
    replace (Z.of_nat s + -1)%Z with (Z.of_nat (s - 1)) by lia. apply IH; [lia|lia| |lia].
    intros. apply HE. lia.
Qed.

Lemma py_slice_nat : forall A (l : list A) a b, a <= b -> b < length l ->
  py_slice l (Z.of_nat a) (Z.of_nat b + 1) = firstn (S b - a) (skipn a l).
Proof.
  intros. unfold py_slice, clamp_index.
  destruct (Z.of_nat a <? 0)%Z eqn:E1; [apply Z.ltb_lt in E1; lia|].
  destruct (Z.of_nat b + 1 <? 0)%Z eqn:E2; [apply Z.ltb_lt in E2; lia|].
  replace (Z.to_nat (Z.max 0 (Z.min (Z.of_nat a) (Z.of_nat (length l))))) with a by lia.
  replace (Z.to_nat (Z.max 0 (Z.min (Z.of_nat b + 1) (Z.of_nat (length l))))) with (S b) by lia.
  reflexivity.
Qed.

Lemma strip_rows_ok : forall d n a b fuel, well_formed d n -> a <= b -> b < n ->
  ~ empty_row d a -> ~ empty_row d b ->
  (forall i, i < a -> empty_row d i) -> (forall i, b < i < n -> empty_row d i) ->
  n < fuel ->
  exists d', strip_rows fuel d = (d', Ok tt) /\ data_keys d' = data_keys d /\
    n_rows d' = n_rows d /\
    forall k col, get_col d k = Ok col ->
      get_col d' k = Ok (firstn (S b - a) (skipn a col)).
Proof.
  intros d n a b fuel W Hab Hb Ha0 Hb0 HA HB Hf.
  pose proof W as [T [M R]]. unfold n_rows in M.
  unfold strip_rows. change 0%Z with (Z.of_nat 0).
  rewrite (skip_up d n a W) by (auto; lia || (intros; apply HA; lia)).
  rewrite M. replace (Z.of_nat n - 1)%Z with (Z.of_nat (n - 1)) by lia.
  rewrite (skip_down d n b W) by (auto; lia || (intros; apply HB; lia)).
  eexists. split; [reflexivity|]. unfold data_keys, n_rows. simpl. rewrite dmap_keys.
  split; auto. split; auto. intros k col H. unfold get_col in *. simpl. rewrite dget_dmap.
  destruct (dget k (cols d)) as [c|] eqn:E; [|discriminate]. inversion H; subst. simpl.
  rewrite py_slice_nat; auto. rewrite (R _ _ E). lia.
Qed.

Lemma strip_rows_no_columns : forall fuel t m, strip_rows fuel (mkData [] t m) =
  (mkData [] t m, Raise OutOfFuel).
Proof.
  intros. unfold strip_rows. simpl.
  assert (forall i, skip_none_rows fuel [] i 1 = Raise OutOfFuel) as ->; auto.
  induction fuel; intros i; simpl; auto.
Qed.

Lemma skip_all_empty : forall d n, well_formed d n -> cols d <> [] ->
  (forall i, i < n -> empty_row d i) ->
  forall fuel s, s <= n -> n - s < fuel ->
  skip_none_rows fuel (cols d) (Z.of_nat s) 1 = Raise IndexError.
Proof.
  intros d n W HC HE. induction fuel as [|f IH]; intros s Hs Hf; [lia|].
  cbn [skip_none_rows]. destruct (Nat.eq_dec s n) as [->|Hne].
  - destruct (cols d) as [|[k c] cs] eqn:E; [contradiction|]. simpl.
    assert (length c = n) as L.
    { destruct W as [T [M R]]. apply (R k). rewrite E. simpl. rewrite String.eqb_refl. auto. }
    unfold py_index. destruct (Z.of_nat n <? 0)%Z eqn:E1; [apply Z.ltb_lt in E1; lia|].
    rewrite E1. rewrite Nat2Z.id. unfold py_nth.
    assert (nth_error c n = None) as -> by (apply nth_error_None; lia). reflexivity.
  - destruct (row_all_none_wf d n s W) as [b [-> Hb]]; [lia|]. cbn [rbind].
    assert (b = true) as -> by (apply Hb; apply HE; lia).
    replace (Z.of_nat s + 1)%Z with (Z.of_nat (S s)) by lia. apply IH; lia.
Qed.

Lemma strip_rows_all_empty : forall d n fuel, well_formed d n -> cols d <> [] ->
  (forall i, i < n -> empty_row d i) -> n < fuel ->
  strip_rows fuel d = (d, Raise IndexError).
Proof.
  intros. unfold strip_rows. change 0%Z with (Z.of_nat 0).
  rewrite (skip_all_empty d n) by (auto; lia). reflexivity.
Qed.

(* ---- rename ---- *)

Lemma ddel_dset_fresh : forall V k k' (v : V) d, k <> k' -> ~ In k' (dkeys d) ->
  dkeys (ddel k (dset k' v d)) = dkeys (ddel k d) ++ [k'].
Proof.
  intros V k k' v d Hk Hn. rewrite dset_keys_notin by auto.
  induction d as [|[k0 v0] d IH]; simpl.
  - destruct (String.eqb_spec k' k); [congruence|]. reflexivity.
  - destruct (String.eqb_spec k0 k).
    + rewrite dkeys_app. reflexivity.
    + simpl. f_equal. apply IH. simpl in Hn. tauto.
Qed.

Lemma ddel_keys_filter : forall V k (d : dict V), NoDup (dkeys d) ->
  dkeys (ddel k d) = filter (fun k' => negb (String.eqb k' k)) (dkeys d).
Proof.
  induction d as [|[k0 v0] d IH]; simpl; intros ND; auto. inversion ND; subst.
  destruct (String.eqb_spec k0 k); simpl.
  - subst. clear -H1. induction (dkeys d) as [|a l IH]; simpl; auto.
    simpl in H1. destruct (String.eqb_spec a k); simpl; [tauto|]. f_equal. apply IH. tauto.
  - f_equal. auto.
Qed.

Lemma rename_ok : forall d a b, typed d -> a <> b -> In a (data_keys d) -> ~ In b (data_keys d) ->
  exists d', rename d a b = (d', Ok tt) /\ typed d' /\
    data_keys d' = filter (fun k => negb (String.eqb k a)) (data_keys d) ++ [b] /\
    n_rows d' = n_rows d /\
    dget b (cols d') = dget a (cols d) /\ dget b (types d') = dget a (types d) /\
    (forall k, k <> a -> k <> b ->
       dget k (cols d') = dget k (cols d) /\ dget k (types d') = dget k (types d)).
Proof.
  intros d a b T Hab Ha Hb.
  pose proof (typed_rename d a b T) as T'.
  unfold rename in *. destruct (String.eqb_spec a b); [contradiction|].
  assert (smem b (data_keys d) = false) as E by (apply smem_false; auto).
  rewrite E in *. destruct (typed_types_exist d a T Ha) as [t Et].
  pose proof Ha as Hc. apply dget_In_key in Hc. destruct Hc as [c Hc].
  rewrite Hc, Et in *. unfold delete_col in *. cbn [cols types max_len] in *.
  assert (dmem a (dset b c (cols d)) = true) as D1.
  { apply dmem_In. apply dset_In_keys. auto. }
  assert (dmem a (dset b t (types d)) = true) as D2.
  { apply dmem_In. apply dset_In_keys. right. apply dget_In_key. eauto. }
  rewrite D1, D2 in *. eexists. split; [reflexivity|]. split; [exact T'|].
  unfold data_keys, n_rows. cbn [cols types max_len].
  split; [|split; [reflexivity|]].
  - rewrite ddel_dset_fresh by auto. rewrite ddel_keys_filter by apply T. reflexivity.
  - rewrite !dget_ddel_other by auto. rewrite !dget_dset_same. split; [auto|]. split; [auto|].
    intros k Hk1 Hk2. rewrite !dget_ddel_other by auto. rewrite !dget_dset_other by auto. auto.
Qed.

Lemma rename_same : forall d a, rename d a a = (d, Ok tt).
Proof. intros. unfold rename. rewrite String.eqb_refl. reflexivity. Qed.

Lemma rename_taken : forall d a b, a <> b -> In b (data_keys d) ->
  rename d a b = (d, Raise ValueError).
Proof.
  intros. unfold rename. destruct (String.eqb_spec a b); [contradiction|].
  assert (smem b (data_keys d) = true) as -> by (apply smem_In; auto). reflexivity.
Qed.

Lemma rename_missing : forall d a b, a <> b -> ~ In a (data_keys d) -> ~ In b (data_keys d) ->
  rename d a b = (d, Raise KeyError).
Proof.
  intros. unfold rename. destruct (String.eqb_spec a b); [contradiction|].
  assert (smem b (data_keys d) = false) as -> by (apply smem_false; auto).
  assert (dget a (cols d) = None) as -> by (apply dget_None; auto). reflexivity.
Qed.

(* ---- masks, slices, rows ---- *)

Lemma mask_list_combine : forall A (l : list A) m,
  mask_list l m = map fst (filter snd (combine l m)).
Proof.
  induction l as [|x l IH]; intros [|[] m]; simpl; auto. rewrite IH; auto.
Qed.

Lemma mask_list_length : forall A (l : list A) m, length l = length m ->
  length (mask_list l m) = count_true m.
Proof.
  unfold count_true. induction l as [|x l IH]; intros [|[] m] H; simpl in *; try discriminate; auto.
Qed.

Lemma max_col_len_const : forall cs n, cs <> [] ->
  (forall k c, In (k, c) cs -> length c = n) -> max_col_len cs = Z.of_nat n.
Proof.
  unfold max_col_len. induction cs as [|[k c] cs IH]; intros n HN H; [contradiction|].
  simpl. rewrite (H k c) by (simpl; auto). destruct cs as [|kc cs].
  - simpl. lia.
  - rewrite (IH n).
    + lia.
    + discriminate.
    + intros. eapply H. right; eauto.
Qed.

Lemma mask_rows_ok : forall d n m, well_formed d n -> length m = n -> cols d <> [] ->
  well_formed (mask_rows d m) (count_true m) /\ data_keys (mask_rows d m) = data_keys d /\
  forall k col, get_col d k = Ok col ->
    get_col (mask_rows d m) k = Ok (map fst (filter snd (combine col m))).
Proof.
  intros d n m W HL HC. pose proof W as [T [M R]].
  assert (forall k c, In (k, c) (dmap (fun col => mask_list col m) (cols d)) ->
            length c = count_true m) as L.
  { intros k c H. apply in_map_iff in H. destruct H as [[k0 c0] [E H]]. inversion E; subst.
    apply mask_list_length. apply (R k). apply NoDup_dget; auto. apply T. }
  split; [split; [apply typed_mask_rows; auto|split]|split].
  - unfold n_rows, mask_rows. simpl. apply max_col_len_const; auto.
    unfold dmap. destruct (cols d); [contradiction|discriminate].
  - intros k c H. apply (L k). apply dget_Some_In; auto.
  - unfold data_keys, mask_rows. simpl. apply dmap_keys.
  - intros k col H. unfold get_col, mask_rows in *. simpl. rewrite dget_dmap.
    destruct (dget k (cols d)); [|discriminate]. inversion H; subst. simpl.
    rewrite mask_list_combine. reflexivity.
Qed.

Lemma get_slice_ok : forall d n ks, well_formed d n ->
  (exists k, In k ks /\ In k (data_keys d)) ->
  well_formed (get_slice d ks) n /\
  data_keys (get_slice d ks) = filter (fun k => smem k ks) (data_keys d) /\
  forall k, In k (data_keys d) ->
    get_col (get_slice d ks) k = if smem k ks then get_col d k else Raise KeyError.
Proof.
  intros d n ks W [k0 [Hk1 Hk2]]. pose proof W as [T [M R]].
  assert (data_keys (get_slice d ks) = filter (fun k => smem k ks) (data_keys d)) as K.
  { unfold data_keys, get_slice. simpl. clear. induction (cols d) as [|[k c] cs IH]; simpl; auto.
    destruct (smem k ks); simpl; rewrite IH; auto. }
  split; [split; [apply typed_get_slice; auto|split]|split; auto].
  - unfold n_rows, get_slice. simpl. apply max_col_len_const.
    + intros E. assert (In k0 (data_keys (get_slice d ks))) as H.
      { rewrite K. apply filter_In. split; auto. apply smem_In; auto. }
      unfold data_keys, get_slice in H. simpl in H. rewrite E in H. destruct H.
    + intros k c H. apply filter_In in H. destruct H as [H _]. apply (R k).
      apply NoDup_dget; auto. apply T.
  - intros k c H. unfold get_slice in H. simpl in H. apply dget_filter_some in H; [|apply T].
    destruct H as [H _]. eauto.
  - intros k Hk. unfold get_col, get_slice. simpl.
    pose proof (dget_filter_key _ (fun k => smem k ks) (cols d) k) as G. cbv beta in G.
    rewrite G. destruct (smem k ks); reflexivity.
Qed.

Lemma mask_slice_commute : forall d m ks,
  get_slice (mask_rows d m) ks = mask_rows (get_slice d ks) m.
Proof.
  intros. unfold get_slice, mask_rows. simpl.
  assert (forall cs : dict (list cell),
    filter (fun kv => smem (fst kv) ks) (dmap (fun col => mask_list col m) cs) =
    dmap (fun col => mask_list col m) (filter (fun kv => smem (fst kv) ks) cs)) as G.
  { induction cs as [|[k c] cs IH]; simpl; auto. destruct (smem k ks); simpl; rewrite IH; auto. }
  rewrite G. reflexivity.
Qed.

Lemma get_row_ok : forall d n i, well_formed d n -> i < n ->
  exists r, get_row d (Z.of_nat i) = Ok r /\ dkeys r = data_keys d /\
    forall k col, get_col d k = Ok col -> dget k r = Some (nth i col None).
Proof.
  intros d n i [T [M R]] Hi.
  exists (dmap (fun col : list cell => nth i col None) (cols d)). split; [|split].
  - unfold get_row. unfold dmap. apply mapM_Ok_map. intros [k c] H. simpl.
    rewrite (py_index_nat cell c i None); [reflexivity|].
    rewrite (R k c); auto. apply NoDup_dget; auto. apply T.
  - apply dmap_keys.
  - intros k col H. rewrite dget_dmap. unfold get_col in H.
    destruct (dget k (cols d)); [|discriminate]. inversion H; subst. reflexivity.
Qed.

Lemma get_row_negative : forall d n i, well_formed d n -> 0 < i <= n ->
  get_row d (- Z.of_nat i) = get_row d (Z.of_nat (n - i)).
Proof.
  intros d n i [T [M R]] Hi. unfold get_row.
  assert (forall l, (forall k c, In (k, c) l -> length c = n) ->
    mapM (fun kv : string * list cell => do c <- py_index (snd kv) (- Z.of_nat i); Ok (fst kv, c)) l =
    mapM (fun kv => do c <- py_index (snd kv) (Z.of_nat (n - i)); Ok (fst kv, c)) l) as G.
  { induction l as [|[k c] l IH]; intros H; auto. cbn [mapM fst snd].
    rewrite IH by (intros; eapply H; right; eauto).
    assert (py_index c (- Z.of_nat i) = py_index c (Z.of_nat (n - i))) as ->; auto.
    unfold py_index. rewrite (H k c) by (left; auto).
    destruct (- Z.of_nat i <? 0)%Z eqn:E1; [|apply Z.ltb_ge in E1; lia].
    destruct (Z.of_nat (n - i) <? 0)%Z eqn:E2; [apply Z.ltb_lt in E2; lia|].
    replace (- Z.of_nat i + Z.of_nat n)%Z with (Z.of_nat (n - i)) by lia. reflexivity. }
  apply G. intros k c H. apply (R k). apply NoDup_dget; auto. apply T.
Qed.

Lemma get_row_out : forall d n i, well_formed d n -> cols d <> [] -> n <= i ->
  get_row d (Z.of_nat i) = Raise IndexError.
Proof.
  intros d n i [T [M R]] HC Hi. unfold get_row. destruct (cols d) as [|[k c] cs] eqn:E; [contradiction|].
  simpl. assert (length c = n) as L.
  { apply (R k). simpl. rewrite String.eqb_refl. auto. }
  unfold py_index. destruct (Z.of_nat i <? 0)%Z eqn:E1; [apply Z.ltb_lt in E1; lia|].
  rewrite E1. rewrite Nat2Z.id. unfold py_nth.
  assert (nth_error c i = None) as -> by (apply nth_error_None; lia). reflexivity.
Qed.

Lemma rows_ok : forall d n, well_formed d n ->
  exists rs, rows d = Ok rs /\ length rs = n /\
    forall i r, nth_error rs i = Some r -> get_row d (Z.of_nat i) = Ok r.
Proof.
  intros d n W. pose proof W as [T [M R]]. unfold rows. unfold n_rows in M. rewrite M, Nat2Z.id.
  destruct (mapM (fun i => get_row d (Z.of_nat i)) (seq 0 n)) as [rs|e] eqn:E.
  - exists rs. split; auto. split.
    + apply mapM_length in E. rewrite seq_length in E. auto.
    + intros i r Hr. assert (i < n) as Hi.
      { apply mapM_length in E. rewrite seq_length in E. rewrite <- E. apply nth_error_Some. congruence. }
      destruct (mapM_nth _ _ _ _ _ E i i) as [y [Hy1 Hy2]].
      * rewrite (nth_error_nth' _ 0) by (rewrite seq_length; auto). rewrite seq_nth; auto.
      * congruence.
  - exfalso. apply mapM_raise in E. destruct E as [i [x [H1 [H2 _]]]].
    apply nth_error_In in H1. apply in_seq in H1.
    destruct (get_row_ok d n x W) as [r [Hr _]]; [lia|]. congruence.
Qed.

(* ---- filter_types, delete columns ---- *)

Lemma delete_col_ok : forall d k, typed d -> In k (data_keys d) ->
  exists d', delete_col d k = (d', Ok tt) /\
    data_keys d' = filter (fun k' => negb (String.eqb k' k)) (data_keys d) /\
    n_rows d' = n_rows d /\ forall k', k' <> k -> dget k' (cols d') = dget k' (cols d) /\
                                                 dget k' (types d') = dget k' (types d).
Proof.
  intros d k T Hk. unfold delete_col.
  assert (dmem k (cols d) = true) as -> by (apply dmem_In; auto).
  destruct (typed_types_exist d k T Hk) as [t Et].
  assert (dmem k (types d) = true) as -> by (apply dmem_In; apply dget_In_key; eauto).
  eexists. split; [reflexivity|]. unfold data_keys. simpl. split; [|split; auto].
  - apply ddel_keys_filter. apply T.
  - intros k' Hn. rewrite !dget_ddel_other by auto. auto.
Qed.

Lemma filter_types_keys_ok : forall ks d tl, typed d -> NoDup ks ->
  (forall k, In k ks -> In k (data_keys d)) ->
  exists d', filter_types_keys d ks tl = (d', Ok tt) /\
    data_keys d' = filter (fun k => negb (smem k ks) || type_listed d tl k) (data_keys d) /\
    n_rows d' = n_rows d /\
    forall k, In k (data_keys d') -> dget k (cols d') = dget k (cols d) /\
                                     dget k (types d') = dget k (types d).
Proof.
  induction ks as [|k ks IH]; intros d tl T ND HK.
  - exists d. simpl. split; auto. split; auto.
    clear. induction (data_keys d); simpl; congruence.
  - simpl. destruct (typed_types_exist d k T) as [t Et]; [apply HK; simpl; auto|].
    rewrite Et. inversion ND; subst.
    destruct (match t with Some p => existsb (ptype_eqb p) tl | None => false end) eqn:Ek.
    + destruct (IH d tl T) as [d' [E [K [M C]]]]; auto.
      { intros; apply HK; simpl; auto. }
      exists d'. split; auto. split; auto. rewrite K. apply filter_ext_in. intros k' Hk'.
      unfold smem at 2. simpl. destruct (String.eqb_spec k' k).
      * subst. simpl. assert (type_listed d tl k = true) as ->.
        { unfold type_listed. rewrite Et. destruct t; auto. }
        rewrite orb_true_r. reflexivity.
      * reflexivity.
    + destruct (IH (mkData (ddel k (cols d)) (ddel k (types d)) (max_len d)) tl) as [d' [E [K [M C]]]]; auto.
      { apply typed_ddel; auto. }
      { intros k' Hk'. unfold data_keys. simpl. apply ddel_In_keys; [apply T|].
        split; [intros ->; contradiction|]. apply HK. simpl; auto. }
      exists d'. split; auto. unfold data_keys in K at 2. simpl in K.
      rewrite ddel_keys_filter in K by apply T. fold (data_keys d) in K.
      assert (forall k', k' <> k -> type_listed (mkData (ddel k (cols d)) (ddel k (types d)) (max_len d)) tl k'
                = type_listed d tl k') as TL.
      { intros k' Hn. unfold type_listed. simpl. rewrite dget_ddel_other; auto. }
      assert (type_listed d tl k = false) as TK.
      { unfold type_listed. rewrite Et. destruct t; auto. }
      split; [|split; auto].
      * rewrite K. clear -TL TK. induction (data_keys d) as [|a l IH]; simpl; auto.
        unfold smem at 2. simpl. destruct (String.eqb_spec a k).
        -- subst. simpl. rewrite TK. auto.
        -- simpl. rewrite (TL a n). fold (smem a ks).
           destruct (negb (smem a ks) || type_listed d tl a); rewrite IH; auto.
      * intros k' Hk'. rewrite K in Hk'. apply filter_In in Hk'. destruct Hk' as [Hk' Hf].
        destruct (C k') as [C1 C2].
        { rewrite K. apply filter_In; auto. }
        simpl in C1, C2. apply filter_In in Hk'. destruct Hk' as [_ Hn].
        apply negb_true_iff in Hn. apply String.eqb_neq in Hn.
        rewrite dget_ddel_other in C1, C2 by auto. auto.
Qed.

Lemma filter_types_ok : forall d tl, typed d ->
  exists d', filter_types d tl = (d', Ok tt) /\
    data_keys d' = filter (type_listed d tl) (data_keys d) /\
    n_rows d' = n_rows d /\
    forall k, In k (data_keys d') -> dget k (cols d') = dget k (cols d) /\
                                     dget k (types d') = dget k (types d).
Proof.
  intros d tl T. destruct (filter_types_keys_ok (data_keys d) d tl T) as [d' [E [K H]]]; auto.
  { apply T. }
  exists d'. split; auto. split; auto. rewrite K. apply filter_ext_in. intros k Hk.
  assert (smem k (data_keys d) = true) as -> by (apply smem_In; auto). reflexivity.
Qed.
