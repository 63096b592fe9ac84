(** * C145: list objects shared between columns, objects and the caller *)

From Coq Require Import String.
From Coq Require Import List Bool Arith ZArith QArith Lia.
From Verif Require Import Py Dict ListX DataModel DataSpec DataProofs SharedModel SharedSpec SharedProofs.
Import ListNotations.
Open Scope string_scope.
Open Scope list_scope.
Open Scope nat_scope.

(** C145.  Programs over [Data] variables and list variables in which no statement stores a list of somebody else
    (no slice, [extend] only with a key that exists, an update of an object with itself only if its columns are level): all outcomes, all
    [Data] variables and all lists are what the model with columns as values (DataModel.v) says.  In particular
    [append], [update], [concatenate], [from_dictionary], row selections, [fill], deletions, [rename] and [strip]
    never make two owners of a list. *)
Theorem value_semantics : forall fuel p, private_program fuel (mkV [] []) p ->
  forall s rs, hrun fuel (mkH [] [] []) p = (s, rs) ->
  vrun fuel (mkV [] []) p = (mkV (map (seen (hheap s)) (hobjs s)) (map (read (hheap s)) (hlists s)), rs).
Proof.
  intros fuel p P s rs E.
  assert (inv (mkH [] [] [])) as I.
  { constructor; cbn; try (intros [|i]; discriminate); try (intros a []); constructor. }
  pose proof (run_sim fuel p (mkH [] [] []) I P) as S. rewrite E in S. apply S.
Qed.
Print Assumptions value_semantics.

Lemma von_lists : forall s i f, vlists (fst (von s i f)) = vlists s.
Proof. intros s i f. unfold von. destruct (nth_error (vdata s) i) as [d|]; [|reflexivity]. destruct (f d). reflexivity. Qed.
Lemma vnew_lists : forall s x, vlists (fst (vnew s x)) = vlists s.
Proof. intros s [d [[]|e]]; reflexivity. Qed.
Lemma vrun_lists : forall fuel p s, vlists (fst (vrun fuel s p)) = caller_lists (vlists s) p.
Proof.
  intros fuel p. induction p as [|c p IH]; intros s; [reflexivity|]. cbn [vrun]. destruct (vstep fuel s c) as [s1 r1] eqn:E.
  specialize (IH s1). destruct (vrun fuel s1 p) as [s2 rs]. cbn [fst] in *. rewrite IH.
  assert (s1 = fst (vstep fuel s c)) as -> by (rewrite E; reflexivity). clear.
  destruct c; cbn [vstep caller_lists]; try reflexivity; try (rewrite von_lists; reflexivity); try (rewrite vnew_lists; reflexivity).
  - destruct (nth_error (vdata s) j); [rewrite von_lists|]; reflexivity.
  - destruct (nth_error (vdata s) i); [rewrite vnew_lists|]; reflexivity.
  - destruct (nth_error (vdata s) i); [rewrite vnew_lists|]; reflexivity.
Qed.

(** In such a program the lists of the caller contain what the caller put there, whatever is done with the [Data] objects. *)
Theorem caller_lists_kept : forall fuel p, private_program fuel (mkV [] []) p ->
  forall s rs, hrun fuel (mkH [] [] []) p = (s, rs) -> map (read (hheap s)) (hlists s) = caller_lists [] p.
Proof.
  intros fuel p P s rs E. pose proof (value_semantics fuel p P s rs E) as V. pose proof (vrun_lists fuel p (mkV [] [])) as L.
  rewrite V in L. exact L.
Qed.
Print Assumptions caller_lists_kept.

Definition one : cell := Some (VInt 1). Definition two : cell := Some (VInt 2). Definition three : cell := Some (VInt 3).
(** A program with two objects and two lists: [a.update(x=l, y=3)], [b.update(a)], [b.append(x, 2)], [l.append(3)], [a.extend(y, l)],
    a selection of rows, a renamed and a deleted column. *)
Definition program1 : list stmt :=
  [ NewList [one; two]; NewData; NewData;
    Update 0 [("x", ArgList 0); ("y", ArgOne three)] false;
    UpdateData 1 0; Append 1 "x" two; ListAppend 0 three; Extend 0 "y" 0; Mask 0 [true; false; true];
    Rename 0 "x" "z"; DeleteCol 1 "y"; FromDict [("u", ArgList 0); ("v", ArgList 0)]; Append 3 "u" one; Concatenate [1; 2; 1]; StripRows 0 ].
Example program1_private : private_program 20 (mkV [] []) program1.
Proof.
  vm_compute. repeat split; try lia; try discriminate; try tauto.
  all: try (intros k c H; cbn in H; repeat (destruct H as [H|H]; [try discriminate; injection H as <- <-; cbn; lia|]); contradiction).
  all: intros d H; injection H as <-; cbn; tauto.
Qed.
Example program1_result :
  let (s, rs) := hrun 20 (mkH [] [] []) program1 in
  map (fun o => column (hheap s) o "x") (hobjs s) =
    [None; Some [one; two; two]; Some [one]; None; Some [one; two; two; one; None; one; two; two]]
  /\ map (read (hheap s)) (hlists s) = [[one; two; three]] /\ forallb (fun r => match r with Ok _ => true | _ => false end) rs = true.
Proof. vm_compute. repeat split. Qed.

(** [extend] with a new key stores the list of the caller: a later [append] to the column changes the list of the caller. *)
Lemma append_existing : forall h o key v a h' o', a < length h -> dget key (ocols o) = Some a -> happend h o key v = (h', o', Ok tt) ->
  ocols o' = ocols o /\ read h' a = read h a ++ [v] /\ (forall b, b < length h -> b <> a -> read h' b = read h b).
Proof.
  intros h o key v a h' o' B E H. unfold happend, hextend in H. rewrite read_new in H. destruct (get_type [v]) as [t|]; [|discriminate].
  rewrite E in H. destruct (dget key (otypes o)) as [t0|]; [|discriminate].
  match type of H with (if ?c then _ else _) = _ => destruct c; [discriminate|] end. injection H as <- <-. cbn [ocols].
  rewrite read_write_same by (rewrite app_length; lia). rewrite read_old by auto. split; auto. split; auto.
  intros b BB N. rewrite read_write_other by auto. apply read_old. auto.
Qed.
Lemma extend_new : forall h o key a h' o', dget key (ocols o) = None -> hextend h o key a = (h', o', Ok tt) ->
  h' = h /\ ocols o' = dset key a (ocols o) /\ olen o' = grow (olen o) (read h a).
Proof.
  intros h o key a h' o' E H. unfold hextend in H. destruct (get_type (read h a)); [|discriminate]. rewrite E in H. injection H as <- <-. auto.
Qed.

Theorem extend_keeps_the_list_refuted : forall h o key a v h1 o1 h2 o2,
  a < length h -> dget key (ocols o) = None ->
  hextend h o key a = (h1, o1, Ok tt) -> happend h1 o1 key v = (h2, o2, Ok tt) ->
  read h2 a = read h a ++ [v].
Proof.
  intros h o key a v h1 o1 h2 o2 B N E1 E2. destruct (extend_new _ _ _ _ _ _ N E1) as [-> [C _]].
  assert (dget key (ocols o1) = Some a) as G by (rewrite C; apply dget_dset_same).
  apply (append_existing _ _ _ _ _ _ _ B G E2).
Qed.
Print Assumptions extend_keeps_the_list_refuted.

(** Conversely, when the caller appends to the list afterwards the column grows and the number of rows does not. *)
Theorem extend_copies_refuted : forall h o key a v h1 o1,
  a < length h -> dget key (ocols o) = None -> hextend h o key a = (h1, o1, Ok tt) ->
  let h2 := write h1 a (read h1 a ++ [v]) in
  column h2 o1 key = Some (read h a ++ [v]) /\
  ((olen o <= Z.of_nat (length (read h a)))%Z -> olen o1 = Z.of_nat (length (read h a))).
Proof.
  intros h o key a v h1 o1 B N E1 h2. destruct (extend_new _ _ _ _ _ _ N E1) as [-> [C L]]. split.
  - unfold column. rewrite C, dget_dset_same. unfold h2. rewrite read_write_same by auto. reflexivity.
  - intros LE. rewrite L. unfold grow. lia.
Qed.
Print Assumptions extend_copies_refuted.

(** One list given for two new keys couples the columns. *)
Theorem columns_independent_refuted : forall h o k1 k2 a v h1 o1 h2 o2 h3 o3,
  a < length h -> k1 <> k2 -> dget k1 (ocols o) = None -> dget k2 (ocols o) = None ->
  hextend h o k1 a = (h1, o1, Ok tt) -> hextend h1 o1 k2 a = (h2, o2, Ok tt) -> happend h2 o2 k1 v = (h3, o3, Ok tt) ->
  column h3 o3 k1 = Some (read h a ++ [v]) /\ column h3 o3 k2 = Some (read h a ++ [v]).
Proof.
  intros h o k1 k2 a v h1 o1 h2 o2 h3 o3 B NE N1 N2 E1 E2 E3.
  destruct (extend_new _ _ _ _ _ _ N1 E1) as [-> [C1 _]].
  assert (dget k2 (ocols o1) = None) as N2' by (rewrite C1, dget_dset_other; auto).
  destruct (extend_new _ _ _ _ _ _ N2' E2) as [-> [C2 _]].
  assert (dget k1 (ocols o2) = Some a) as G by (rewrite C2, dget_dset_other, C1 by auto; apply dget_dset_same).
  destruct (append_existing _ _ _ _ _ _ _ B G E3) as [C3 [R _]].
  unfold column. rewrite C3, G, R, C2, dget_dset_same, R. auto.
Qed.
Print Assumptions columns_independent_refuted.

Example extend_example :
  let '(h1, o1, r1) := hextend [[one]] new_obj "x" 0 in
  let '(h2, o2, r2) := hextend h1 o1 "y" 0 in
  let '(h3, o3, r3) := happend h2 o2 "x" two in
  r1 = Ok tt /\ r2 = Ok tt /\ r3 = Ok tt /\ read h3 0 = [one; two] /\ column h3 o3 "y" = Some [one; two] /\ olen o3 = 2%Z.
Proof. vm_compute. repeat split. Qed.

(** A slice of columns reads like the selection of the columns ... *)
Theorem slice_reads : forall h o ks, seen h (hget_slice h o ks) = get_slice (seen h o) ks.
Proof.
  intros h o ks. unfold seen, hget_slice, get_slice. cbn [ocols otypes olen cols types max_len].
  assert (dmap (read h) (filter (fun kv => smem (fst kv) ks) (ocols o)) = filter (fun kv => smem (fst kv) ks) (dmap (read h) (ocols o))) as ->.
  { unfold dmap. induction (ocols o) as [|[k a] cs IH]; [reflexivity|]. cbn. destruct (smem k ks); cbn; rewrite IH; reflexivity. }
  reflexivity.
Qed.
Print Assumptions slice_reads.

(** ... but it has the same lists: appending to the slice appends to the column of the object, which keeps its
    number of rows. *)
Theorem slice_copies_refuted : forall h o ks k v a h' s',
  a < length h -> dget k (ocols o) = Some a -> In k ks ->
  happend h (hget_slice h o ks) k v = (h', s', Ok tt) ->
  column h' o k = Some (read h a ++ [v]) /\ column h' s' k = Some (read h a ++ [v]) /\ max_len (seen h' o) = max_len (seen h o).
Proof.
  intros h o ks k v a h' s' B G I E.
  assert (dget k (ocols (hget_slice h o ks)) = Some a) as G'.
  { unfold hget_slice. cbn [ocols]. rewrite (dget_filter_key _ (fun x => smem x ks)). apply smem_In in I. rewrite I. exact G. }
  destruct (append_existing _ _ _ _ _ _ _ B G' E) as [C [R _]].
  unfold column. rewrite C, G, G', R. auto.
Qed.
Print Assumptions slice_copies_refuted.

Example slice_example :
  let o := mkObj [("x", 0); ("y", 1)] [("x", Some TInt); ("y", Some TInt)] 1 in
  let h := [[one]; [two]] in
  let '(h', s', r) := happend h (hget_slice h o ["x"]) "x" three in
  r = Ok tt /\ column h' o "x" = Some [one; three] /\ column h' o "y" = Some [two] /\ olen o = 1%Z.
Proof. vm_compute. repeat split. Qed.

(** A table updated with itself has all its rows twice, in the model with values (and so, by
    [value_semantics], with list objects). *)
Theorem self_update_doubles : forall d n, well_formed d n ->
  exists d', update_data d d = (d', Ok tt) /\ data_keys d' = data_keys d /\ (data_keys d <> [] -> well_formed d' (n + n)) /\
    forall k col, get_col d k = Ok col -> get_col d' k = Ok (col ++ col).
Proof.
  intros d n W. pose proof W as [T [NR RC]]. unfold update_data.
  set (items := dmap UList (cols d)).
  assert (dkeys items = data_keys d) as EK by apply dmap_keys.
  assert (NoDup (dkeys items)) as ND by (rewrite EK; apply T).
  assert (forall k u, In (k, u) items -> exists col, u = UList col /\ dget k (cols d) = Some col) as IT.
  { intros k u I. unfold items, dmap in I. apply in_map_iff in I. destruct I as [[k0 col] [E I]]. injection E as <- <-.
    exists col. split; auto. apply NoDup_dget; [apply T|auto]. }
  destruct (update_ok d n items W ND) as [d' [E [W' [K' C']]]].
  { intros k u I. destruct (IT k u I) as [col [-> G]]. unfold column_or_none. rewrite G. cbn [cells_of].
    destruct T as [_ [_ TF]]. destruct (TF k col G) as [t [_ F]]. apply (type_fits_homogeneous t).
    intros v Hv. apply in_app_or in Hv. destruct Hv; apply F; auto. }
  assert (filter (fun k => negb (smem k (data_keys d))) (dkeys items) = []) as FN.
  { rewrite EK. clear. assert (forall l, (forall x, In x l -> In x (data_keys d)) -> filter (fun k => negb (smem k (data_keys d))) l = []) as H.
    { induction l as [|x l IH]; intros HI; cbn; auto. rewrite (proj2 (smem_In x (data_keys d))) by (apply HI; left; auto). cbn.
      apply IH. intros y I. apply HI. right. auto. }
    apply H. auto. }
  rewrite FN, app_nil_r in K'.
  assert (forall k col, dget k (cols d) = Some col -> given items k = col) as GV.
  { intros k col G. unfold given, items. rewrite dget_dmap, G. reflexivity. }
  assert (cols d = [] \/ added_rows items = n) as AR.
  { assert (cols d = [] \/ cols d <> []) as [EC|EC] by (destruct (cols d); [left|right]; congruence); [left; auto|right]. unfold added_rows.
    assert (forall l : dict uval, (forall kv, In kv l -> length (cells_of (snd kv)) = n) -> l <> [] ->
              fold_right max 0 (map (fun kv => length (cells_of (snd kv))) l) = n) as H.
    { induction l as [|kv l IH]; intros HI NE; [contradiction|]. cbn [map fold_right]. rewrite (HI kv) by (left; auto).
      destruct l as [|kv' l]; [cbn; lia|]. rewrite IH; [lia| |discriminate]. intros x I. apply HI. right. auto. }
    apply H; [|unfold items, dmap; intros EM; apply map_eq_nil in EM; auto].
    intros [k u] I. destruct (IT k u I) as [col [-> G]]. cbn. apply (RC k). exact G. }
  assert (forall k col, get_col d k = Ok col -> get_col d' k = Ok (col ++ col)) as CC.
  { intros k col G. unfold get_col in G. destruct (dget k (cols d)) as [c|] eqn:EC; [|discriminate]. injection G as ->.
    assert (In k (data_keys d)) as IK by (apply dget_In_key; eauto).
    rewrite C' by (rewrite K'; auto). rewrite (GV k col EC). unfold column_or_none. rewrite EC.
    destruct AR as [AR|AR]; [rewrite AR in EC; discriminate|]. rewrite pad_to_id; auto. rewrite AR. rewrite (RC k col EC). auto. }
  exists d'. split; auto. split; auto. split; auto. intros NE. destruct AR as [AR|AR]; [|rewrite AR in W'; auto].
  exfalso. apply NE. unfold data_keys. rewrite AR. reflexivity.
Qed.
Print Assumptions self_update_doubles.

Definition program2 : list stmt := [NewData; Append 0 "x" one; Append 0 "x" two; UpdateData 0 0; Append 0 "x" three].
Example program2_private : private_program 20 (mkV [] []) program2.
Proof.
  vm_compute. repeat split; try lia; try discriminate; try tauto.
  right. intros d H. injection H as <-. intros k col H.
  match type of H with (if ?b then _ else _) = _ => destruct b end; [injection H as <-; reflexivity|discriminate].
Qed.
Example program2_result : let (s, rs) := hrun 20 (mkH [] [] []) program2 in
  map (fun o => column (hheap s) o "x") (hobjs s) = [Some [one; two; one; two; three]] /\ map olen (hobjs s) = [5%Z].
Proof. vm_compute. repeat split. Qed.
