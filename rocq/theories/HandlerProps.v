(** * Properties of the data handlers (C58, C59, C60) *)

From Coq Require Import String Ascii.
From Coq Require Import List Bool Arith ZArith QArith Qround Lia Lqa.
From Verif Require Import Py Dict ListX DataModel DataSpec DataProofs DataProps HandlerModel.
Import ListNotations.
Open Scope string_scope.
Open Scope list_scope.
Open Scope nat_scope.

(** The entries of column [i] of an array. *)
Definition array_column (rows : list (list pyval)) (i : nat) (c : list cell) : Prop :=
  length c = length rows /\
  forall j r, nth_error rows j = Some r -> exists v, nth_error r i = Some v /\ nth_error c j = Some (Some v).

(** The table read from columns [k_i] with entries [c_i]: columns keep their order and
    entries, keys are replaced by standard keys, numbers by floats. *)
Definition read_as (pf : string -> option Q) (n : nat) (columns : list (string * list cell)) (d : Data) : Prop :=
  well_formed d n /\
  exists f, (forall k1 k2, In k1 (map fst columns) -> In k2 (map fst columns) -> f k1 = f k2 -> k1 = k2) /\
    (forall k, In k (data_keys d) <-> exists k0, In k0 (map fst columns) /\ f k0 = k) /\
    (forall k, In k (map fst columns) -> standard_name k (f k)) /\
    (forall k c, In (k, c) columns -> exists t c', type_fits t c /\ get_col d (f k) = Ok c' /\ converted pf t c c').

(* ------------------------------------------------------------------ *)

Lemma dset_new : forall V k (v : V) d, ~ In k (dkeys d) -> dset k v d = d ++ [(k, v)].
Proof.
  induction d as [|[k' v'] d IH]; simpl; intros H; auto.
  destruct (String.eqb_spec k' k) as [->|]; [tauto|]. rewrite IH; auto.
Qed.

Lemma fold_dset : forall A V (key : A -> string) (val : A -> V) l acc,
  NoDup (dkeys acc ++ map key l) ->
  fold_left (fun d x => dset (key x) (val x) d) l acc = acc ++ map (fun x => (key x, val x)) l.
Proof.
  induction l as [|x l IH]; intros acc H; cbn [fold_left map]; [rewrite app_nil_r; auto|].
  cbn [map] in H. pose proof (NoDup_remove_2 _ _ _ H) as H2.
  rewrite dset_new by (intros I; apply H2, in_or_app; auto).
  rewrite IH; [rewrite <- app_assoc; reflexivity|].
  unfold dkeys in *. rewrite map_app. cbn [map fst]. rewrite <- app_assoc. exact H.
Qed.

Lemma map_snd_enumerate : forall A (l : list A), map snd (enumerate l) = l.
Proof. intros. unfold enumerate. apply map_snd_combine. apply seq_length. Qed.

Lemma map_pair_fst : forall A B C (f : A -> B) (g : A -> C) l, map fst (map (fun x => (f x, g x)) l) = map f l.
Proof. intros. rewrite map_map. apply map_ext. auto. Qed.

(** Storing full columns and standardising. *)
Lemma store_columns : forall pf n (columns : list (string * list cell)),
  columns <> [] -> NoDup (map fst columns) ->
  (forall k c, In (k, c) columns -> length c = n /\ homogeneous c /\
     (exists s, get_standard_key k = Ok s) /\ get_standard_key k <> Ok "date") ->
  exists d, finish (update empty_data (map (fun kc => (fst kc, UList (snd kc))) columns) false) = Ok d /\
  exists d', finish (hrosailing_standard_format pf d) = Ok d' /\ read_as pf n columns d'.
Proof.
  intros pf n columns NE ND HC.
  set (items := map (fun kc => (fst kc, UList (snd kc))) columns).
  assert (dkeys items = map fst columns) as EK by (unfold items, dkeys; rewrite map_map; apply map_ext; auto).
  assert (forall k u, In (k, u) items <-> exists c, u = UList c /\ In (k, c) columns) as EI.
  { intros k u. unfold items. rewrite in_map_iff. split.
    - intros [[k' c] [E I]]. cbn [fst snd] in E. injection E as <- <-. eauto.
    - intros [c [-> I]]. exists (k, c). auto. }
  destruct (update_appends_rows empty_data 0 items empty_wf) as [d [Ed [W [K G]]]].
  { rewrite EK. auto. }
  { intros k u I. apply EI in I. destruct I as [c [-> I]]. unfold column_or_none. simpl. apply (HC k c I). }
  assert (added_rows items = n) as EA.
  { unfold added_rows. clear - NE HC EI. subst items. rewrite map_map. cbn [snd cells_of].
    destruct columns as [|[k0 c0] cs]; [congruence|].
    assert (forall l, (forall kc, In kc l -> length (snd kc) = n) -> fold_right max 0 (map (fun x : string * list cell => length (snd x)) l) <= n) as LE.
    { induction l as [|a l IH]; simpl; intros Hl; [lia|]. rewrite (Hl a) by auto.
      specialize (IH ltac:(auto)). lia. }
    cbn [map fold_right snd]. assert (length c0 = n) as L0 by (apply (HC k0 c0); simpl; auto).
    specialize (LE cs). assert (fold_right max 0 (map (fun x : string * list cell => length (snd x)) cs) <= n).
    { apply LE. intros [k c] I. apply (HC k c). simpl; auto. }
    lia. }
  rewrite EA in W, G. simpl in W.
  assert (data_keys d = map fst columns) as KD.
  { rewrite K. simpl. rewrite EK. clear. induction (map fst columns); simpl; auto. f_equal; auto. }
  assert (forall k c, In (k, c) columns -> get_col d k = Ok c) as GC.
  { intros k c I. assert (In k (map fst columns)) as Ik by (apply (in_map fst) in I; auto).
    rewrite G by (rewrite KD; auto). unfold column_or_none. simpl. f_equal. unfold pad_to, given.
    rewrite (NoDup_dget _ k items (UList c)); [| |apply EI; eauto].
    - cbn [cells_of]. replace (length c) with n by (symmetry; apply (HC k c I)). rewrite Nat.sub_diag. simpl. apply app_nil_r.
    - rewrite EK. auto. }
  exists d. split; [rewrite Ed; reflexivity|].
  destruct (standard_format_partial pf d n W) as [d' [f [E [W' [F1 [F2 [F3 F4]]]]]]].
  { intros k I. rewrite KD in I. apply in_map_iff in I. destruct I as [[k' c] [E I]]. simpl in E. subst. apply (HC _ _ I). }
  { intros k I. rewrite KD in I. apply in_map_iff in I. destruct I as [[k' c] [E I]]. simpl in E. subst. apply (HC _ _ I). }
  exists d'. split; [rewrite E; reflexivity|]. split; auto. exists f. rewrite KD in *.
  split; auto. split; auto. split; auto. intros k c I.
  assert (In k (data_keys d)) as Ik by (rewrite KD; apply (in_map fst) in I; auto).
  destruct W as [T R]. destruct (typed_types_exist d k T Ik) as [t Ht].
  destruct (F4 k t c Ht (GC k c I)) as [c' [E1 E2]]. exists t, c'. split; auto.
  pose proof (GC k c I) as GK. unfold get_col in GK.
  destruct (dget k (cols d)) as [col|] eqn:EC; [|discriminate]. injection GK as ->.
  destruct T as [_ [_ T]]. destruct (T k c EC) as [t' [E3 E4]]. rewrite E3 in Ht. injection Ht as <-. exact E4.
Qed.

(* ================= C60 ================= *)

(** C60: every column of the array becomes the column of its key. *)
Theorem array_columns_kept : forall pf width rows keys,
  length keys = width -> keys <> [] -> NoDup keys -> (forall r, In r rows -> length r = width) ->
  (forall k, In k keys -> (exists s, get_standard_key k = Ok s) /\ get_standard_key k <> Ok "date") ->
  (forall i c, i < width -> array_column rows i c -> homogeneous c) ->
  exists d cs, array_handle pf (Arr2 width rows) keys = Ok d /\
    map fst cs = keys /\
    (forall i k c, nth_error cs i = Some (k, c) -> array_column rows i c) /\
    read_as pf (length rows) cs d.
Proof.
  intros pf width rows keys HL NE ND HR HK HH.
  set (col := fun i => @map (list pyval) cell (fun r => nth_error r i) rows).
  set (cs := map (fun ik : nat * string => (snd ik, col (fst ik))) (enumerate keys)).
  assert (forall i, i < width -> array_column rows i (col i)) as AC.
  { intros i Hi. unfold col. split; [apply map_length|]. intros j r Hj.
    destruct (nth_error r i) as [v|] eqn:Ev.
    - exists v. split; auto. apply (map_nth_error (fun r => nth_error r i)) in Hj. exact (eq_trans Hj (f_equal Some Ev)).
    - apply nth_error_None in Ev. rewrite (HR r) in Ev by (eapply nth_error_In; eauto). lia. }
  assert (map fst cs = keys) as EK by (unfold cs; rewrite map_pair_fst; apply map_snd_enumerate).
  destruct (store_columns pf (length rows) cs) as [d [E1 [d' [E2 RD]]]].
  - intros E. rewrite E in EK. simpl in EK. congruence.
  - rewrite EK. auto.
  - intros k c I. unfold cs in I. apply in_map_iff in I. destruct I as [[i k'] [E I]]. cbn [fst snd] in E.
    injection E as -> <-. apply enumerate_In in I.
    assert (i < width) as Hi by (rewrite <- HL; apply nth_error_Some; congruence).
    split; [apply (AC i Hi)|]. split; [apply (HH i); auto|]. apply HK. eapply nth_error_In; eauto.
  - exists d', cs. split; [|split; [auto|split; [|auto]]].
    + unfold array_handle. rewrite (proj2 (Nat.eqb_eq _ _) HL). unfold columns_of.
      rewrite (fold_dset _ _ (fun ik : nat * string => snd ik) (fun ik => UList (col (fst ik)))).
      2:{ simpl. rewrite map_snd_enumerate. auto. }
      cbn [app]. replace (map (fun x : nat * string => (snd x, UList (col (fst x)))) (enumerate keys))
        with (map (fun kc : string * list cell => (fst kc, UList (snd kc))) cs).
      2:{ unfold cs. rewrite map_map. apply map_ext. auto. }
      rewrite E1. cbn [rbind]. exact E2.
    + intros i k c I. unfold cs in I. apply nth_error_map_iff in I. destruct I as [[i' k'] [I E]].
      cbn [fst snd] in E. injection E as -> <-. apply nth_error_enumerate in I. destruct I as [-> I].
      apply AC. rewrite <- HL. apply nth_error_Some. congruence.
Qed.
Print Assumptions array_columns_kept.

(** C60: a wrong number of keys is refused. *)
Theorem array_wrong_keys : forall pf width rows keys, length keys <> width ->
  array_handle pf (Arr2 width rows) keys = Raise ValueError.
Proof. intros pf width rows keys H. unfold array_handle. apply Nat.eqb_neq in H. rewrite H. auto. Qed.
Print Assumptions array_wrong_keys.

Definition no_parse (s : string) : option Q := None.

Example array_columns_kept_meets :
  array_handle no_parse (Arr2 2 [[VInt 3; VInt 90]; [VInt 4; VInt 100]]) ["wind speed"; "angle"] =
  Ok (mkData [("TWS", [num 3; num 4]); ("TWA", [num 90; num 100])] [("TWS", Some TFloat); ("TWA", Some TFloat)] 2).
Proof. vm_compute. reflexivity. Qed.

(** C60, refuted part: with a key given twice the earlier column is lost without an error. *)
Theorem array_duplicate_refuted : exists width rows keys d, length keys = width /\
  (forall r, In r rows -> length r = width) /\
  array_handle no_parse (Arr2 width rows) keys = Ok d /\
  n_cols d < width /\
  (forall k c, get_col d k = Ok c -> ~ In (num 3) c).
Proof.
  exists 2, [[VInt 3; VInt 90]], ["TWS"; "TWS"],
    (mkData [("TWS", [num 90])] [("TWS", Some TFloat)] 1).
  split; auto. split; [intros r [<-|[]]; auto|]. split; [vm_compute; reflexivity|]. split; [apply le_n|].
  intros k c H. unfold get_col in H. cbn [dget cols] in H. destruct (String.eqb "TWS" k); [|discriminate].
  injection H as <-. intros [E|[]]. discriminate.
Qed.
Print Assumptions array_duplicate_refuted.

(* ================= csv files ================= *)

Lemma csv_row_full : forall keys row i (d : dict (list string)),
  NoDup (map fst d) -> keys = map fst d -> i + length row = length keys ->
  csv_row keys i row d = Ok (firstn i d ++ map (fun x => (fst (fst x), snd (fst x) ++ [snd x])) (combine (skipn i d) row)).
Proof.
  intros keys row. induction row as [|e row IH]; intros i d ND EK HL; cbn [csv_row length] in *.
  - rewrite combine_nil. cbn [map]. rewrite app_nil_r. rewrite firstn_all2; auto.
    rewrite EK, map_length in HL. lia.
  - destruct (nth_error d i) as [[k l]|] eqn:E.
    2:{ apply nth_error_None in E. rewrite EK, map_length in HL. lia. }
    assert (nth_error keys i = Some k) as Ek by (rewrite EK; apply (map_nth_error fst) in E; auto).
    rewrite Ek. rewrite (NoDup_dget _ k d l); [|auto|eapply nth_error_In; eauto].
    pose proof (nth_error_split _ _ E) as [d1 [d2 [ED L1]]].
    assert (dset k (l ++ [e]) d = d1 ++ (k, l ++ [e]) :: d2) as ES.
    { rewrite ED. rewrite ED, map_app in ND. cbn [map fst] in ND. clear - ND.
      induction d1 as [|[k1 l1] d1 IH]; simpl.
      - rewrite String.eqb_refl. auto.
      - simpl in ND. inversion ND; subst. destruct (String.eqb_spec k1 k) as [->|].
        + exfalso. apply H1. apply in_or_app. simpl; auto.
        + rewrite IH; auto. }
    rewrite ES. rewrite IH.
    + f_equal. rewrite ED. rewrite <- L1.
      rewrite (firstn_app (S (length d1))), firstn_all2 by lia.
      replace (S (length d1) - length d1) with 1 by lia. cbn [firstn].
      rewrite (firstn_app (length d1)), firstn_all2, Nat.sub_diag by lia. cbn [firstn]. rewrite app_nil_r.
      rewrite (skipn_app (S (length d1))), skipn_all2 by lia. replace (S (length d1) - length d1) with 1 by lia. cbn [skipn app].
      rewrite (skipn_app (length d1)), skipn_all2, Nat.sub_diag by lia. cbn [skipn app combine map fst snd].
      rewrite <- app_assoc. reflexivity.
    + rewrite ED, !map_app in *. cbn [map fst] in *. auto.
    + rewrite EK, ED, !map_app. reflexivity.
    + lia.
Qed.

Lemma csv_body_full : forall keys rows (d : dict (list string)),
  NoDup keys -> keys = map fst d -> (forall r, In r rows -> length r = length keys) ->
  exists d', csv_body keys rows d = Ok d' /\ map fst d' = keys /\
    forall i k l, nth_error d' i = Some (k, l) -> exists l0, nth_error d i = Some (k, l0) /\
      l = l0 ++ map (fun r => nth i r EmptyString) rows.
Proof.
  intros keys. induction rows as [|r rows IH]; intros d ND EK HR; cbn [csv_body].
  - exists d. split; auto. split; auto. intros i k l H. exists l. rewrite app_nil_r. auto.
  - assert (length r = length keys) as HL by (apply HR; simpl; auto).
    rewrite (csv_row_full keys r 0 d) by (auto; congruence). cbn [firstn skipn app rbind].
    set (d1 := map (fun x : (string * list string) * string => (fst (fst x), snd (fst x) ++ [snd x])) (combine d r)).
    assert (length d = length r) as LD by (rewrite HL, EK, map_length; auto).
    destruct (IH d1) as [d' [E [K G]]]; auto.
    + unfold d1. rewrite map_map. cbn [fst]. rewrite EK. clear - LD.
      revert r LD. induction d; destruct r; simpl; intros; auto; try discriminate. f_equal; auto.
    + intros; apply HR; simpl; auto.
    + exists d'. split; auto. split; auto. intros i k l H. destruct (G i k l H) as [l1 [G1 ->]].
      unfold d1 in G1. apply nth_error_map_iff in G1. destruct G1 as [[[k0 l0] e] [C Q]]. cbn [fst snd] in Q.
      injection Q as <- <-. apply nth_error_combine in C. cbn [fst snd] in C. destruct C as [C1 C2].
      exists l0. split; [exact C1|]. cbn [map]. rewrite (nth_error_nth r i EmptyString C2). rewrite <- app_assoc. reflexivity.
Qed.

(** The entries of column [i] of a file, each read by [read]. *)
Definition file_column (read : string -> result cell) (rows : list (list string)) (i : nat) (c : list cell) : Prop :=
  length c = length rows /\
  forall j r, nth_error rows j = Some r -> exists e v, nth_error r i = Some e /\ read e = Ok v /\ nth_error c j = Some v.

(** What the entry of a file denotes: a date in the given format, otherwise a literal. *)
Definition denotes (strptime : string -> option Z) (lit : string -> literal) (e : string) (v : cell) : Prop :=
  (exists t, strptime e = Some t /\ v = Some (VDatetime t)) \/ (strptime e = None /\ lit e = LOk v).

(** C89: a file with a row of distinct names and rows of this length is read column by
    column. *)
Theorem csv_columns_kept : forall pf strptime lit keys rows (val : string -> cell),
  keys <> [] -> NoDup keys -> (forall r, In r rows -> length r = length keys) ->
  (forall r e, In r rows -> In e r -> denotes strptime lit e (val e)) ->
  (forall k, In k keys -> (exists s, get_standard_key k = Ok s) /\ get_standard_key k <> Ok "date") ->
  (forall i, i < length keys -> homogeneous (map (fun r => val (nth i r EmptyString)) rows)) ->
  exists d, csv_handle pf strptime lit (keys :: rows) = Ok d /\
    read_as pf (length rows) (map (fun ik => (snd ik, map (fun r => val (nth (fst ik) r EmptyString)) rows)) (enumerate keys)) d.
Proof.
  intros pf strptime lit keys rows val NE ND HR HV HK HH. unfold csv_handle.
  rewrite (fold_dset _ _ (fun k : string => k) (fun _ => [])) by (simpl; rewrite map_id; auto). cbn [app].
  destruct (csv_body_full keys rows (map (fun k => (k, [])) keys) ND) as [dd [E [K G]]]; auto.
  { rewrite map_map. cbn [fst]. symmetry. apply map_id. }
  rewrite E. cbn [rbind].
  set (cs := map (fun ik : nat * string => (snd ik, map (fun r => val (nth (fst ik) r EmptyString)) rows)) (enumerate keys)).
  assert (mapM (fun kv => do l <- mapM (save_eval strptime lit) (snd kv); Ok (fst kv, UList l)) dd =
          Ok (map (fun kc : string * list cell => (fst kc, UList (snd kc))) cs)) as EM.
  { assert (length dd = length keys) as LD by (rewrite <- K, map_length; auto).
    assert (forall (n : nat) (l : list (string * list string)) (ks : list string), length l = length ks ->
      (forall i k x, nth_error l i = Some (k, x) -> nth_error ks i = Some k /\ x = map (fun r => nth (n + i) r EmptyString) rows) ->
      (forall i, i < length ks -> n + i < length keys) ->
      mapM (fun kv => do l <- mapM (save_eval strptime lit) (snd kv); Ok (fst kv, UList l)) l =
      Ok (map (fun ik : nat * string => (snd ik, UList (map (fun r => val (nth (fst ik) r EmptyString)) rows))) (combine (seq n (length ks)) ks))) as G2.
    { intros n l. revert n. induction l as [|[k x] l IH]; intros n [|k' ks] HL HG HB; try discriminate; cbn [mapM length seq combine map]; auto.
      destruct (HG 0 k x eq_refl) as [A B]. simpl in A. injection A as ->. rewrite Nat.add_0_r in B.
      assert (mapM (save_eval strptime lit) x = Ok (map (fun r => val (nth n r EmptyString)) rows)) as EX.
      { subst x. specialize (HB 0 ltac:(simpl; lia)). rewrite Nat.add_0_r in HB. clear - HR HV HB.
        induction rows as [|r rows IH]; cbn [map mapM]; auto.
        assert (save_eval strptime lit (nth n r EmptyString) = Ok (val (nth n r EmptyString))) as ->.
        { assert (denotes strptime lit (nth n r EmptyString) (val (nth n r EmptyString))) as D.
          { apply (HV r); simpl; auto. apply nth_In. rewrite (HR r); simpl; auto. }
          unfold save_eval. destruct D as [[t [D1 D2]]|[D1 D2]]; rewrite D1; [rewrite D2; auto|]. rewrite D2. auto. }
        cbn [rbind]. rewrite IH; auto; intros; [apply HR; simpl; auto|apply (HV r0); simpl; auto]. }
      cbn [fst snd]. rewrite EX. cbn [rbind]. rewrite (IH (S n) ks).
      - reflexivity.
      - simpl in HL. lia.
      - intros i k2 x2 Hi. destruct (HG (S i) k2 x2 Hi) as [A2 B2]. split; auto. rewrite B2. apply map_ext. intros. f_equal. lia.
      - intros i Hi. specialize (HB (S i)). simpl in HB. lia. }
    rewrite (G2 0 dd keys LD).
    - unfold cs. rewrite map_map. reflexivity.
    - intros i k x Hi. destruct (G i k x Hi) as [l0 [A B]]. apply nth_error_map_iff in A. destruct A as [k' [A1 A2]].
      injection A2 as -> <-. simpl in B. auto.
    - auto. }
  rewrite EM. cbn [rbind].
  assert (map fst cs = keys) as EK by (unfold cs; rewrite map_pair_fst; apply map_snd_enumerate).
  destruct (store_columns pf (length rows) cs) as [d [E1 [d' [E2 RD]]]].
  - intros C. rewrite C in EK. simpl in EK. congruence.
  - rewrite EK. auto.
  - intros k c I. unfold cs in I. apply in_map_iff in I. destruct I as [[i k'] [C I]]. cbn [fst snd] in C.
    injection C as -> <-. apply enumerate_In in I. split; [apply map_length|]. split.
    + apply HH. apply nth_error_Some. congruence.
    + apply HK. eapply nth_error_In; eauto.
  - exists d'. split; auto. unfold from_dict, finish in *.
    destruct (update empty_data _ false) as [x [[]|]]; [|discriminate]. injection E1 as ->. cbn [rbind]. exact E2.
Qed.
Print Assumptions csv_columns_kept.

(** C89: a longer row is an error. *)
Theorem csv_long_row : forall pf strptime lit keys r rows, NoDup keys -> length keys < length r ->
  csv_handle pf strptime lit (keys :: r :: rows) = Raise IndexError.
Proof.
  intros pf strptime lit keys r rows ND HL. unfold csv_handle.
  rewrite (fold_dset _ _ (fun k : string => k) (fun _ => [])) by (simpl; rewrite map_id; auto).
  cbn [app csv_body].
  assert (forall row i (d : dict (list string)), (forall k, In k keys -> In k (dkeys d)) -> length keys < i + length row -> i <= length keys ->
            csv_row keys i row d = Raise IndexError) as G.
  { induction row as [|e row IH]; intros i d HD HI HI2; cbn [csv_row length] in *; [lia|].
    destruct (nth_error keys i) as [k|] eqn:E; auto.
    assert (In k keys) as Ik by (eapply nth_error_In; eauto).
    destruct (proj1 (dget_In_key _ k d) (HD k Ik)) as [l ->]. apply IH.
    - intros k' Hk'. apply dset_In_keys. auto.
    - lia.
    - assert (i < length keys) by (apply nth_error_Some; congruence). lia. }
  rewrite G; auto; try lia. intros k Hk. unfold dkeys. rewrite map_map. simpl. rewrite map_id. auto.
Qed.
Print Assumptions csv_long_row.

Definition ex_lit (s : string) : literal :=
  match int_of_string s with Ok z => LOk (Some (VInt z)) | Raise _ => LSyntax end.

Example csv_columns_kept_meets :
  csv_handle no_parse (fun _ => None) ex_lit [["wind speed"; "angle"]; ["3"; "90"]; ["4"; "100"]] =
  Ok (mkData [("TWS", [num 3; num 4]); ("TWA", [num 90; num 100])] [("TWS", Some TFloat); ("TWA", Some TFloat)] 2) /\
  csv_handle no_parse (fun _ => None) ex_lit [["wind speed"; "angle"]; ["3"; "90"; "5"]] = Raise IndexError /\
  csv_handle no_parse (fun _ => None) ex_lit [["wind speed"; "angle"]; ["3"; "x"]] = Raise RuntimeError.
Proof. vm_compute. auto. Qed.

(** C89, refuted part: a name given twice mixes the entries of the two columns, and the rows
    no longer belong together. *)
Theorem csv_duplicate_refuted : exists keys rows d, (forall r, In r rows -> length r = length keys) /\
  csv_handle no_parse (fun _ => None) ex_lit (keys :: rows) = Ok d /\
  get_col d "TWS" = Ok [num 3; num 9; num 4; num 8] /\ length rows = 2.
Proof.
  exists ["TWS"; "TWS"], [["3"; "9"]; ["4"; "8"]], (mkData [("TWS", [num 3; num 9; num 4; num 8])] [("TWS", Some TFloat)] 4).
  split; [intros r [<-|[<-|[]]]; auto|]. split; [vm_compute; reflexivity|]. auto.
Qed.
Print Assumptions csv_duplicate_refuted.

(** C89, refuted part: an entry that is neither a date nor a literal, as the name of a sail,
    raises ValueError (and not the RuntimeError with the documented hint). *)
Theorem csv_word_refuted : exists strptime lit file,
  csv_handle no_parse strptime lit file = Raise ValueError /\ lit "Jib" = LValue /\ strptime "Jib" = None.
Proof. exists (fun _ => None), (fun _ => LValue), [["sail"]; ["Jib"]]. auto. Qed.
Print Assumptions csv_word_refuted.

(* ================= C58 ================= *)

Lemma Qfloor_unique : forall q z, (inject_Z z <= q)%Q -> (q < inject_Z (z + 1))%Q -> Qfloor q = z.
Proof.
  intros q z H1 H2. pose proof (Qfloor_le q) as F1. pose proof (Qlt_floor q) as F2.
  assert (inject_Z z < inject_Z (Qfloor q + 1))%Q as A by lra.
  assert (inject_Z (Qfloor q) < inject_Z (z + 1))%Q as B by lra.
  rewrite <- Zlt_Qlt in A, B. lia.
Qed.

(** C58: ddmm.mmm is decoded to dd + mm.mmm / 60 degrees; a signed number keeps its sign. *)
Theorem nmea_coordinate : forall pf v q (degrees : Z) minutes, (0 <= degrees)%Z -> (0 <= minutes < 100)%Q ->
  number_of pf v = Some q ->
  ((q == 100 * inject_Z degrees + minutes)%Q ->
    exists x, from_nmea_format pf (Some v) = Ok (Some (VFloat x)) /\ (x == inject_Z degrees + minutes / 60)%Q) /\
  ((q == - (100 * inject_Z degrees + minutes))%Q ->
    exists x, from_nmea_format pf (Some v) = Ok (Some (VFloat x)) /\ (x == - (inject_Z degrees + minutes / 60))%Q).
Proof.
  intros pf v q degrees minutes HD HM HN.
  assert (to_float pf v = Some (VFloat q)) as ET.
  { destruct v; simpl in *; try discriminate; try (injection HN as ->; auto).
    rewrite HN. reflexivity. }
  assert (0 <= inject_Z degrees)%Q as HDQ by (change 0%Q with (inject_Z 0); rewrite <- Zle_Qle; auto).
  unfold from_nmea_format. rewrite ET. split; intros HQ; eexists; (split; [reflexivity|]).
  - assert (Qtrunc (q / 100) = degrees) as ->.
    { unfold Qtrunc. assert (Qle_bool 0 (q / 100) = true) as ->.
      { apply Qle_bool_iff. apply Qle_shift_div_l; lra. }
      apply Qfloor_unique.
      - apply Qle_shift_div_l; lra.
      - rewrite inject_Z_plus. apply Qlt_shift_div_r; [lra|]. change (inject_Z 1) with 1%Q. lra. }
    rewrite HQ. field.
  - assert (Qtrunc (q / 100) = (- degrees)%Z) as ->.
    { unfold Qtrunc. destruct (Qle_bool 0 (q / 100)) eqn:E.
      - apply Qle_bool_iff in E. assert (0 <= q)%Q as Q0.
        { assert (q == (q / 100) * 100)%Q as -> by field. apply Qmult_le_0_compat; lra. }
        assert (q == 0)%Q as Q1 by lra. assert (inject_Z degrees == 0)%Q as D1 by lra.
        assert (degrees = 0%Z) as -> by (apply (inject_Z_injective degrees 0); exact D1).
        change (- 0)%Z with 0%Z. apply Qfloor_unique; [exact E|]. change (inject_Z (0 + 1)) with 1%Q.
        apply Qlt_shift_div_r; lra.
      - f_equal. apply Qfloor_unique.
        + assert (- (q / 100) == (- q) / 100)%Q as -> by field. apply Qle_shift_div_l; lra.
        + assert (- (q / 100) == (- q) / 100)%Q as -> by field. rewrite inject_Z_plus.
          apply Qlt_shift_div_r; [lra|]. change (inject_Z 1) with 1%Q. lra. }
    rewrite inject_Z_opp. rewrite HQ. field.
Qed.
Print Assumptions nmea_coordinate.

Example nmea_coordinate_meets :
  from_nmea_format no_parse (Some (VDecimal (4807038 # 1000))) = Ok (Some (VFloat (48 + ((4807038 # 1000) - 4800) / 60))).
Proof. reflexivity. Qed.

(** C58, refuted part: the hemisphere is ignored; a southern latitude is positive and equal
    to the northern one. *)
Theorem nmea_hemisphere_refuted : exists pf (sentence : string -> dict cell),
  (forall h, dget "Latitude Direction" (sentence h) = Some (Some (VStr h)) /\
             dget "Latitude" (sentence h) = Some (Some (VStr "4807.038"))) /\
  exists x, (0 < x)%Q /\ forall h, exists p, postprocess pf (sentence h) = Ok p /\ dget "lat" p = Some (Some (VFloat x)).
Proof.
  exists (fun _ => Some (4807038 # 1000)%Q),
    (fun h => [("Latitude", Some (VStr "4807.038")); ("Latitude Direction", Some (VStr h))]).
  split; [auto|].
  exists (48 + ((4807038 # 1000) - 4800) / 60)%Q. split; [reflexivity|]. intros h. eexists. split; [reflexivity|reflexivity].
Qed.
Print Assumptions nmea_hemisphere_refuted.

(* ================= C59 ================= *)

(** Decimal digits. *)
Definition digit_char (n : nat) : ascii := ascii_of_nat (48 + n).
Definition two_digits (n : nat) : string := String (digit_char (n / 10)) (String (digit_char (n mod 10)) "").
Fixpoint digit_string (l : list nat) : string :=
  match l with [] => "" | n :: r => String (digit_char n) (digit_string r) end.
(** The number written with the digits. *)
Fixpoint number_with (l : list nat) (acc : Z) : Z :=
  match l with [] => acc | n :: r => number_with r (10 * acc + Z.of_nat n) end.
(** Microseconds of the decimal fraction 0.f. *)
Definition fraction_us (l : list nat) : Q := 1000000 * inject_Z (number_with l 0) / inject_Z (10 ^ Z.of_nat (length l)).
Definition nmea_time (h m s : nat) (f : list nat) : string :=
  (two_digits h ++ two_digits m ++ two_digits s ++ "." ++ digit_string f)%string.

Lemma digit_value_ok : forall n, n < 10 -> digit_value (digit_char n) = Some (Z.of_nat n).
Proof. intros n H. do 10 (destruct n as [|n]; [reflexivity|]). lia. Qed.

Lemma digit_not_dot : forall n, n < 10 -> Ascii.eqb (digit_char n) "."%char = false.
Proof. intros n H. do 10 (destruct n as [|n]; [reflexivity|]). lia. Qed.

Lemma digits_value_ok : forall l acc, (forall n, In n l -> n < 10) -> digits_value acc (digit_string l) = Some (number_with l acc).
Proof.
  induction l as [|n l IH]; intros acc H; cbn [digit_string digits_value number_with]; auto.
  rewrite digit_value_ok by (apply H; simpl; auto). apply IH. intros; apply H; simpl; auto.
Qed.

Lemma split_digits : forall l, (forall n, In n l -> n < 10) -> split_dot (digit_string l) = [digit_string l].
Proof.
  induction l as [|n l IH]; intros H; cbn [digit_string split_dot]; auto.
  rewrite digit_not_dot by (apply H; simpl; auto). rewrite IH by (intros; apply H; simpl; auto). auto.
Qed.

Lemma two_digits_value : forall n, n < 100 -> int_of_string (two_digits n) = Ok (Z.of_nat n).
Proof.
  intros n H. unfold two_digits, int_of_string. cbn [digits_value].
  assert (n / 10 < 10) as D1 by (apply Nat.div_lt_upper_bound; lia).
  assert (n mod 10 < 10) as D2 by (apply Nat.mod_upper_bound; lia).
  rewrite !digit_value_ok by auto. f_equal. pose proof (Nat.div_mod n 10 ltac:(lia)) as E. lia.
Qed.

Lemma nmea_time_value : forall h m s f, h < 100 -> m < 100 -> s < 100 -> f <> [] -> (forall n, In n f -> n < 10) ->
  time_from_nmea_format (nmea_time h m s f) =
  (let t := ((Z.of_nat h * 60 + Z.of_nat m) * 60 + Z.of_nat s)%Z in
   if ((t <? 86400) && (number_with f 0 <? 1000000))%Z then Ok (VTime (t * 1000000 + number_with f 0)) else Raise ValueError).
Proof.
  intros h m s f Hh Hm Hs Hf HD. unfold time_from_nmea_format.
  assert (String.substring 0 2 (nmea_time h m s f) = two_digits h) as -> by reflexivity.
  assert (String.substring 2 2 (nmea_time h m s f) = two_digits m) as -> by reflexivity.
  assert (String.substring 4 2 (nmea_time h m s f) = two_digits s) as -> by reflexivity.
  rewrite !two_digits_value by auto. cbn [rbind].
  assert (exists a, split_dot (nmea_time h m s f) = [a; digit_string f]) as [a ->].
  { unfold nmea_time, two_digits.
    assert (forall n, n < 100 -> n / 10 < 10) as D1 by (intros; apply Nat.div_lt_upper_bound; lia).
    assert (forall n, n < 100 -> n mod 10 < 10) as D2 by (intros; apply Nat.mod_upper_bound; lia).
    cbn [String.append split_dot]. rewrite !digit_not_dot by auto. rewrite split_digits by auto.
    change (Ascii.eqb "." ".") with true. cbn iota. eexists; reflexivity. }
  cbn [py_nth nth_error rbind].
  assert (int_of_string (digit_string f) = Ok (number_with f 0)) as ->.
  { destruct f as [|n f]; [congruence|]. unfold int_of_string. rewrite (digits_value_ok (n :: f) 0) by auto. reflexivity. }
  cbn [rbind].
  assert (0 <= number_with f 0)%Z as NF.
  { clear. assert (forall l acc, (0 <= acc)%Z -> (0 <= number_with l acc)%Z) as G; [|apply G; lia].
    induction l; intros; cbn [number_with]; auto. apply IHl. lia. }
  cbn zeta. set (u := number_with f 0) in *. clearbody u.
  set (H := Z.of_nat h) in *. set (M := Z.of_nat m) in *. set (S := Z.of_nat s) in *.
  assert (0 <= H < 100)%Z by (unfold H; lia). assert (0 <= M < 100)%Z by (unfold M; lia). assert (0 <= S < 100)%Z by (unfold S; lia).
  clearbody H M S. unfold time_of.
  assert (forall a b c : Z, (0 <= b < 60)%Z -> (0 <= c < 60)%Z -> (0 <= a)%Z -> ((a * 60 + b) * 60 + c = (H * 60 + M) * 60 + S)%Z ->
    (if ((0 <=? a) && (a <? 24) && (0 <=? b) && (b <? 60) && (0 <=? c) && (c <? 60) && (0 <=? u) && (u <? 1000000))%Z
     then Ok (VTime (((a * 60 + b) * 60 + c) * 1000000 + u)%Z) else Raise ValueError) =
    (if (((H * 60 + M) * 60 + S <? 86400) && (u <? 1000000))%Z then Ok (VTime (((H * 60 + M) * 60 + S) * 1000000 + u)) else Raise ValueError)) as G.
  { clear a. intros a b c Hb Hc Ha E. rewrite E.
    assert ((a <? 24)%Z = ((H * 60 + M) * 60 + S <? 86400)%Z) as ->.
    { destruct (Z.ltb_spec a 24), (Z.ltb_spec ((H * 60 + M) * 60 + S) 86400); auto; lia. }
    rewrite !(proj2 (Z.leb_le _ _)) by lia. rewrite (proj2 (Z.ltb_lt b 60)), (proj2 (Z.ltb_lt c 60)) by lia.
    rewrite !andb_true_r. cbn [andb]. reflexivity. }
  pose proof (Z.div_mod S 60 ltac:(lia)) as DS. pose proof (Z.mod_pos_bound S 60 ltac:(lia)) as BS.
  assert (0 <= S / 60)%Z as PS by (apply Z.div_pos; lia).
  destruct (Z.leb_spec 60 S).
  - pose proof (Z.div_mod (M + S / 60) 60 ltac:(lia)) as DM. pose proof (Z.mod_pos_bound (M + S / 60) 60 ltac:(lia)) as BM.
    assert (0 <= (M + S / 60) / 60)%Z as PM by (apply Z.div_pos; lia).
    destruct (Z.leb_spec 60 (M + S / 60)); apply G; lia.
  - pose proof (Z.div_mod M 60 ltac:(lia)) as DM. pose proof (Z.mod_pos_bound M 60 ltac:(lia)) as BM.
    assert (0 <= M / 60)%Z as PM by (apply Z.div_pos; lia).
    destruct (Z.leb_spec 60 M); apply G; lia.
Qed.

(** C59 (partial: six digits after the point): the time stamp is decoded to the time it
    denotes; seconds and minutes beyond 59 are carried over, times beyond the day refused. *)
Theorem nmea_time_partial : forall h m s f, h < 100 -> m < 100 -> s < 100 -> length f = 6 -> (forall n, In n f -> n < 10) ->
  ((Z.of_nat (h * 3600 + m * 60 + s) < 86400)%Z ->
     exists us, time_from_nmea_format (nmea_time h m s f) = Ok (VTime us) /\
       (inject_Z us == 1000000 * inject_Z (Z.of_nat (h * 3600 + m * 60 + s)) + fraction_us f)%Q) /\
  ((86400 <= Z.of_nat (h * 3600 + m * 60 + s))%Z -> time_from_nmea_format (nmea_time h m s f) = Raise ValueError).
Proof.
  intros h m s f Hh Hm Hs HL HD. rewrite nmea_time_value; auto; [|intros ->; discriminate].
  cbn zeta. replace ((Z.of_nat h * 60 + Z.of_nat m) * 60 + Z.of_nat s)%Z with (Z.of_nat (h * 3600 + m * 60 + s)) by lia.
  set (t := h * 3600 + m * 60 + s).
  assert (number_with f 0 < 1000000)%Z as NF.
  { assert (forall l acc k, (forall n, In n l -> n < 10) -> (acc < k)%Z -> (number_with l acc < k * 10 ^ Z.of_nat (length l))%Z) as G.
    { clear. induction l as [|n l IH]; intros acc k HD HA; cbn [number_with length]; [simpl; lia|].
      assert (n < 10) by (apply HD; simpl; auto).
      specialize (IH (10 * acc + Z.of_nat n)%Z (10 * k)%Z). rewrite Nat2Z.inj_succ, Z.pow_succ_r by lia.
      replace (k * (10 * 10 ^ Z.of_nat (length l)))%Z with (10 * k * 10 ^ Z.of_nat (length l))%Z by ring.
      apply IH; [intros; apply HD; simpl; auto|lia]. }
    specialize (G f 0%Z 1%Z HD ltac:(lia)). rewrite HL in G. exact G. }
  split; intros HT.
  - rewrite (proj2 (Z.ltb_lt (Z.of_nat t) 86400)) by lia. rewrite (proj2 (Z.ltb_lt _ _) NF). cbn [andb].
    eexists. split; [reflexivity|]. unfold fraction_us. rewrite HL. change (inject_Z (10 ^ Z.of_nat 6)) with (1000000%Q).
    rewrite inject_Z_plus, inject_Z_mult. change (inject_Z 1000000) with 1000000%Q. field.
  - rewrite (proj2 (Z.ltb_ge (Z.of_nat t) 86400)) by lia. auto.
Qed.
Print Assumptions nmea_time_partial.

Example nmea_time_partial_meets : time_from_nmea_format (nmea_time 12 35 60 [2; 5; 0; 0; 0; 0]) = Ok (VTime 45360250000) /\
  nmea_time 12 35 60 [2; 5; 0; 0; 0; 0] = "123560.250000".
Proof. vm_compute. auto. Qed.

(** C59, refuted part: a fraction with fewer digits is read as microseconds (12:35:19.5 is
    decoded to half a second too early), a time without fraction raises IndexError and one
    with more digits can be refused. *)
Theorem nmea_time_refuted :
  (forall h m s n, h < 24 -> m < 60 -> s < 60 -> 1 <= n < 10 -> exists us,
     time_from_nmea_format (nmea_time h m s [n]) = Ok (VTime us) /\
     ~ (inject_Z us == 1000000 * inject_Z (Z.of_nat (h * 3600 + m * 60 + s)) + fraction_us [n])%Q) /\
  time_from_nmea_format "123519" = Raise IndexError /\
  time_from_nmea_format "123519.1234567" = Raise ValueError.
Proof.
  split; [|vm_compute; auto]. intros h m s n Hh Hm Hs Hn.
  rewrite nmea_time_value; try lia; [|discriminate|intros x [<-|[]]; lia].
  cbn zeta. cbn [number_with]. replace (10 * 0 + Z.of_nat n)%Z with (Z.of_nat n) by lia.
  rewrite (proj2 (Z.ltb_lt ((Z.of_nat h * 60 + Z.of_nat m) * 60 + Z.of_nat s) 86400)) by lia.
  rewrite (proj2 (Z.ltb_lt (Z.of_nat n) 1000000)) by lia. cbn [andb].
  eexists. split; [reflexivity|]. unfold fraction_us. cbn [length number_with].
  replace (10 * 0 + Z.of_nat n)%Z with (Z.of_nat n) by lia. change (10 ^ Z.of_nat 1)%Z with 10%Z.
  intros E. assert (1000000 * inject_Z (Z.of_nat n) / inject_Z 10 == 100000 * inject_Z (Z.of_nat n))%Q as E2.
  { change (inject_Z 10) with 10%Q. field. }
  rewrite E2 in E. rewrite inject_Z_plus, inject_Z_mult in E.
  replace ((Z.of_nat h * 60 + Z.of_nat m) * 60 + Z.of_nat s)%Z with (Z.of_nat (h * 3600 + m * 60 + s)) in E by lia.
  change (inject_Z 1000000) with 1000000%Q in E.
  assert (inject_Z 1 <= inject_Z (Z.of_nat n))%Q as N1 by (rewrite <- Zle_Qle; lia).
  change (inject_Z 1) with 1%Q in N1. lra.
Qed.
Print Assumptions nmea_time_refuted.

(* ================= C90: wind sentences and filters ================= *)

(** C90: a wind sentence with reference R gives the apparent wind, with reference T the true
    wind; the other entries of the sentence stay. *)
Theorem nmea_wind_reference : forall (p : dict cell) (wa ws : cell) r, NoDup (dkeys p) ->
  dget "Wind angle" p = Some wa -> dget "Wind speed" p = Some ws -> dget "Reference" p = Some (Some (VStr r) : cell) ->
  let p' := postprocess_wind p in
  (forall k, In k ["Wind angle"; "Wind speed"; "Reference"] -> dget k p' = None) /\
  (r = "R" -> dget "AWA" p' = Some wa /\ dget "AWS" p' = Some ws /\ dget "TWA" p' = dget "TWA" p /\ dget "TWS" p' = dget "TWS" p) /\
  (r = "T" -> dget "TWA" p' = Some wa /\ dget "TWS" p' = Some ws /\ dget "AWA" p' = dget "AWA" p /\ dget "AWS" p' = dget "AWS" p) /\
  (forall k, ~ In k ["Wind angle"; "Wind speed"; "Reference"; "AWA"; "AWS"; "TWA"; "TWS"] -> dget k p' = dget k p).
Proof.
  intros p wa ws r ND Ha Hs Hr. cbn zeta. unfold postprocess_wind. rewrite Ha, Hr, Hs.
  set (p1 := if String.eqb r "R" then _ else _).
  assert (NoDup (dkeys p1)) as N1 by (unfold p1; destruct (String.eqb r "R"); [|destruct (String.eqb r "T")]; repeat apply dset_NoDup; auto).
  assert (forall k, k <> "Wind angle" -> k <> "Wind speed" -> k <> "Reference" ->
    dget k (ddel "Wind speed" (ddel "Wind angle" (ddel "Reference" p1))) = dget k p1) as D.
  { intros k K1 K2 K3. rewrite !dget_ddel_other; auto. }
  split; [|split; [|split]].
  - intros k [<-|[<-|[<-|[]]]].
    + rewrite dget_ddel_other by discriminate. apply dget_ddel_same. repeat apply ddel_NoDup; auto.
    + apply dget_ddel_same. repeat apply ddel_NoDup; auto.
    + rewrite !dget_ddel_other by discriminate. apply dget_ddel_same; auto.
  - intros ->. rewrite !D by discriminate. unfold p1. rewrite (String.eqb_refl "R").
    repeat split; rewrite ?dget_dset_same; auto; rewrite !dget_dset_other by discriminate; auto. apply dget_dset_same.
  - intros ->. rewrite !D by discriminate. unfold p1. change (String.eqb "T" "R") with false. change (String.eqb "T" "T") with true. cbn iota.
    repeat split; rewrite ?dget_dset_same; auto; rewrite !dget_dset_other by discriminate; auto. apply dget_dset_same.
  - intros k Hk. simpl in Hk. rewrite D by (intros E; apply Hk; auto 10).
    unfold p1. destruct (String.eqb r "R"); [|destruct (String.eqb r "T")]; auto;
      rewrite !dget_dset_other by (intros E; apply Hk; auto 10); auto.
Qed.
Print Assumptions nmea_wind_reference.

(** C58: the coordinates of a sentence are replaced by the converted ones, everything that is not
    wind, position or time stays. *)
Theorem nmea_position : forall pf (p q : dict cell), NoDup (dkeys p) -> postprocess pf p = Ok q ->
  (forall nmea key, In (nmea, key) [("Latitude", "lat"); ("Longitude", "lon")] ->
     dget nmea q = None /\
     (forall v, dget nmea p = Some v -> exists x, from_nmea_format pf v = Ok x /\ dget key q = Some x) /\
     (dget nmea p = None -> dget key q = dget key p)) /\
  (forall k, ~ In k ["Wind angle"; "Wind speed"; "Reference"; "AWA"; "AWS"; "TWA"; "TWS"; "Latitude"; "lat"; "Longitude"; "lon"; "Timestamp"] ->
     dget k q = dget k p).
Proof.
  intros pf p q ND E. unfold postprocess in E.
  assert (NoDup (dkeys (postprocess_wind p)) /\
    forall k, ~ In k ["Wind angle"; "Wind speed"; "Reference"; "AWA"; "AWS"; "TWA"; "TWS"] -> dget k (postprocess_wind p) = dget k p) as [N0 K0].
  { unfold postprocess_wind. destruct (dget "Wind angle" p) as [wa|]; [|auto]. destruct (dget "Reference" p) as [rf|]; [|auto].
    destruct (dget "Wind speed" p) as [ws|]; [|auto]. set (p1 := match rf with Some _ => _ | None => _ end).
    assert (NoDup (dkeys p1) /\ forall k, ~ In k ["AWA"; "AWS"; "TWA"; "TWS"] -> dget k p1 = dget k p) as [N1 K1].
    { unfold p1. destruct rf as [[]|]; auto. destruct (String.eqb s "R"); [|destruct (String.eqb s "T"); auto].
      - split; [repeat apply dset_NoDup; auto|]. intros k Hk. rewrite !dget_dset_other by (intros X; apply Hk; subst; simpl; auto 10). auto.
      - split; [repeat apply dset_NoDup; auto|]. intros k Hk. rewrite !dget_dset_other by (intros X; apply Hk; subst; simpl; auto 10). auto. }
    split; [repeat apply ddel_NoDup; auto|]. intros k Hk.
    rewrite !dget_ddel_other by (intros X; apply Hk; subst; simpl; auto 10). apply K1. intros X. apply Hk. simpl in *. tauto. }
  set (p0 := postprocess_wind p) in *.
  assert (forall nmea key a b, nmea <> key -> NoDup (dkeys a) -> postprocess_pos pf nmea key a = Ok b ->
    NoDup (dkeys b) /\ dget nmea b = None /\
    (forall v, dget nmea a = Some v -> exists x, from_nmea_format pf v = Ok x /\ dget key b = Some x) /\
    (dget nmea a = None -> dget key b = dget key a) /\
    (forall k, k <> nmea -> k <> key -> dget k b = dget k a)) as POS.
  { clear. intros nmea key a b NK N E. unfold postprocess_pos in E. destruct (dget nmea a) as [v|] eqn:G.
    - destruct (from_nmea_format pf v) as [x|] eqn:F; cbn [rbind] in E; [|discriminate]. injection E as <-.
      split; [apply ddel_NoDup, dset_NoDup; auto|]. split; [apply dget_ddel_same, dset_NoDup; auto|].
      split; [intros v' [= <-]; exists x; split; auto; rewrite dget_ddel_other by auto; apply dget_dset_same|].
      split; [discriminate|]. intros k K1 K2. rewrite dget_ddel_other, dget_dset_other; auto.
    - injection E as <-. split; auto. split; auto. split; [discriminate|]. auto. }
  destruct (postprocess_pos pf "Latitude" "lat" p0) as [p1|] eqn:E1; cbn [rbind] in E; [|discriminate].
  destruct (postprocess_pos pf "Longitude" "lon" p1) as [p2|] eqn:E2; cbn [rbind] in E; [|discriminate].
  destruct (POS "Latitude" "lat" p0 p1 ltac:(discriminate) N0 E1) as [N1 [A1 [A2 [A3 A4]]]].
  destruct (POS "Longitude" "lon" p1 p2 ltac:(discriminate) N1 E2) as [N2 [B1 [B2 [B3 B4]]]].
  assert (forall k, k <> "Timestamp" -> dget k q = dget k p2) as T.
  { intros k K. unfold postprocess_time in E. destruct (dget "Timestamp" p2) as [[[]|]|]; try (injection E as <-; auto; fail).
    destruct (time_from_nmea_format s) as [t|]; cbn [rbind] in E; [|discriminate]. injection E as <-. apply dget_dset_other. auto. }
  split.
  - intros nmea key [[= <- <-]|[[= <- <-]|[]]].
    + rewrite !T by discriminate. rewrite !B4 by discriminate. split; auto. rewrite <- !K0 by (simpl; intuition discriminate). auto.
    + rewrite !T by discriminate. split; auto. rewrite <- !K0 by (simpl; intuition discriminate). rewrite !A4 in B2, B3 by discriminate.
      split; auto. intros G. rewrite B3 by auto. apply A4; discriminate.
  - intros k Hk. rewrite T, B4, A4 by (intros X; apply Hk; subst; simpl; auto 20). apply K0.
    intros X. apply Hk. simpl in *. tauto.
Qed.
Print Assumptions nmea_position.

Example nmea_wind_reference_meets :
  postprocess_wind [("Wind angle", num 30); ("Reference", Some (VStr "R")); ("Wind speed", num 12); ("Status", Some (VStr "A"))] =
  [("Status", Some (VStr "A")); ("AWA", num 30); ("AWS", num 12)].
Proof. reflexivity. Qed.

Example nmea_position_meets :
  postprocess (fun s => if String.eqb s "4807.038" then Some (4807038 # 1000) else None)
    [("Latitude", Some (VStr "4807.038")); ("Status", Some (VStr "A")); ("Timestamp", Some (VStr "123519.000000"))] =
  Ok [("Status", Some (VStr "A")); ("Timestamp", Some (VTime 45319000000)); ("lat", Some (VFloat (inject_Z 48 + ((4807038 # 1000) - 100 * inject_Z 48) / 60)))].
Proof. reflexivity. Qed.

(** The NMEA attributes read for the wanted key: those the wind, the position, the speed and the moment are
    computed from, and the attribute with that name otherwise. *)
Inductive nmea_attribute : string -> string -> Prop :=
| WindSpeedOf : forall k, In k ["TWS"; "AWS"] -> nmea_attribute k "Wind speed"
| WindAngleOf : forall k, In k ["TWA"; "AWA"] -> nmea_attribute k "Wind angle"
| ReferenceOf : forall k, In k ["TWS"; "AWS"; "TWA"; "AWA"] -> nmea_attribute k "Reference"
| PositionOf : forall k a, In (k, a) [("lat", "Latitude"); ("lon", "Longitude")] -> nmea_attribute k a
| SpeedOf : nmea_attribute "SOG" "Speed Over Ground"
| MomentOf : forall k a, In (k, a) [("date", "Datestamp"); ("time", "Timestamp")] -> nmea_attribute k a
| NamedOf : forall k, ~ In k ["TWS"; "AWS"; "TWA"; "AWA"; "lat"; "lon"; "SOG"; "date"; "time"] -> nmea_attribute k k.

Lemma nmea_attribute_iff : forall k field, nmea_attribute k field <->
  match dget k hrosailing_to_nmea with Some l => In field l | None => field = k end.
Proof.
  intros k field. destruct (in_dec string_dec k ["TWS"; "AWS"; "TWA"; "AWA"; "lat"; "lon"; "SOG"; "date"; "time"]) as [I|I].
  - cbn [In] in I. repeat match goal with H : _ \/ _ |- _ => destruct H as [<-|H] end; [..|destruct I]; cbn [dget hrosailing_to_nmea];
    (split; [intros Q; inversion Q; subst; cbn [In] in *;
      intuition (first [discriminate|congruence|left; congruence|right; left; congruence|auto])|]); cbn;
    intros Q; repeat match goal with H : _ \/ _ |- _ => destruct H as [<-|H] end; try contradiction;
    first [apply WindSpeedOf; cbn; tauto|apply WindAngleOf; cbn; tauto|apply ReferenceOf; cbn; tauto|apply PositionOf; cbn; tauto|
           apply SpeedOf|apply MomentOf; cbn; tauto].
  - assert (dget k hrosailing_to_nmea = None) as ->.
    { apply dget_None. intros J. apply I. exact J. }
    split.
    + intros H. inversion H; subst; auto; exfalso; apply I; cbn [In] in *; intuition (try congruence; auto 20).
    + intros ->. apply NamedOf. exact I.
Qed.

(** C90: which sentences and attributes are read. *)
Theorem nmea_filters : forall wanted unwanted,
  (forall field, attribute_filter wanted unwanted field = true <->
    match wanted, unwanted with
    | Some w, _ => exists k, In k w /\ nmea_attribute k field
    | None, Some u => ~ In field u
    | None, None => True
    end) /\
  (forall line, sentence_filter wanted unwanted line = true <->
    match wanted, unwanted with
    | Some w, _ => exists s a b, In s w /\ line = (a ++ s ++ b)%string
    | None, Some u => forall s a b, In s u -> line <> (a ++ s ++ b)%string
    | None, None => True
    end).
Proof.
  assert (forall s line, substring_of s line = true <-> exists a b, line = (a ++ s ++ b)%string) as SUB.
  { intros s line. assert (forall s l, String.prefix s l = true <-> exists b, l = (s ++ b)%string) as PRE.
    { clear. induction s as [|c s IH]; intros l.
      - destruct l; simpl; split; intros; eauto.
      - destruct l as [|c' l]; simpl.
        + split; [discriminate|]. intros [b E]. discriminate.
        + destruct (ascii_dec c c') as [->|NE].
          * rewrite IH. split; intros [b E]; exists b; [subst; auto|injection E; auto].
          * split; [discriminate|]. intros [b E]. injection E as E _. congruence. }
    induction line as [|c line IH]; cbn [substring_of].
    - rewrite orb_false_r, PRE. split.
      + intros [b E]. exists ""%string, b. auto.
      + intros [a [b E]]. destruct a; [|discriminate]. exists b. auto.
    - rewrite orb_true_iff, PRE, IH. split.
      + intros [[b E]|[a [b E]]]; [exists ""%string, b; auto|exists (String c a), b; simpl; congruence].
      + intros [a [b E]]. destruct a as [|c' a]; [left; exists b; auto|].
        right. injection E as E1 E2. exists a, b. auto. }
  intros wanted unwanted. split.
  - intros field. unfold attribute_filter. destruct wanted as [w|]; [|destruct unwanted as [u|]].
    + rewrite existsb_exists. split.
      * intros [x [I E]]. apply String.eqb_eq in E. subst x. apply in_concat in I. destruct I as [l [Il Ix]].
        apply in_map_iff in Il. destruct Il as [k [El Ik]]. exists k. split; auto.
        apply nmea_attribute_iff. destruct (dget k hrosailing_to_nmea); subst l; auto. destruct Ix as [->|[]]; auto.
      * intros [k [Ik E]]. apply nmea_attribute_iff in E. exists field. split; [|apply String.eqb_refl]. apply in_concat.
        exists (match dget k hrosailing_to_nmea with Some l => l | None => [k] end). split.
        -- apply in_map_iff. exists k. auto.
        -- destruct (dget k hrosailing_to_nmea); auto. subst. simpl; auto.
    + rewrite forallb_forall. split.
      * intros H I. specialize (H field I). rewrite String.eqb_refl in H. discriminate.
      * intros H a I. destruct (String.eqb_spec field a); auto. subst. contradiction.
    + tauto.
  - intros line. unfold sentence_filter. destruct wanted as [w|]; [|destruct unwanted as [u|]].
    + rewrite existsb_exists. split.
      * intros [s [I E]]. apply SUB in E. destruct E as [a [b E]]. eauto 6.
      * intros [s [a [b [I E]]]]. exists s. split; auto. apply SUB. eauto.
    + rewrite forallb_forall. split.
      * intros H s a b I E. specialize (H s I). rewrite (proj2 (SUB s line)) in H by eauto. discriminate.
      * intros H s I. destruct (substring_of s line) eqn:E; auto. apply SUB in E. destruct E as [a [b E]].
        exfalso. eapply H; eauto.
    + tauto.
Qed.
Print Assumptions nmea_filters.

(** [k] holds, in order, the members of [l] with the property. *)
Inductive picks {A} (P : A -> Prop) : list A -> list A -> Prop :=
| PickNil : picks P [] []
| PickYes : forall a l k, P a -> picks P l k -> picks P (a :: l) (a :: k)
| PickNo : forall a l k, ~ P a -> picks P l k -> picks P (a :: l) k.

Lemma picks_filter : forall A (P : A -> Prop) f l k, (forall a, f a = true <-> P a) -> picks P l k -> k = filter f l.
Proof.
  intros A P f l k F H. induction H as [|a l k Pa H IH|a l k Na H IH]; [reflexivity| |]; cbn [filter].
  - rewrite (proj2 (F a) Pa). congruence.
  - destruct (f a) eqn:E; [|exact IH]. apply F in E. contradiction.
Qed.

(** C90: reading a file with filters is reading the wanted sentences, with the wanted attributes
    only, without filters. *)
Theorem nmea_reads : forall parse_float parse parse' ws us wa ua post file kept,
  picks (fun line => match ws, us with
                     | Some w, _ => exists s a b, In s w /\ line = (a ++ s ++ b)%string
                     | None, Some u => forall s a b, In s u -> line <> (a ++ s ++ b)%string
                     | None, None => True
                     end) file kept ->
  (forall line, match parse line with
                | Raise e => parse' line = Raise e
                | Ok fields => exists k, parse' line = Ok k /\
                    picks (fun f : string * cell => match wa, ua with
                                    | Some w, _ => exists a, In a w /\ nmea_attribute a (fst f)
                                    | None, Some u => ~ In (fst f) u
                                    | None, None => True
                                    end) fields k
                end) ->
  nmea_handle parse_float parse ws us wa ua post file = nmea_handle parse_float parse' None None None None post kept.
Proof.
  intros parse_float parse parse' ws us wa ua post file kept PK PP. unfold nmea_handle.
  rewrite <- (picks_filter _ _ (sentence_filter ws us) _ _ (proj2 (nmea_filters ws us)) PK).
  assert (forall l : list string, filter (sentence_filter None None) l = l) as ID.
  { induction l as [|a l IH]; [reflexivity|]. cbn. rewrite IH. reflexivity. }
  rewrite ID. f_equal. clear PK. generalize empty_data as d. induction kept as [|s r IH]; intros d; [reflexivity|].
  cbn [nmea_loop]. specialize (PP s). destruct (parse s) as [fields|e]; [|rewrite PP; reflexivity].
  destruct PP as [k [-> PF]]. cbn [rbind].
  rewrite (picks_filter _ _ (fun f => attribute_filter wa ua (fst f)) _ _ (fun f => proj1 (nmea_filters wa ua) (fst f)) PF).
  assert (forall l : list (string * cell), filter (fun f => attribute_filter None None (fst f)) l = l) as ID2.
  { induction l as [|a l IHl]; [reflexivity|]. cbn [filter attribute_filter]. f_equal. exact IHl. }
  rewrite ID2. destruct (postprocess parse_float _) as [p|]; [|reflexivity]. cbn [rbind].
  destruct (finish _) as [d'|]; [|reflexivity]. cbn [rbind]. apply IH.
Qed.
Print Assumptions nmea_reads.

Example nmea_reads_meets :
  picks (fun line => exists s a b, In s ["MWV"] /\ line = (a ++ s ++ b)%string) ["$WIMWV"; "$GPRMC"] ["$WIMWV"] /\
  picks (fun f : string * cell => ~ In (fst f) ["b"]) [("a", num 1); ("b", num 2)] [("a", num 1)].
Proof.
  split.
  - apply PickYes; [exists "MWV", "$WI", ""; cbn; auto|]. apply PickNo; [|constructor].
    intros H. apply (proj2 (nmea_filters (Some ["MWV"]) None)) in H. vm_compute in H. discriminate H.
  - apply PickYes; [cbn; intuition discriminate|]. apply PickNo; [cbn; tauto|]. constructor.
Qed.

Definition mwv (ref : string) : list (string * cell) :=
  [("Wind angle", Some (VDecimal 30)); ("Reference", Some (VStr ref)); ("Wind speed", Some (VDecimal 12))].

(** C90, refuted part: when only the apparent wind speed is wanted, it is stored as the true
    wind speed (the angle needed for the conversion is filtered out). *)
Theorem nmea_wanted_attribute_refuted : exists d d2,
  nmea_handle no_parse (fun _ => Ok (mwv "R")) None None (Some ["AWS"]) None (Some [TFloat]) ["$WIMWV"] = Ok d /\
  get_col d "TWS" = Ok [num 12] /\ ~ In "AWS" (data_keys d) /\
  nmea_handle no_parse (fun _ => Ok (mwv "R")) None None None None (Some [TFloat]) ["$WIMWV"] = Ok d2 /\
  get_col d2 "AWS" = Ok [num 12] /\ ~ In "TWS" (data_keys d2).
Proof.
  exists (mkData [("TWS", [num 12])] [("TWS", Some TFloat)] 1).
  exists (mkData [("AWA", [num 30]); ("AWS", [num 12])] [("AWA", Some TFloat); ("AWS", Some TFloat)] 1).
  split; [vm_compute; reflexivity|]. split; [reflexivity|]. split; [simpl; intros [E|[]]; discriminate|].
  split; [vm_compute; reflexivity|]. split; [reflexivity|]. simpl; intros [E|[E|[]]]; discriminate.
Qed.
Print Assumptions nmea_wanted_attribute_refuted.
