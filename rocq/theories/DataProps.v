(** * Properties C07-C16 of [Data] and [WeightedPoints] *)

From Coq Require Import String.
From Coq Require Import List Bool Arith ZArith QArith Lia.
From Verif Require Import Py Dict DataModel DataSpec DataCheck WPointsModel WPointsSpec.
From Verif Require Import DataProofs DataProofs2 DataProofs3 DataProofs4 WPointsProofs.
Import ListNotations.
Open Scope string_scope.
Open Scope list_scope.
Open Scope nat_scope.

Definition num (z : Z) : cell := Some (VFloat (inject_Z z)).

(** A table with two rows and one missing value, used in the examples. *)
Definition boat : Data :=
  mkData [("TWS", [num 10; num 12]); ("BSP", [None; num 7])]
         [("TWS", Some TFloat); ("BSP", Some TFloat)] 2.

Lemma boat_wf : well_formed boat 2.
Proof. apply wfb_ok. reflexivity. Qed.

(* ================= C07 ================= *)

(** C07.  Updating a table of [n] rows with a dictionary whose entries fit the
    column types adds [added_rows items] rows: every column is the old column
    (None for a new key) followed by the given entries, filled up with None. *)
Theorem update_appends_rows : forall d n items,
  well_formed d n -> NoDup (dkeys items) ->
  (forall k u, In (k, u) items -> homogeneous (column_or_none d n k ++ cells_of u)) ->
  exists d', update d items false = (d', Ok tt) /\ updated d n items d'.
Proof. exact update_ok. Qed.
Print Assumptions update_appends_rows.

(** C07.  Otherwise the update raises ValueError. *)
Theorem update_rejects_mixed_types : forall d n items,
  well_formed d n -> NoDup (dkeys items) ->
  (exists k u, In (k, u) items /\ ~ homogeneous (column_or_none d n k ++ cells_of u)) ->
  exists d', update d items false = (d', Raise ValueError).
Proof. exact update_fail. Qed.
Print Assumptions update_rejects_mixed_types.

(** C07.  With [compress=True] and the last row empty in all given columns, the
    given entries start in that last row. *)
Theorem update_compress_reuses_last_row : forall d n items,
  well_formed d n -> NoDup (dkeys items) -> n > 0 ->
  (forall k u, In (k, u) items -> homogeneous (column_or_none d n k ++ cells_of u)) ->
  (forall k, In k (dkeys items) -> py_last (column_or_none d n k) = Ok None) ->
  exists d', update d items true = (d', Ok tt) /\ merged d n items d'.
Proof. exact update_compress_merge. Qed.
Print Assumptions update_compress_reuses_last_row.

(** C07.  [compress=True] makes no difference for an empty table or when some
    given column has a value in the last row. *)
Theorem update_compress_otherwise_appends : forall d n items,
  well_formed d n -> NoDup (dkeys items) ->
  (n = 0 \/ exists k v, In k (dkeys items) /\ py_last (column_or_none d n k) = Ok (Some v)) ->
  update d items true = update d items false.
Proof. exact update_compress_append. Qed.
Print Assumptions update_compress_otherwise_appends.

Example update_example :
  let items := [("BSP", UList [num 8; num 9]); ("TWA", UOne (num 45))] in
  NoDup (dkeys items) /\
  (forall k u, In (k, u) items -> homogeneous (column_or_none boat 2 k ++ cells_of u)) /\
  update boat items false =
    (mkData [("TWS", [num 10; num 12; None; None]);
             ("BSP", [None; num 7; num 8; num 9]);
             ("TWA", [None; None; num 45; None])]
            [("TWS", Some TFloat); ("BSP", Some TFloat); ("TWA", Some TFloat)] 4, Ok tt).
Proof.
  simpl. split; [|split].
  - repeat constructor; simpl; intuition discriminate.
  - intros k u [H|[H|[]]]; inversion H; subst; apply (homogeneous_check TFloat); reflexivity.
  - reflexivity.
Qed.

Example update_reject_example :
  update boat [("BSP", UList [Some (VStr "fast")])] false =
  (boat, Raise ValueError).
Proof. reflexivity. Qed.

Example update_compress_example :
  update boat [("TWA", UOne (num 45))] true =
  (mkData [("TWS", [num 10; num 12]); ("BSP", [None; num 7]); ("TWA", [None; num 45])]
          [("TWS", Some TFloat); ("BSP", Some TFloat); ("TWA", Some TFloat)] 2, Ok tt).
Proof. reflexivity. Qed.

(* ================= C08 ================= *)

(** C08.  Concatenation stacks the rows. *)
Theorem concatenate_stacks_rows : forall ds,
  (forall dn, In dn ds -> well_formed (fst dn) (snd dn) /\ (cols (fst dn) <> [] \/ snd dn = 0)) ->
  (forall k, homogeneous (stacked ds k)) ->
  exists d', concatenate (map fst ds) = Ok d' /\
    well_formed d' (total_rows ds) /\
    (forall k, In k (data_keys d') <-> exists dn, In dn ds /\ In k (data_keys (fst dn))) /\
    (forall k, In k (data_keys d') -> get_col d' k = Ok (stacked ds k)).
Proof. exact concatenate_ok. Qed.
Print Assumptions concatenate_stacks_rows.

Example concatenate_example :
  let other := mkData [("TWA", [num 45]); ("TWS", [num 9])]
                      [("TWA", Some TFloat); ("TWS", Some TFloat)] 1 in
  concatenate [boat; other] =
  Ok (mkData [("TWS", [num 10; num 12; num 9]); ("BSP", [None; num 7; None]);
              ("TWA", [None; None; num 45])]
             [("TWS", Some TFloat); ("BSP", Some TFloat); ("TWA", Some TFloat)] 3).
Proof. reflexivity. Qed.

Example concatenate_hypotheses : 
  (forall dn, In dn [(boat, 2); (boat, 2)] ->
     well_formed (fst dn) (snd dn) /\ (cols (fst dn) <> [] \/ snd dn = 0)) /\
  (forall k, homogeneous (stacked [(boat, 2); (boat, 2)] k)).
Proof.
  split.
  - intros dn [<-|[<-|[]]]; (split; [apply boat_wf|left; discriminate]).
  - intros k. apply (homogeneous_check TFloat). unfold stacked, column_or_none.
    cbn [dget cols boat]. destruct (String.eqb _ _); [reflexivity|].
    destruct (String.eqb _ _); reflexivity.
Qed.

(* ================= C09 ================= *)

(** C09.  After any sequence of operations on a new object, failed ones
    included, every column holds None and values of its recorded type only. *)
Theorem columns_stay_homogeneous : forall ops, typed (fold_left run_op ops empty_data).
Proof. exact typed_history. Qed.
Print Assumptions columns_stay_homogeneous.

Example history_example :
  fold_left run_op
    [OUpdate [("a", UList [num 1; num 2]); ("b", UOne (Some (VStr "x")))] false;
     OUpdate [("b", UOne (num 3))] false (* raises *);
     ORename "a" "c"; ODeleteRows [0%Z]] empty_data
  = mkData [("b", [None]); ("c", [num 2])] [("b", Some TStr); ("c", Some TFloat)] 1.
Proof. reflexivity. Qed.

(* ================= C10 ================= *)

(** C10, first half (partial: [update] is not covered, see the refutation).
    A rejected [extend] or [append] changes nothing. *)
Theorem extend_rejected_changes_nothing_partial : forall d k l d' e,
  extend d k l = (d', Raise e) -> d' = d.
Proof. exact extend_atomic. Qed.
Print Assumptions extend_rejected_changes_nothing_partial.

Example extend_rejected_example :
  extend boat "TWS" [Some (VInt 3)] = (boat, Raise ValueError).
Proof. reflexivity. Qed.

(** C10 refuted for [update]: a rejected update can leave columns of different
    lengths and a grown row count behind, so that reading rows fails. *)
Theorem update_rejected_refuted : exists d n items d',
  well_formed d n /\ NoDup (dkeys items) /\
  update d items false = (d', Raise ValueError) /\
  ~ same_view d d' /\ (forall m, ~ rectangular d' m) /\ rows d' = Raise IndexError.
Proof.
  exists boat, 2, [("BSP", UOne (num 8)); ("TWS", UOne (Some (VInt 3)))],
    (fst (update boat [("BSP", UOne (num 8)); ("TWS", UOne (Some (VInt 3)))] false)).
  split; [apply boat_wf|]. split; [repeat constructor; simpl; intuition discriminate|].
  split; [vm_compute; reflexivity|].
  match goal with |- context [fst ?u] => let v := eval vm_compute in (fst u) in
    replace (fst u) with v by (vm_compute; reflexivity) end.
  split; [|split; [|reflexivity]].
  - intros [_ [H _]]. discriminate.
  - intros m [_ H]. pose proof (H "BSP" _ eq_refl) as H1. pose proof (H "TWS" _ eq_refl) as H2.
    cbn [length] in H1, H2. lia.
Qed.
Print Assumptions update_rejected_refuted.

(* ================= C11 ================= *)

(** C11.  Deleting rows keeps exactly the other rows in order, in every column. *)
Theorem delete_rows_keeps_the_others : forall d n idx, well_formed d n ->
  data_keys (delete_rows d idx) = data_keys d /\
  forall k col, get_col d k = Ok col ->
    get_col (delete_rows d idx) k = Ok (map (fun i => nth i col None) (surviving n idx)).
Proof. exact delete_rows_cols. Qed.
Print Assumptions delete_rows_keeps_the_others.

(** C11 (partial: for distinct row numbers of the table only).  The result is
    a table with [n - length idx] rows. *)
Theorem delete_rows_row_count_partial : forall d n idx, well_formed d n -> NoDup idx ->
  (forall i, In i idx -> (0 <= i < Z.of_nat n)%Z) ->
  well_formed (delete_rows d idx) (n - length idx).
Proof. exact delete_rows_wf. Qed.
Print Assumptions delete_rows_row_count_partial.

Example delete_rows_example :
  delete_rows boat [1%Z] =
  mkData [("TWS", [num 10]); ("BSP", [None])] [("TWS", Some TFloat); ("BSP", Some TFloat)] 1.
Proof. reflexivity. Qed.

(** C11 refuted: a row number listed twice is subtracted twice from n_rows. *)
Theorem delete_rows_row_count_refuted : exists d n idx,
  well_formed d n /\ (forall i, In i idx -> (0 <= i < Z.of_nat n)%Z) /\
  n_rows (delete_rows d idx) <> Z.of_nat (length (surviving n idx)).
Proof.
  exists boat, 2, [0%Z; 0%Z]. split; [apply boat_wf|]. split.
  - intros i [<-|[<-|[]]]; lia.
  - discriminate.
Qed.
Print Assumptions delete_rows_row_count_refuted.

(* ================= C12 ================= *)

(** C12.  strip("cols") removes exactly the columns without a value. *)
Theorem strip_cols_removes_empty_columns : forall d k col, typed d ->
  (dget k (cols (strip_cols d)) = Some col <->
   dget k (cols d) = Some col /\ exists v, In (Some v) col).
Proof. exact strip_cols_exact. Qed.
Print Assumptions strip_cols_removes_empty_columns.

(** C12 (partial: some row [a]..[b] holds a value; n_rows is not adapted).
    strip("rows") cuts off exactly the empty rows before the first and after
    the last non-empty row. *)
Theorem strip_rows_cuts_empty_rows_partial : forall d n a b fuel,
  well_formed d n -> a <= b -> b < n ->
  ~ empty_row d a -> ~ empty_row d b ->
  (forall i, i < a -> empty_row d i) -> (forall i, b < i < n -> empty_row d i) ->
  n < fuel ->
  exists d', strip_rows fuel d = (d', Ok tt) /\ data_keys d' = data_keys d /\
    n_rows d' = n_rows d /\
    forall k col, get_col d k = Ok col ->
      get_col d' k = Ok (firstn (S b - a) (skipn a col)).
Proof. exact strip_rows_ok. Qed.
Print Assumptions strip_rows_cuts_empty_rows_partial.

Definition gaps : Data :=
  mkData [("a", [None; num 1; None; num 2; None]); ("b", [None; None; num 5; None; None])]
         [("a", Some TFloat); ("b", Some TFloat)] 5.

Example strip_rows_example :
  fst (strip_rows 6 gaps) =
  mkData [("a", [num 1; None; num 2]); ("b", [None; num 5; None])]
         [("a", Some TFloat); ("b", Some TFloat)] 5.
Proof. reflexivity. Qed.

Example strip_rows_hypotheses :
  ~ empty_row gaps 1 /\ ~ empty_row gaps 3 /\ empty_row gaps 0 /\ empty_row gaps 4.
Proof.
  split; [|split; [|split]].
  - intros H. specialize (H "a" _ eq_refl). discriminate.
  - intros H. specialize (H "a" _ eq_refl). discriminate.
  - apply emptyb_ok. reflexivity.
  - apply emptyb_ok. reflexivity.
Qed.

(** C12 refuted: after strip("rows") n_rows is not the number of rows. *)
Theorem strip_rows_row_count_refuted : exists d n d',
  rectangular d n /\ strip_rows (S n) d = (d', Ok tt) /\ forall m, ~ rectangular d' m.
Proof.
  exists gaps, 5. eexists. split; [|split; [reflexivity|]].
  - apply wfb_ok. reflexivity.
  - intros m [H1 H2]. pose proof (H2 "a" _ eq_refl). unfold n_rows in H1. simpl in *. lia.
Qed.
Print Assumptions strip_rows_row_count_refuted.

(** C12 refuted: strip("rows") on an object without columns does not end, and
    strip("all") does not end on a table that holds no value at all. *)
Theorem strip_terminates_refuted :
  (forall fuel, snd (strip_rows fuel empty_data) = Raise OutOfFuel) /\
  (exists d, well_formed d 1 /\ forall fuel, snd (strip_all fuel d) = Raise OutOfFuel).
Proof.
  split.
  - intros. unfold empty_data. rewrite strip_rows_no_columns. reflexivity.
  - exists (mkData [("a", [None])] [("a", None)] 1). split.
    + apply wfb_ok. reflexivity.
    + intros fuel. unfold strip_all, strip_cols. simpl. rewrite strip_rows_no_columns. reflexivity.
Qed.
Print Assumptions strip_terminates_refuted.

(** C12.  strip("rows") on a table without any value raises IndexError. *)
Theorem strip_rows_empty_table_raises : forall d n fuel, well_formed d n -> cols d <> [] ->
  (forall i, i < n -> empty_row d i) -> n < fuel ->
  strip_rows fuel d = (d, Raise IndexError).
Proof. exact strip_rows_all_empty. Qed.
Print Assumptions strip_rows_empty_table_raises.

(* ================= C13 ================= *)

(** C13.  Renaming moves the column to the end under its new key and keeps
    entries, type and all other columns. *)
Theorem rename_only_changes_the_key : forall d a b,
  typed d -> a <> b -> In a (data_keys d) -> ~ In b (data_keys d) ->
  exists d', rename d a b = (d', Ok tt) /\ typed d' /\
    data_keys d' = filter (fun k => negb (String.eqb k a)) (data_keys d) ++ [b] /\
    n_rows d' = n_rows d /\
    dget b (cols d') = dget a (cols d) /\ dget b (types d') = dget a (types d) /\
    (forall k, k <> a -> k <> b ->
       dget k (cols d') = dget k (cols d) /\ dget k (types d') = dget k (types d)).
Proof. exact rename_ok. Qed.
Print Assumptions rename_only_changes_the_key.

(** C13.  A used new key raises ValueError, an unknown old key KeyError, and
    nothing changes; renaming to the same key does nothing. *)
Theorem rename_rejects : forall d a b, a <> b ->
  (In b (data_keys d) -> rename d a b = (d, Raise ValueError)) /\
  (~ In a (data_keys d) -> ~ In b (data_keys d) -> rename d a b = (d, Raise KeyError)) /\
  rename d a a = (d, Ok tt).
Proof.
  intros d a b H. split; [|split].
  - exact (rename_taken d a b H).
  - exact (rename_missing d a b H).
  - exact (rename_same d a).
Qed.
Print Assumptions rename_rejects.

Example rename_example :
  rename boat "TWS" "wind" =
  (mkData [("BSP", [None; num 7]); ("wind", [num 10; num 12])]
          [("BSP", Some TFloat); ("wind", Some TFloat)] 2, Ok tt) /\
  rename boat "TWS" "BSP" = (boat, Raise ValueError).
Proof. split; reflexivity. Qed.

(* ================= C14 ================= *)

(** C14.  The standard key of a standard key is itself. *)
Theorem standard_key_stable : forall k s, get_standard_key k = Ok s -> get_standard_key s = Ok s.
Proof. exact standard_key_idempotent. Qed.
Print Assumptions standard_key_stable.

Example standard_key_examples :
  get_standard_key "Wind_Speed" = Ok "TWS" /\ get_standard_key "boat speeds" = Ok "BSP" /\
  get_standard_key "AWS" = Ok "AWS" /\ get_standard_key "heel" = Ok "heel".
Proof. vm_compute. auto. Qed.

(** C14.  The search for a free key ends and finds the first free one. *)
Theorem free_key_search_ends : forall keys b,
  exists j, free_key (S (S (length keys))) keys b b 0 = Ok (candidate b j) /\
    ~ In (candidate b j) keys /\ forall l, l < j -> In (candidate b l) keys.
Proof. exact free_key_total. Qed.
Print Assumptions free_key_search_ends.

(** C14.  The key standardisation renames the columns injectively, keeps all
    entries, and leaves columns alone whose key is standard. *)
Theorem standard_keys_lose_nothing : forall d, typed d ->
  (forall k, In k (data_keys d) -> exists s, get_standard_key k = Ok s) ->
  exists d' f, standard_keys_loop d (data_keys d) = (d', Ok tt) /\ typed d' /\
    renamed_by f d d' /\
    (forall k, In k (data_keys d) -> standard_name k (f k)) /\
    (forall k, In k (data_keys d) -> get_standard_key k = Ok k -> f k = k).
Proof.
  intros d T H. destruct (standard_loop_ok (data_keys d) d T) as [d' [f [E [T' [R [N [I _]]]]]]].
  - apply T.
  - auto.
  - exists d', f. auto.
Qed.
Print Assumptions standard_keys_lose_nothing.

(** C14 (partial: no date column).  The whole standardisation succeeds, keeps
    the row count, only renames columns and converts those whose values all
    denote numbers. *)
Theorem standard_format_partial : forall pf d n, well_formed d n ->
  (forall k, In k (data_keys d) -> exists s, get_standard_key k = Ok s) ->
  (forall k, In k (data_keys d) -> get_standard_key k <> Ok "date") ->
  exists d' f, hrosailing_standard_format pf d = (d', Ok tt) /\ well_formed d' n /\
    (forall k1 k2, In k1 (data_keys d) -> In k2 (data_keys d) -> f k1 = f k2 -> k1 = k2) /\
    (forall k, In k (data_keys d') <-> exists k0, In k0 (data_keys d) /\ f k0 = k) /\
    (forall k, In k (data_keys d) -> standard_name k (f k)) /\
    (forall k t c, dget k (types d) = Some t -> get_col d k = Ok c ->
       exists c', get_col d' (f k) = Ok c' /\ converted pf t c c').
Proof.
  intros pf d n W H1 H2.
  destruct (standard_format_ok pf d n W H1 H2) as [d' [f [A [B [C [D [E F]]]]]]].
  exists d', f. repeat (split; [assumption|]). intros k t c Ht Hc.
  exists (cast_column pf t c). split; auto. apply cast_column_converted.
Qed.
Print Assumptions standard_format_partial.

(** C14.  A date and a time column are joined to a datetime column row by row. *)
Theorem datetime_joined : forall d n ds ts, well_formed d n ->
  get_col d "date" = Ok ds -> get_col d "time" = Ok ts ->
  date_column ds -> time_column ts -> ~ In "datetime" (data_keys d) ->
  exists d', aggregate_datetime d = (d', Ok tt) /\ well_formed d' n /\
    (forall k, In k (data_keys d') <-> k = "datetime" \/
               (In k (data_keys d) /\ k <> "date" /\ k <> "time")) /\
    get_col d' "datetime" = Ok (map (fun p => moment (fst p) (snd p)) (combine ds ts)) /\
    (forall k, In k (data_keys d) -> k <> "date" -> k <> "time" -> get_col d' k = get_col d k).
Proof. exact aggregate_ok. Qed.
Print Assumptions datetime_joined.

Definition log_data : Data :=
  mkData [("Date", [Some (VDate 5); None]); ("ws", [Some (VStr "3"); Some (VStr "4")]);
          ("time", [Some (VTime 7); Some (VTime 8)]); ("tws", [Some (VInt 1); None])]
         [("Date", Some TDate); ("ws", Some TStr); ("time", Some TTime); ("tws", Some TInt)] 2.

Example standard_format_example :
  hrosailing_standard_format (fun s => if String.eqb s "3" then Some (inject_Z 3) else None) log_data =
  (mkData [("TWS", [Some (VStr "3"); Some (VStr "4")]);
           ("TWS(Control value 1)", [num 1; None]);
           ("datetime", [Some (VDatetime 432000000007); None])]
          [("TWS", Some TStr); ("TWS(Control value 1)", Some TFloat); ("datetime", Some TDatetime)] 2,
   Ok tt).
Proof. vm_compute. reflexivity. Qed.

(** C14 refuted: a key that consists of separators only raises IndexError, and
    date and time columns beside an existing datetime column yield columns of
    different lengths. *)
Theorem standard_format_refuted :
  (exists d, well_formed d 1 /\ forall pf, snd (hrosailing_standard_format pf d) = Raise IndexError) /\
  (exists d, rectangular d 1 /\ typed d /\
     forall pf m, ~ rectangular (fst (hrosailing_standard_format pf d)) m).
Proof.
  split.
  - exists (mkData [("_", [num 1])] [("_", Some TFloat)] 1). split; [|reflexivity].
    apply wfb_ok. reflexivity.
  - exists (mkData [("date", [Some (VDate 5)]); ("time", [Some (VTime 7)]);
                    ("datetime", [Some (VDatetime 1)]); ("BSP", [num 1])]
                   [("date", Some TDate); ("time", Some TTime); ("datetime", Some TDatetime);
                    ("BSP", Some TFloat)] 1).
    split; [|split].
    + apply (wfb_ok _ 1). reflexivity.
    + apply typedb_ok. reflexivity.
    + intros pf m [_ H].
      assert (cols (fst (hrosailing_standard_format pf
        (mkData [("date", [Some (VDate 5)]); ("time", [Some (VTime 7)]);
                    ("datetime", [Some (VDatetime 1)]); ("BSP", [num 1])]
                   [("date", Some TDate); ("time", Some TTime); ("datetime", Some TDatetime);
                    ("BSP", Some TFloat)] 1))) =
        [("datetime", [Some (VDatetime 1); Some (VDatetime 432000000007)]); ("BSP", [num 1])]) as E.
      { vm_compute. reflexivity. }
      rewrite E in H. clear E. pose proof (H "datetime" _ eq_refl) as H1. pose proof (H "BSP" _ eq_refl) as H2.
      cbn [length] in H1, H2. lia.
Qed.
Print Assumptions standard_format_refuted.

(* ================= C15 ================= *)

(** C15.  A row mask keeps exactly the rows with a true entry, in order. *)
Theorem mask_keeps_marked_rows : forall d n m, well_formed d n -> length m = n -> cols d <> [] ->
  well_formed (mask_rows d m) (count_true m) /\ data_keys (mask_rows d m) = data_keys d /\
  forall k col, get_col d k = Ok col ->
    get_col (mask_rows d m) k = Ok (map fst (filter snd (combine col m))).
Proof. exact mask_rows_ok. Qed.
Print Assumptions mask_keeps_marked_rows.

(** C15.  A column slice keeps exactly the named columns. *)
Theorem slice_keeps_named_columns : forall d n ks, well_formed d n ->
  (exists k, In k ks /\ In k (data_keys d)) ->
  well_formed (get_slice d ks) n /\
  data_keys (get_slice d ks) = filter (fun k => smem k ks) (data_keys d) /\
  forall k, In k (data_keys d) ->
    get_col (get_slice d ks) k = if smem k ks then get_col d k else Raise KeyError.
Proof. exact get_slice_ok. Qed.
Print Assumptions slice_keeps_named_columns.

(** C15.  Selecting rows and columns commutes. *)
Theorem mask_and_slice_commute : forall d m ks,
  get_slice (mask_rows d m) ks = mask_rows (get_slice d ks) m.
Proof. exact mask_slice_commute. Qed.
Print Assumptions mask_and_slice_commute.

(** C15.  [data[i]] is the dictionary of the i-th entries; negative indices
    count from the end; an index beyond the table raises IndexError. *)
Theorem row_access : forall d n i, well_formed d n ->
  (i < n -> exists r, get_row d (Z.of_nat i) = Ok r /\ dkeys r = data_keys d /\
     forall k col, get_col d k = Ok col -> dget k r = Some (nth i col None)) /\
  (0 < i <= n -> get_row d (- Z.of_nat i) = get_row d (Z.of_nat (n - i))) /\
  (n <= i -> cols d <> [] -> get_row d (Z.of_nat i) = Raise IndexError).
Proof.
  intros d n i W. split; [|split].
  - exact (get_row_ok d n i W).
  - exact (get_row_negative d n i W).
  - intros H1 H2. exact (get_row_out d n i W H2 H1).
Qed.
Print Assumptions row_access.

(** C15.  Iterating yields the rows 0 .. n-1. *)
Theorem iteration_yields_rows : forall d n, well_formed d n ->
  exists rs, rows d = Ok rs /\ length rs = n /\
    forall i r, nth_error rs i = Some r -> get_row d (Z.of_nat i) = Ok r.
Proof. exact rows_ok. Qed.
Print Assumptions iteration_yields_rows.

Example selection_example :
  mask_rows (get_slice gaps ["b"]) [false; true; true; false; true] =
  mkData [("b", [None; num 5; None])] [("b", Some TFloat)] 3 /\
  get_row boat 1 = Ok [("TWS", num 12); ("BSP", num 7)] /\
  rows boat = Ok [[("TWS", num 10); ("BSP", None)]; [("TWS", num 12); ("BSP", num 7)]].
Proof. repeat split. Qed.

(** C09/C15.  [filter_types] keeps exactly the columns of the listed types. *)
Theorem filter_types_exact : forall d tl, typed d ->
  exists d', filter_types d tl = (d', Ok tt) /\
    data_keys d' = filter (type_listed d tl) (data_keys d) /\
    n_rows d' = n_rows d /\
    forall k, In k (data_keys d') -> dget k (cols d') = dget k (cols d) /\
                                     dget k (types d') = dget k (types d).
Proof. exact filter_types_ok. Qed.
Print Assumptions filter_types_exact.

Example filter_types_example :
  data_keys (fst (filter_types log_data [TStr; TTime])) = ["ws"; "time"].
Proof. reflexivity. Qed.

(* ================= C16 ================= *)

(** C16.  A mask selects points and weights alike; a mask of another length
    raises IndexError. *)
Theorem weighted_mask : forall A V W (p : wpoints A V W) n m, aligned p n ->
  (length m = n -> (forall d, wdata p = PData d -> cols d <> []) ->
   exists q, wp_mask p m = Ok q /\ selected p m q /\ aligned q (count_true m)) /\
  (length m <> n -> wp_mask p m = Raise IndexError).
Proof.
  intros A V W p n m H. split.
  - exact (wp_mask_ok A V W p n m H).
  - exact (wp_mask_wrong_length A V W p n m H).
Qed.
Print Assumptions weighted_mask.

(** C16.  Extending appends points and weights alike. *)
Theorem weighted_extend : forall A V W (p q : wpoints A V W) n m,
  aligned p n -> aligned q m -> same_kind (wdata p) (wdata q) ->
  exists r, wp_extend p q = Ok r /\ joined p n q m r /\ aligned r (n + m).
Proof. exact wp_extend_ok. Qed.
Print Assumptions weighted_extend.

(** C16 (partial: not for [Data] objects).  A number as weight is used for
    every point. *)
Theorem weighted_scalar_partial : forall A V W (data : pdata A V) (w : W) n, point_count data n ->
  match data with PDict [] => False | PData _ => False | _ => True end ->
  wp_new data (WScalar w) = Ok (mkWP data (repeat w n)).
Proof. exact wp_new_scalar. Qed.
Print Assumptions weighted_scalar_partial.

Example weighted_example :
  let p := mkWP (A:=nat) (V:=nat) (PArr [10; 11; 12]) [1; 2; 3] in
  let q := mkWP (PArr [20]) [9] in
  aligned p 3 /\ aligned q 1 /\
  wp_mask p [true; false; true] = Ok (mkWP (PArr [10; 12]) [1; 3]) /\
  wp_extend p q = Ok (mkWP (PArr [10; 11; 12; 20]) [1; 2; 3; 9]).
Proof. repeat split. Qed.

Example weighted_data_example :
  aligned (mkWP (A:=nat) (V:=nat) (PData boat) [1; 2]) 2 /\
  wp_mask (mkWP (A:=nat) (V:=nat) (PData boat) [1; 2]) [false; true] =
  Ok (mkWP (PData (mkData [("TWS", [num 12]); ("BSP", [num 7])]
                          [("TWS", Some TFloat); ("BSP", Some TFloat)] 1)) [2]).
Proof.
  split; [|reflexivity]. split; [|reflexivity]. split; [apply boat_wf|left; discriminate].
Qed.

(** C16 refuted: weights of another length are accepted silently, and a number
    as weight raises TypeError for a [Data] object. *)
Theorem weighted_points_refuted :
  (exists (p : wpoints nat nat nat), wp_new (PArr [1; 2]) (WList [5]) = Ok p /\
     forall n, ~ aligned p n) /\
  (exists d, well_formed d 2 /\
     @wp_new nat nat nat (PData d) (WScalar 1) = Raise TypeError).
Proof.
  split.
  - eexists. split; [reflexivity|]. intros n [H1 H2]. simpl in *. lia.
  - exists boat. split; [apply boat_wf|reflexivity].
Qed.
Print Assumptions weighted_points_refuted.
