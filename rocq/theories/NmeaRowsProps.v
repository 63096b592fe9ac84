(** * C146: the rows read from a file of NMEA sentences *)

From Coq Require Import String.
From Coq Require Import List Bool Arith ZArith QArith Lia.
From Verif Require Import Py Dict ListX DataModel DataSpec DataProofs DataProofs2 DataProofs3 DataProps HandlerModel HandlerProps.
Import ListNotations.
Open Scope string_scope.
Open Scope list_scope.
Open Scope nat_scope.

(* ---- what should be read ---- *)

(** The value of an attribute in a sentence or row, None if it is missing. *)
Definition value (r : dict cell) (k : string) : cell := match dget k r with Some c => c | None => None end.
(** The row has no value for any attribute of the sentence. *)
Definition free_for (r p : dict cell) : bool := forallb (fun k => is_none (value r k)) (dkeys p).
(** The rows of a sequence of sentences: a sentence is put into the current row if that is free for it, otherwise it
    starts the next row. *)
Fixpoint log_rows (current : option (dict cell)) (ps : list (dict cell)) : list (dict cell) :=
  match ps, current with
  | [], None => []
  | [], Some r => [r]
  | [] :: rest, None => log_rows None rest
  | p :: rest, None => log_rows (Some p) rest
  | p :: rest, Some r => if free_for r p then log_rows (Some (p ++ r)) rest else r :: log_rows (Some p) rest
  end.

Definition at_key (k : string) (rows : list (dict cell)) : list cell := map (fun r => value r k) rows.
Definition known (l : list cell) : list cell := filter (fun c => negb (is_none c)) l.

(* ---- one sentence ---- *)

Definition holds (d : Data) (rows : list (dict cell)) : Prop :=
  well_formed d (length rows) /\ (forall k, column_or_none d (length rows) k = at_key k rows).

Lemma items_keys : forall p : dict cell, dkeys (dmap UOne p) = dkeys p.
Proof. intros. apply dmap_keys. Qed.
Lemma items_added : forall p : dict cell, added_rows (dmap UOne p) = match p with [] => 0 | _ => 1 end.
Proof.
  assert (forall p : dict cell, added_rows (dmap UOne p) <= 1) as LE.
  { induction p as [|[k c] p IH]; [cbn; lia|]. change (added_rows (dmap UOne ((k, c) :: p))) with (Nat.max 1 (added_rows (dmap UOne p))). lia. }
  intros [|[k c] p]; [reflexivity|]. specialize (LE p). change (added_rows (dmap UOne ((k, c) :: p))) with (Nat.max 1 (added_rows (dmap UOne p))). lia.
Qed.
Lemma items_given : forall (p : dict cell) k, given (dmap UOne p) k = match dget k p with Some c => [c] | None => [] end.
Proof. intros. unfold given. rewrite dget_dmap. destruct (dget k p); reflexivity. Qed.
Lemma at_key_app : forall k a b, at_key k (a ++ b) = at_key k a ++ at_key k b.
Proof. intros. apply map_app. Qed.
Lemma at_key_length : forall k a, length (at_key k a) = length a.
Proof. intros. apply map_length. Qed.
Lemma value_app : forall p r k, value (p ++ r) k = match dget k p with Some c => c | None => value r k end.
Proof. intros. unfold value. rewrite dget_app. destruct (dget k p); reflexivity. Qed.

Definition types_agree (rows : list (dict cell)) (p : dict cell) : Prop := forall k c, In (k, c) p -> homogeneous (at_key k rows ++ [c]).

Lemma agree_items : forall d rows p, holds d rows -> types_agree rows p ->
  forall k u, In (k, u) (dmap UOne p) -> homogeneous (column_or_none d (length rows) k ++ cells_of u).
Proof.
  intros d rows p [W C] A k u I. unfold dmap in I. apply in_map_iff in I. destruct I as [[k0 c] [E I]]. injection E as <- <-. cbn [cells_of].
  rewrite C. apply A. auto.
Qed.

Lemma last_at : forall d done r k, holds d (done ++ [r]) -> py_last (column_or_none d (length (done ++ [r])) k) = Ok (value r k).
Proof.
  intros d done r k [W C]. rewrite C, at_key_app. cbn [at_key map]. unfold py_last. rewrite rev_unit. reflexivity.
Qed.

Lemma column_of : forall d n k, well_formed d n -> (~ In k (data_keys d) -> column_or_none d n k = repeat None n) /\
  (In k (data_keys d) -> get_col d k = Ok (column_or_none d n k)).
Proof.
  intros d n k W. unfold column_or_none, get_col. split.
  - intros NI. apply dget_None in NI. rewrite NI. reflexivity.
  - intros I. apply dget_In_key in I. destruct I as [c ->]. reflexivity.
Qed.
Lemma repeat_at : forall k (p : dict cell) n rows, ~ In k (dkeys p) -> at_key k rows = repeat None n -> value p k = None.
Proof. intros k p n rows NI _. unfold value. apply dget_None in NI. rewrite NI. reflexivity. Qed.

Lemma new_key_cases : forall (d d' : Data) (p : dict cell) k,
  data_keys d' = data_keys d ++ filter (fun k => negb (smem k (data_keys d))) (dkeys p) ->
  (In k (data_keys d') <-> In k (data_keys d) \/ In k (dkeys p)).
Proof.
  intros d d' p k ->. rewrite in_app_iff, filter_In. destruct (smem k (data_keys d)) eqn:E.
  - apply smem_In in E. tauto.
  - cbn. tauto.
Qed.

Lemma append_step : forall d rows p, holds d rows -> NoDup (dkeys p) -> types_agree rows p ->
  exists d', update d (dmap UOne p) false = (d', Ok tt) /\ holds d' (match p with [] => rows | _ => rows ++ [p] end) /\
    (forall k, In k (data_keys d') <-> In k (data_keys d) \/ In k (dkeys p)).
Proof.
  intros d rows p H ND A. pose proof H as [W C].
  destruct (update_appends_rows d (length rows) (dmap UOne p) W) as [d' [E [W' [K G]]]].
  { rewrite items_keys. exact ND. }
  { apply agree_items; auto. }
  rewrite items_keys in K. rewrite items_added in W', G. pose proof (fun k => new_key_cases d d' p k K) as KEYS.
  exists d'. split; [exact E|]. split; [|exact KEYS].
  assert (forall k, column_or_none d' (length rows + match p with [] => 0 | _ => 1 end) k =
    at_key k rows ++ pad_to (match p with [] => 0 | _ => 1 end) (given (dmap UOne p) k)) as CC.
  { intros k. destruct (column_of d' _ k W') as [N I]. destruct (in_dec string_dec k (data_keys d')) as [Ik|NIk].
    - specialize (I Ik). rewrite (G k Ik), C in I. injection I as I. symmetry. exact I.
    - rewrite (N NIk), items_given. rewrite KEYS in NIk. assert (dget k p = None) as -> by (apply dget_None; tauto).
      rewrite <- C. destruct (column_of d _ k W) as [N2 _]. rewrite N2 by tauto. unfold pad_to. cbn. rewrite repeat_app.
      rewrite Nat.sub_0_r. reflexivity. }
  destruct p as [|kc p].
  - rewrite Nat.add_0_r in *. split; [exact W'|]. intros k. rewrite CC. unfold pad_to. cbn. rewrite app_nil_r. reflexivity.
  - split; [rewrite app_length; exact W'|]. intros k. rewrite app_length. cbn [length]. rewrite CC, at_key_app. f_equal.
    rewrite items_given. unfold at_key. cbn [map]. unfold value. destruct (dget k (kc :: p)); reflexivity.
Qed.

Lemma sentence_step : forall d done r p, holds d (done ++ [r]) -> NoDup (dkeys p) -> types_agree (done ++ [r]) p ->
  exists d', update d (dmap UOne p) true = (d', Ok tt) /\
    holds d' (if free_for r p then done ++ [p ++ r] else (done ++ [r]) ++ [p]) /\
    (forall k, In k (data_keys d') <-> In k (data_keys d) \/ In k (dkeys p)).
Proof.
  intros d done r p H ND A. pose proof H as [W C]. destruct (free_for r p) eqn:EF.
  - assert (forall k, In k (dkeys p) -> value r k = None) as FR.
    { intros k I. unfold free_for in EF. rewrite forallb_forall in EF. specialize (EF k I). destruct (value r k); [discriminate|reflexivity]. }
    destruct (update_compress_reuses_last_row d (length (done ++ [r])) (dmap UOne p) W) as [d' [E [W' [K G]]]].
    { rewrite items_keys. exact ND. }
    { rewrite app_length. cbn. lia. }
    { apply agree_items; auto. }
    { rewrite items_keys. intros k I. rewrite (last_at d done r k H), FR; auto. }
    rewrite items_keys in K. pose proof (fun k => new_key_cases d d' p k K) as KEYS.
    assert (merged_rows (length (done ++ [r])) (dmap UOne p) = length (done ++ [p ++ r])) as EM.
    { unfold merged_rows. rewrite items_added, !app_length. cbn. destruct p; lia. }
    rewrite EM in W', G. exists d'. split; [exact E|]. split; [|exact KEYS]. split; [exact W'|].
    assert (forall k, (match dget k (dmap UOne p) with
       | Some u => firstn (length (done ++ [r]) - 1) (column_or_none d (length (done ++ [r])) k) ++ cells_of u
       | None => column_or_none d (length (done ++ [r])) k end) = at_key k (done ++ [p ++ r])) as AT.
    { intros k. rewrite C, dget_dmap, !at_key_app. change (at_key k [p ++ r]) with [value (p ++ r) k]. rewrite value_app.
      destruct (dget k p) as [c|]; cbn [option_map cells_of]; [|reflexivity].
      rewrite app_length. cbn [length]. rewrite Nat.add_sub, firstn_app, at_key_length, Nat.sub_diag, firstn_all2 by (rewrite at_key_length; lia).
      cbn. rewrite app_nil_r. reflexivity. }
    intros k. destruct (column_of d' _ k W') as [N I]. destruct (in_dec string_dec k (data_keys d')) as [Ik|NIk].
    + specialize (I Ik). rewrite (G k Ik), AT in I. injection I as <-. unfold pad_to. rewrite at_key_length, Nat.sub_diag. cbn. apply app_nil_r.
    + rewrite (N NIk). rewrite KEYS in NIk. rewrite <- AT, dget_dmap. assert (dget k p = None) as -> by (apply dget_None; tauto). cbn [option_map].
      destruct (column_of d _ k W) as [N2 _]. rewrite N2 by tauto. rewrite !app_length. reflexivity.
  - assert (exists k v, In k (dkeys p) /\ value r k = Some v) as [k [v [I V]]].
    { unfold free_for in EF. clear - EF. induction (dkeys p) as [|k ks IH]; [discriminate|]. cbn in EF.
      destruct (value r k) as [v|] eqn:E; [exists k, v; cbn; auto|]. cbn in EF. destruct (IH EF) as [k' [v [I V]]]. exists k', v. cbn. auto. }
    rewrite (update_compress_otherwise_appends d (length (done ++ [r]))); auto.
    2:{ rewrite items_keys. exact ND. }
    2:{ right. exists k, v. rewrite items_keys. split; auto. rewrite (last_at d done r k H), V. reflexivity. }
    destruct (append_step d (done ++ [r]) p H ND A) as [d' [E [H' KEYS]]]. exists d'. split; auto. split; auto.
    destruct p; [destruct I|exact H'].
Qed.

Lemma first_step : forall d p, holds d [] -> NoDup (dkeys p) -> types_agree [] p ->
  exists d', update d (dmap UOne p) true = (d', Ok tt) /\ holds d' (match p with [] => [] | _ => [p] end) /\
    (forall k, In k (data_keys d') <-> In k (data_keys d) \/ In k (dkeys p)).
Proof.
  intros d p H ND A. rewrite (update_compress_otherwise_appends d 0).
  - destruct (append_step d [] p H ND A) as [d' [E [H' K]]]. exists d'. auto.
  - apply H.
  - rewrite items_keys. exact ND.
  - auto.
Qed.

(* ---- all sentences ---- *)

Lemma known_app : forall a b, known (a ++ b) = known a ++ known b.
Proof. intros. apply filter_app. Qed.

Lemma log_some : forall r p ps, log_rows (Some r) (p :: ps) = if free_for r p then log_rows (Some (p ++ r)) ps else r :: log_rows (Some p) ps.
Proof. intros r [|kc p] ps; reflexivity. Qed.
Lemma merge_known : forall r p ps k, free_for r p = true -> known (at_key k ((p ++ r) :: ps)) = known (at_key k (r :: p :: ps)).
Proof.
  intros r p ps k EF. unfold at_key. cbn [map]. rewrite value_app. unfold known. cbn [filter].
  destruct (dget k p) as [c|] eqn:ED.
  - assert (value p k = c) as -> by (unfold value; rewrite ED; reflexivity).
    assert (value r k = None) as ->; [|reflexivity].
    unfold free_for in EF. rewrite forallb_forall in EF. assert (In k (dkeys p)) as I by (apply dget_In_key; eauto).
    specialize (EF k I). destruct (value r k); [discriminate|reflexivity].
  - assert (value p k = None) as -> by (unfold value; rewrite ED; reflexivity). reflexivity.
Qed.

(** C146.  No measured value is lost, doubled or moved: for each attribute the values in the rows are those of the
    sentences in order. *)
Theorem log_rows_keep_values : forall ps k, known (at_key k (log_rows None ps)) = known (at_key k ps).
Proof.
  assert (forall ps r k, known (at_key k (log_rows (Some r) ps)) = known (at_key k (r :: ps))) as S.
  { induction ps as [|p ps IH]; intros r k; [reflexivity|]. rewrite log_some. destruct (free_for r p) eqn:EF.
    - rewrite IH. apply merge_known. exact EF.
    - change (r :: log_rows (Some p) ps) with ([r] ++ log_rows (Some p) ps). change (r :: p :: ps) with ([r] ++ (p :: ps)).
      rewrite !at_key_app, !known_app, IH. reflexivity. }
  intros ps k. induction ps as [|p ps IH]; [reflexivity|]. destruct p as [|kc p]; [|apply S].
  cbn [log_rows]. rewrite IH. reflexivity.
Qed.
Print Assumptions log_rows_keep_values.

Lemma homogeneous_known : forall l l', known l = known l' -> homogeneous l -> homogeneous l'.
Proof.
  intros l l' E [t H]. exists t. intros v I. apply H.
  assert (In (Some v) (known l)) as IK by (rewrite E; apply filter_In; auto). apply filter_In in IK. tauto.
Qed.
Lemma homogeneous_part : forall a l b, homogeneous (a ++ l ++ b) -> homogeneous (a ++ l).
Proof. intros a l b [t H]. exists t. intros v I. apply H. rewrite !in_app_iff in *. tauto. Qed.
Lemma agree_from : forall rows p ps, NoDup (dkeys p) -> (forall k, homogeneous (at_key k (rows ++ p :: ps))) -> types_agree rows p.
Proof.
  intros rows p ps ND H k c I. apply (NoDup_dget _ k p c ND) in I. apply (homogeneous_part _ _ (at_key k ps)).
  specialize (H k). rewrite at_key_app in H. unfold at_key at 2 in H. cbn [map] in H.
  assert (value p k = c) as E by (unfold value; rewrite I; reflexivity). rewrite E in H. exact H.
Qed.

(** The dictionary that is made of a sentence. *)
Definition record_of (parse_float : string -> option Q) (parse : string -> result (list (string * cell))) (keep : string -> bool)
    (s : string) (p : dict cell) : Prop :=
  exists fields, parse s = Ok fields /\
    postprocess parse_float (fold_left (fun acc f => dset (fst f) (snd f) acc) (filter (fun f => keep (fst f)) fields) []) = Ok p.

Lemma fold_dset_NoDup : forall (l : list (string * cell)) acc, NoDup (dkeys acc) ->
  NoDup (dkeys (fold_left (fun acc f => dset (fst f) (snd f) acc) l acc)).
Proof. induction l as [|f l IH]; intros acc H; [exact H|]. cbn [fold_left]. apply IH. apply dset_NoDup. exact H. Qed.
Lemma postprocess_NoDup : forall pf p q, NoDup (dkeys p) -> postprocess pf p = Ok q -> NoDup (dkeys q).
Proof.
  intros pf p q ND E. unfold postprocess in E.
  assert (NoDup (dkeys (postprocess_wind p))) as W.
  { unfold postprocess_wind. destruct (dget "Wind angle" p); auto. destruct (dget "Reference" p) as [ref|]; auto. destruct (dget "Wind speed" p); auto.
    repeat apply ddel_NoDup. destruct ref as [[]|]; auto. destruct (String.eqb s "R"); [repeat apply dset_NoDup; auto|].
    destruct (String.eqb s "T"); [repeat apply dset_NoDup; auto|auto]. }
  assert (forall nm key a b, NoDup (dkeys a) -> postprocess_pos pf nm key a = Ok b -> NoDup (dkeys b)) as P.
  { intros nm key a b NA Eb. unfold postprocess_pos in Eb. destruct (dget nm a) as [v|]; [|injection Eb as <-; auto].
    destruct (from_nmea_format pf v); [|discriminate]. cbn [rbind] in Eb. injection Eb as <-. apply ddel_NoDup, dset_NoDup. auto. }
  destruct (postprocess_pos pf "Latitude" "lat" (postprocess_wind p)) as [p1|] eqn:E1; [|discriminate]. cbn [rbind] in E.
  destruct (postprocess_pos pf "Longitude" "lon" p1) as [p2|] eqn:E2; [|discriminate]. cbn [rbind] in E.
  assert (NoDup (dkeys p2)) as N2 by eauto.
  unfold postprocess_time in E. destruct (dget "Timestamp" p2) as [[[]|]|]; try (injection E as <-; auto).
  destruct (time_from_nmea_format s); [|discriminate]. cbn [rbind] in E. injection E as <-. apply dset_NoDup. auto.
Qed.
Lemma record_NoDup : forall pf parse keep s p, record_of pf parse keep s p -> NoDup (dkeys p).
Proof. intros pf parse keep s p [fields [_ E]]. eapply postprocess_NoDup; [|exact E]. apply fold_dset_NoDup. constructor. Qed.

Lemma keys_cons : forall A k (p : dict cell) ps, (A \/ In k (dkeys p)) \/ (exists q, In q ps /\ In k (dkeys q)) <-> A \/ exists q, In q (p :: ps) /\ In k (dkeys q).
Proof.
  intros A k p ps. split.
  - intros [[H|H]|[q [I H]]]; [left; exact H|right; exists p; cbn; auto|right; exists q; cbn; auto].
  - intros [H|[q [[->|I] H]]]; [auto|auto|right; exists q; auto].
Qed.

Lemma loop_some : forall pf parse keep sentences ps, Forall2 (record_of pf parse keep) sentences ps ->
  forall d done r, holds d (done ++ [r]) -> (forall k, homogeneous (at_key k ((done ++ [r]) ++ ps))) ->
  exists d', nmea_loop pf parse keep sentences d = Ok d' /\ holds d' (done ++ log_rows (Some r) ps) /\
    (forall k, In k (data_keys d') <-> In k (data_keys d) \/ exists p, In p ps /\ In k (dkeys p)).
Proof.
  intros pf parse keep sentences ps F. induction F as [|s p sentences ps RS F IH]; intros d done r H HO.
  - exists d. split; [reflexivity|]. split; [exact H|]. intros k. split; [auto|]. intros [I|[p [[] _]]]; auto.
  - cbn [nmea_loop]. pose proof (record_NoDup _ _ _ _ _ RS) as ND. destruct RS as [fields [EP EQ]]. rewrite EP. cbn [rbind]. rewrite EQ. cbn [rbind].
    destruct (sentence_step d done r p H ND (agree_from _ _ _ ND HO)) as [d1 [E1 [H1 K1]]]. rewrite E1. cbn [finish rbind].
    rewrite log_some. destruct (free_for r p) eqn:EF.
    + destruct (IH d1 done (p ++ r) H1) as [d' [E' [H' K']]].
      { intros k. apply (homogeneous_known (at_key k ((done ++ [r]) ++ p :: ps))); [|auto]. rewrite <- !app_assoc, !at_key_app, !known_app. f_equal.
        pose proof (merge_known r p ps k EF) as MK. rewrite <- !known_app, <- !at_key_app. cbn [app]. symmetry. exact MK. }
      exists d'. split; [exact E'|]. split; [exact H'|]. intros k. rewrite K', K1. apply keys_cons.
    + destruct (IH d1 (done ++ [r]) p H1) as [d' [E' [H' K']]].
      { intros k. specialize (HO k). rewrite <- app_assoc. exact HO. }
      exists d'. split; [exact E'|]. split; [rewrite <- app_assoc in H'; exact H'|]. intros k. rewrite K', K1. apply keys_cons.
Qed.

Lemma loop_none : forall pf parse keep sentences ps, Forall2 (record_of pf parse keep) sentences ps ->
  forall d, holds d [] -> (forall k, homogeneous (at_key k ps)) ->
  exists d', nmea_loop pf parse keep sentences d = Ok d' /\ holds d' (log_rows None ps) /\
    (forall k, In k (data_keys d') <-> In k (data_keys d) \/ exists p, In p ps /\ In k (dkeys p)).
Proof.
  intros pf parse keep sentences ps F. induction F as [|s p sentences ps RS F IH]; intros d H HO.
  - exists d. split; [reflexivity|]. split; [exact H|]. intros k. split; [auto|]. intros [I|[p [[] _]]]; auto.
  - cbn [nmea_loop]. pose proof (record_NoDup _ _ _ _ _ RS) as ND. destruct RS as [fields [EP EQ]]. rewrite EP. cbn [rbind]. rewrite EQ. cbn [rbind].
    destruct (first_step d p H ND (agree_from [] _ _ ND HO)) as [d1 [E1 [H1 K1]]]. rewrite E1. cbn [finish rbind].
    destruct p as [|kc p].
    + destruct (IH d1 H1) as [d' [E' [H' K']]].
      { intros k. apply (homogeneous_known (at_key k ([] :: ps))); [reflexivity|auto]. }
      exists d'. split; [exact E'|]. split; [exact H'|]. intros k. rewrite K', K1. apply keys_cons.
    + destruct (loop_some pf parse keep sentences ps F d1 [] (kc :: p) H1 HO) as [d' [E' [H' K']]].
      exists d'. split; [exact E'|]. split; [exact H'|]. intros k. rewrite K', K1. apply keys_cons.
Qed.

Lemma holds_empty : holds empty_data [].
Proof. split; [apply empty_wf|]. intros k. reflexivity. Qed.

(** C146.  The table read from the sentences has exactly these rows, and a column for every attribute of a sentence. *)
Theorem nmea_rows : forall pf parse keep sentences ps, Forall2 (record_of pf parse keep) sentences ps ->
  (forall k, homogeneous (at_key k ps)) ->
  exists d, nmea_loop pf parse keep sentences empty_data = Ok d /\ n_rows d = Z.of_nat (length (log_rows None ps)) /\
    (forall k, In k (data_keys d) <-> exists p, In p ps /\ In k (dkeys p)) /\
    (forall k, In k (data_keys d) -> get_col d k = Ok (at_key k (log_rows None ps))).
Proof.
  intros pf parse keep sentences ps F HO. destruct (loop_none pf parse keep sentences ps F empty_data holds_empty HO) as [d [E [[W C] K]]].
  exists d. split; [exact E|]. split; [apply W|]. split.
  - intros k. rewrite K. cbn. tauto.
  - intros k I. rewrite <- C. apply (column_of d _ k W). exact I.
Qed.
Print Assumptions nmea_rows.

(** C146.  The whole handler: the rows with standard keys and numbers as floats. *)
Theorem nmea_table : forall pf parse ws us wa ua file ps,
  Forall2 (record_of pf parse (attribute_filter wa ua)) (filter (sentence_filter ws us) file) ps ->
  (forall k, homogeneous (at_key k ps)) ->
  (forall p k, In p ps -> In k (dkeys p) -> (exists s, get_standard_key k = Ok s) /\ get_standard_key k <> Ok "date") ->
  exists d columns, nmea_handle pf parse ws us wa ua None file = Ok d /\
    (forall k c, In (k, c) columns <-> (exists p, In p ps /\ In k (dkeys p)) /\ c = at_key k (log_rows None ps)) /\
    read_as pf (length (log_rows None ps)) columns d.
Proof.
  intros pf parse ws us wa ua file ps F HO HK. destruct (loop_none pf parse _ _ ps F empty_data holds_empty HO) as [d [E [[W C] K]]].
  set (columns := map (fun k => (k, at_key k (log_rows None ps))) (data_keys d)).
  assert (forall k, In k (data_keys d) -> exists p, In p ps /\ In k (dkeys p)) as KK by (intros k I; apply K in I; destruct I as [[]|I]; auto).
  destruct (standard_format_partial pf d (length (log_rows None ps)) W) as [d' [f [E1 [W' [F1 [F2 [F3 F4]]]]]]].
  { intros k I. destruct (KK k I) as [p [I1 I2]]. apply (HK p k I1 I2). }
  { intros k I. destruct (KK k I) as [p [I1 I2]]. apply (HK p k I1 I2). }
  exists d', columns. split; [|split].
  - unfold nmea_handle. rewrite E. cbn [rbind]. rewrite E1. reflexivity.
  - intros k c. unfold columns. rewrite in_map_iff. split.
    + intros [k0 [EQ I]]. injection EQ as <- <-. split; auto.
    + intros [I ->]. exists k. split; auto. apply K. auto.
  - assert (map fst columns = data_keys d) as EK by (unfold columns; rewrite map_map; apply map_id).
    split; [exact W'|]. exists f. rewrite EK. split; auto. split; auto. split; auto. intros k c I.
    unfold columns in I. apply in_map_iff in I. destruct I as [k0 [EQ Ik]]. injection EQ as -> <-.
    destruct W as [T R]. destruct (typed_types_exist d k T Ik) as [t Ht].
    assert (get_col d k = Ok (at_key k (log_rows None ps))) as GC by (rewrite <- C; apply (column_of d _ k (conj T R)); exact Ik).
    destruct (F4 k t _ Ht GC) as [c' [E2 E3]]. exists t, c'. split; auto.
    unfold get_col in GC. destruct (dget k (cols d)) as [col|] eqn:EC; [|discriminate]. injection GC as ->.
    destruct T as [_ [_ T]]. destruct (T k _ EC) as [t' [E4 E5]]. rewrite E4 in Ht. injection Ht as <-. exact E5.
Qed.
Print Assumptions nmea_table.

(* ---- values of different classes ---- *)

Lemma update_compress_fail : forall d n items, well_formed d n -> NoDup (dkeys items) -> n > 0 ->
  (exists k u, In (k, u) items /\ ~ homogeneous (column_or_none d n k ++ cells_of u)) ->
  (forall k, In k (dkeys items) -> py_last (column_or_none d n k) = Ok None) ->
  exists d', update d items true = (d', Raise ValueError).
Proof.
  intros d n items W ND Hn [k0 [u0 [I0 H0]]] HL.
  destruct (update_first_fill d n items W ND) as [d1 [E1 [T1 [M1 [K1 [C1 X1]]]]]].
  pose proof (items_in_keys d items d1 K1) as I1.
  assert (all_last_none d1 (dkeys items) = Ok true) as A.
  { apply all_last_none_true. intros k Hk. split; [rewrite C1|]; auto. }
  destruct (drop_lasts_spec (dkeys items) d1 ND I1) as [K2 [Ty2 [M2 C2]]].
  set (d2 := drop_lasts d1 (dkeys items)) in *.
  assert (typed d2) as T2 by (apply typed_drop_lasts; auto).
  assert (forall k, In k (dkeys items) -> col_or d1 k = removelast (col_or d1 k) ++ [None]) as RL.
  { intros k Hk. apply removelast_last_none. rewrite C1; auto. }
  assert (forall k, In k (data_keys d2) -> exact_type d2 k) as X2.
  { intros k Hk. rewrite K2 in Hk. destruct (X1 k Hk) as [t [Et Eg]]. exists t. rewrite Ty2.
    split; auto. rewrite C2. destruct (smem k (dkeys items)) eqn:E; auto.
    apply smem_In in E. rewrite (RL k E) in Eg. unfold get_type in *.
    rewrite get_type_from_app_none in Eg. exact Eg. }
  assert (forall k u, In (k, u) items -> In k (dkeys items)) as IK by (intros k u I; apply in_map_iff; exists (k, u); auto).
  destruct (extend_all_fail items d2 T2 ND) as [d' E'].
  { intros k u I. apply X2. rewrite K2. apply I1. eauto. }
  { intros k I. rewrite K2. auto. }
  { exists k0, u0. split; auto. intros HO. apply H0. eapply homogeneous_sub; [|exact HO]. rewrite C2.
    assert (smem k0 (dkeys items) = true) as -> by (apply smem_In; eauto). rewrite <- (C1 k0) by eauto. rewrite (RL k0) by eauto.
    intros v I. rewrite removelast_last. rewrite !in_app_iff in *. destruct I as [[I|[I|[]]]|I]; auto. discriminate. }
  exists d'. unfold update. rewrite E1. cbn [ubind negb orb].
  rewrite M1. replace (Z.of_nat n =? 0)%Z with false by (symmetry; apply Z.eqb_neq; lia).
  rewrite A. unfold unsafe_update. fold d2. rewrite E'. reflexivity.
Qed.

Lemma agree_dec : forall rows p, types_agree rows p \/ exists k c, In (k, c) p /\ ~ homogeneous (at_key k rows ++ [c]).
Proof.
  intros rows p. induction p as [|[k c] p IH]; [left; intros k c []|].
  destruct (get_type (at_key k rows ++ [c])) as [t|e] eqn:E.
  - destruct IH as [A|[k' [c' [I N]]]].
    + left. intros k' c' [I|I]; [injection I as <- <-; eapply get_type_ok_homogeneous; eauto|auto].
    + right. exists k', c'. split; [right|]; auto.
  - right. exists k, c. split; [left; auto|]. intros H. destruct (get_type_homogeneous _ H) as [t Et]. congruence.
Qed.

Lemma holds_homogeneous : forall d rows k, holds d rows -> homogeneous (at_key k rows).
Proof.
  intros d rows k [[T _] C]. rewrite <- C. unfold column_or_none. destruct (dget k (cols d)) as [c|] eqn:E.
  - pose proof (typed_homogeneous d k T) as H. unfold col_or in H. rewrite E in H. exact H.
  - exists TFloat. intros v I. apply repeat_spec in I. discriminate.
Qed.

Lemma sentence_fail : forall d rows p, holds d rows -> NoDup (dkeys p) ->
  (exists k c, In (k, c) p /\ ~ homogeneous (at_key k rows ++ [c])) -> exists d', update d (dmap UOne p) true = (d', Raise ValueError).
Proof.
  intros d rows p H ND [k [c [I N]]]. pose proof H as [W C].
  assert (exists k u, In (k, u) (dmap UOne p) /\ ~ homogeneous (column_or_none d (length rows) k ++ cells_of u)) as BAD.
  { exists k, (UOne c). split; [unfold dmap; apply in_map_iff; exists (k, c); auto|]. rewrite C. exact N. }
  assert (NoDup (dkeys (dmap UOne p))) as ND' by (rewrite items_keys; exact ND).
  destruct (rev rows) as [|r revd] eqn:ER.
  - assert (rows = []) as -> by (rewrite <- (rev_involutive rows), ER; reflexivity).
    rewrite (update_compress_otherwise_appends d 0); auto. apply (update_rejects_mixed_types d 0); auto.
  - assert (rows = rev revd ++ [r]) as E by (rewrite <- (rev_involutive rows), ER; reflexivity). clear ER. subst rows. set (done := rev revd) in *.
    destruct (free_for r p) eqn:EF.
    + apply (update_compress_fail d (length (done ++ [r]))); auto; [rewrite app_length; cbn; lia|].
      intros k' Ik'. rewrite items_keys in Ik'. rewrite (last_at d done r k' H). unfold free_for in EF. rewrite forallb_forall in EF.
      specialize (EF k' Ik'). destruct (value r k'); [discriminate|reflexivity].
    + rewrite (update_compress_otherwise_appends d (length (done ++ [r]))); auto.
      * apply (update_rejects_mixed_types d (length (done ++ [r]))); auto.
      * right. unfold free_for in EF. rewrite items_keys. clear - EF H. induction (dkeys p) as [|k ks IH]; [discriminate|]. cbn in EF.
        destruct (value r k) as [v|] eqn:E.
        -- exists k, v. split; [cbn; auto|]. rewrite (last_at d done r k H), E. reflexivity.
        -- cbn in EF. destruct (IH EF) as [k' [v [I V]]]. exists k', v. split; [cbn; auto|exact V].
Qed.

Lemma mixed_some : forall pf parse keep sentences ps, Forall2 (record_of pf parse keep) sentences ps ->
  forall d done r k, holds d (done ++ [r]) -> ~ homogeneous (at_key k ((done ++ [r]) ++ ps)) -> nmea_loop pf parse keep sentences d = Raise ValueError.
Proof.
  intros pf parse keep sentences ps F. induction F as [|s p sentences ps RS F IH]; intros d done r k H HN.
  - exfalso. apply HN. rewrite app_nil_r. eapply holds_homogeneous; eauto.
  - cbn [nmea_loop]. pose proof (record_NoDup _ _ _ _ _ RS) as ND. destruct RS as [fields [EP EQ]]. rewrite EP. cbn [rbind]. rewrite EQ. cbn [rbind].
    destruct (agree_dec (done ++ [r]) p) as [A|BAD].
    + destruct (sentence_step d done r p H ND A) as [d1 [E1 [H1 K1]]]. rewrite E1. cbn [finish rbind]. destruct (free_for r p) eqn:EF.
      * apply (IH d1 done (p ++ r) k H1). intros HO. apply HN. eapply homogeneous_known; [|exact HO].
        rewrite <- !app_assoc, !at_key_app, !known_app. f_equal. rewrite <- !known_app, <- !at_key_app. cbn [app]. apply merge_known. exact EF.
      * apply (IH d1 (done ++ [r]) p k H1). rewrite <- app_assoc. exact HN.
    + destruct (sentence_fail d _ p H ND BAD) as [d' ->]. reflexivity.
Qed.

(** C146.  When the values of an attribute are of different classes the file is refused with ValueError. *)
Theorem nmea_mixed_refused : forall pf parse keep sentences ps k, Forall2 (record_of pf parse keep) sentences ps ->
  ~ homogeneous (at_key k ps) -> nmea_loop pf parse keep sentences empty_data = Raise ValueError.
Proof.
  intros pf parse keep sentences ps k F. generalize holds_empty. generalize empty_data as d.
  induction F as [|s p sentences ps RS F IH]; intros d H HN.
  - exfalso. apply HN. exists TFloat. intros v [].
  - cbn [nmea_loop]. pose proof (record_NoDup _ _ _ _ _ RS) as ND. destruct RS as [fields [EP EQ]]. rewrite EP. cbn [rbind]. rewrite EQ. cbn [rbind].
    destruct (agree_dec [] p) as [A|BAD].
    + destruct (first_step d p H ND A) as [d1 [E1 [H1 K1]]]. rewrite E1. cbn [finish rbind]. destruct p as [|kc p].
      * apply (IH d1 H1). intros HO. apply HN. eapply homogeneous_known; [|exact HO]. reflexivity.
      * apply (mixed_some pf parse keep sentences ps F d1 [] (kc :: p) k H1 HN).
    + destruct (sentence_fail d [] p H ND BAD) as [d' ->]. reflexivity.
Qed.
Print Assumptions nmea_mixed_refused.

Example mixed_example : ~ homogeneous (at_key "TWS" [[("TWS", Some (VFloat 10))]; [("TWS", Some (VStr "A"))]]).
Proof. intros [t H]. pose proof (H (VFloat 10)) as H1. pose proof (H (VStr "A")) as H2. cbn in H1, H2. rewrite <- H1 in H2 by auto. specialize (H2 ltac:(auto)). discriminate. Qed.

(** C146.  With types to keep, the default being floats, dates and times, exactly the columns of these types remain. *)
Theorem nmea_kept_types : forall pf parse ws us wa ua t tl file d, nmea_handle pf parse ws us wa ua None file = Ok d -> typed d ->
  exists d', nmea_handle pf parse ws us wa ua (Some (t :: tl)) file = Ok d' /\
    data_keys d' = filter (type_listed d (t :: tl)) (data_keys d) /\ n_rows d' = n_rows d /\
    forall k, In k (data_keys d') -> get_col d' k = get_col d k.
Proof.
  intros pf parse ws us wa ua t tl file d E T. unfold nmea_handle in *.
  destruct (nmea_loop pf parse (attribute_filter wa ua) (filter (sentence_filter ws us) file) empty_data) as [d0|]; [|discriminate]. cbn [rbind] in *.
  destruct (finish (hrosailing_standard_format pf d0)) as [d1|]; [|discriminate]. cbn [rbind] in *. injection E as ->.
  destruct (filter_types_exact d (t :: tl) T) as [d' [E [K [N C]]]]. rewrite E. exists d'. split; [reflexivity|]. split; auto. split; auto.
  intros k I. unfold get_col. destruct (C k I) as [-> _]. reflexivity.
Qed.
Print Assumptions nmea_kept_types.

(** Wind, speed and wind again, as three sentences: the speed belongs to the first wind. *)
Definition three_sentences (s : string) : result (list (string * cell)) :=
  if String.eqb s "w1" then Ok [("TWS", Some (VFloat 10)); ("TWA", Some (VFloat 90))]
  else if String.eqb s "b1" then Ok [("BSP", Some (VFloat 6)); ("HDT", None)]
  else Ok [("TWS", Some (VFloat 11)); ("TWA", None)].
Definition three_records : list (dict cell) :=
  [[("TWS", Some (VFloat 10)); ("TWA", Some (VFloat 90))]; [("BSP", Some (VFloat 6)); ("HDT", None)]; [("TWS", Some (VFloat 11)); ("TWA", None)]].
Example three_meets : Forall2 (record_of no_parse three_sentences (attribute_filter None None)) ["w1"; "b1"; "w2"] three_records /\
  (forall k, homogeneous (at_key k three_records)).
Proof.
  split.
  - repeat apply Forall2_cons; [| | |apply Forall2_nil]; (eexists; split; [reflexivity|]; vm_compute; reflexivity).
  - intros k. exists TFloat. unfold at_key, three_records, value. cbn [map dget].
    intros v I. repeat (destruct I as [I|I]; [repeat (match type of I with context [if ?b then _ else _] => destruct b end); inversion I; reflexivity|]). destruct I.
Qed.
Example three_rows : at_key "TWS" (log_rows None three_records) = [Some (VFloat 10); Some (VFloat 11)] /\
  at_key "BSP" (log_rows None three_records) = [Some (VFloat 6); None] /\ at_key "TWA" (log_rows None three_records) = [Some (VFloat 90); None].
Proof. repeat split. Qed.
