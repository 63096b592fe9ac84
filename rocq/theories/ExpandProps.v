(** * C67: WeatherExpander *)

From Coq Require Import String Ascii.
From Coq Require Import List Bool Arith ZArith QArith Lia.
From Verif Require Import Py ListX Dict DataModel DataSpec DataProofs DataProofs2 DataProofs3 DataProofs4 DataCheck
  ExpandModel.
Import ListNotations.
Open Scope string_scope.
Open Scope list_scope.
Open Scope nat_scope.

(* ---- a dictionary of single values is a table with one row ---- *)

Definition one_row (w : dict cell) : Data :=
  mkData (dmap (fun c => [c]) w)
         (dmap (fun c : cell => match c with Some v => Some (vtype v) | None => None end) w) 1.

Lemma extend_all_one : forall w d,
  extend_all d (dmap UOne w) = extend_all d (dmap UList (dmap (fun c => [c]) w)).
Proof.
  induction w as [|[k c] w IH]; intros d; [reflexivity|].
  cbn [dmap map extend_all fst snd]. unfold append.
  destruct (extend d k [c]) as [d' [u|e]]; cbn [ubind]; [apply IH|reflexivity].
Qed.

Lemma update_one_row : forall d w, update d (dmap UOne w) false = update_data d (one_row w).
Proof.
  intros. unfold update_data, update. cbn [cols one_row]. rewrite !dmap_keys.
  destruct (fill_keys d (max_len d) (dkeys w ++ data_keys d)) as [d1 [u|e]]; cbn [ubind negb orb]; auto.
  unfold unsafe_update. rewrite extend_all_one. reflexivity.
Qed.

Lemma concat_dicts_onto : forall l d, concat_dicts d l = concat_onto d (map one_row l).
Proof.
  induction l as [|w l IH]; intros d; [reflexivity|]. cbn [concat_dicts map concat_onto].
  rewrite update_one_row. destruct (update_data d (one_row w)) as [d' [u|e]]; cbn [ubind]; auto.
Qed.

Lemma one_row_wf : forall w, NoDup (dkeys w) -> well_formed (one_row w) 1.
Proof.
  intros w N. split; [split; [|split]|split]; cbn [cols types one_row].
  - rewrite dmap_keys. auto.
  - rewrite dmap_keys. auto.
  - intros k c. rewrite !dget_dmap. destruct (dget k w) as [x|]; cbn [option_map]; [|discriminate].
    intros H. injection H as <-. eexists. split; [reflexivity|]. intros v [->|[]]. reflexivity.
  - reflexivity.
  - intros k c. rewrite dget_dmap. destruct (dget k w); cbn [option_map]; [|discriminate].
    intros H. injection H as <-. reflexivity.
Qed.

(* ---- standard names ---- *)

Definition no_cast (d : Data) : Prop :=
  forall k c v, get_col d k = Ok c -> In (Some v) c -> castable (Some (vtype v)) = false.

Definition standard_keys (ks : list string) : Prop :=
  forall k, In k ks -> get_standard_key k = Ok k /\ k <> "date".

Lemma standard_loop_id : forall ks d, standard_keys ks -> standard_keys_loop d ks = (d, Ok tt).
Proof.
  induction ks as [|k ks IH]; intros d H; [reflexivity|]. cbn [standard_keys_loop].
  destruct (H k) as [E _]; [left; auto|]. rewrite E, String.eqb_refl. apply IH.
  intros x Hx. apply H. right. auto.
Qed.

Lemma standard_names_format : forall pf d n, well_formed d n -> standard_keys (data_keys d) ->
  exists d', hrosailing_standard_format pf d = (d', Ok tt) /\ well_formed d' n /\
    data_keys d' = data_keys d /\
    (forall k t c, dget k (types d) = Some t -> get_col d k = Ok c ->
       get_col d' k = Ok (cast_column pf t c)).
Proof.
  intros pf d n W S. unfold hrosailing_standard_format. rewrite standard_loop_id by auto. cbn [ubind].
  rewrite aggregate_none. 2: { left. intros H. apply (S "date"); auto. }
  cbn [ubind]. apply ensure_floats_ok. auto.
Qed.

(** Conversion of a numpy number to a Python float. *)
Definition to_py (c : cell) : cell :=
  match c with Some (VNpFloat q) => Some (VFloat q) | _ => c end.

Definition np_column (c : list cell) : Prop := forall v, In (Some v) c -> exists q, v = VNpFloat q.

Lemma floats_of_np : forall pf c, np_column c -> floats_of pf c = Some (map to_py c).
Proof.
  induction c as [|[v|] c IH]; intros H; [reflexivity| |]; cbn [floats_of map].
  - destruct (H v) as [q ->]; [left; auto|]. cbn [to_float]. rewrite IH; [reflexivity|].
    intros u Hu. apply H. right. auto.
  - rewrite IH; [reflexivity|]. intros u Hu. apply H. right. auto.
Qed.

Lemma all_none_or : forall c : list cell, (exists v, In (Some v) c) \/ forall v, ~ In (Some v) c.
Proof.
  induction c as [|[v|] c IH].
  - right. intros v [].
  - left. exists v. left. auto.
  - destruct IH as [[v H]|H]; [left; exists v; right; auto|]. right. intros v [E|E]; [discriminate|]. exact (H v E).
Qed.

Lemma all_none_py : forall c : list cell, (forall v, ~ In (Some v) c) -> map to_py c = c.
Proof.
  intros c H. rewrite <- (map_id c) at 2. apply map_ext_in. intros [v|] Hv; [destruct (H v Hv)|reflexivity].
Qed.

Lemma cast_np : forall pf t c, type_fits t c -> np_column c -> cast_column pf t c = map to_py c.
Proof.
  intros pf t c T N. unfold cast_column. rewrite floats_of_np by auto.
  destruct (all_none_or c) as [[v H]|H].
  - rewrite (T v H). destruct (N v H) as [q ->]. reflexivity.
  - rewrite all_none_py by auto. destruct (castable t); reflexivity.
Qed.

Lemma cast_kept : forall pf t c, type_fits t c ->
  (forall v, In (Some v) c -> castable (Some (vtype v)) = false) -> cast_column pf t c = c.
Proof.
  intros pf t c T N. unfold cast_column. destruct (all_none_or c) as [[v H]|H].
  - rewrite (T v H), (N v H). reflexivity.
  - rewrite floats_of_np.
    + rewrite all_none_py by auto. destruct (castable t); reflexivity.
    + intros v Hv. destruct (H v Hv).
Qed.

(* ---- the marked keys ---- *)

Lemma smap_app : forall f a b, smap f (a ++ b)%string = (smap f a ++ smap f b)%string.
Proof. induction a; intros; simpl; congruence. Qed.

Lemma sapp_assoc : forall a b c : string, (a ++ (b ++ c) = (a ++ b) ++ c)%string.
Proof. induction a; intros; simpl; congruence. Qed.

Definition ends_paren (s : string) : Prop := exists p, s = (p ++ ")")%string.

Lemma lstrip_paren : forall p, ends_paren (lstrip (p ++ ")")%string).
Proof.
  induction p as [|c p IH]; cbn [String.append lstrip].
  - exists EmptyString. reflexivity.
  - destruct (is_space c); auto. exists (String c p). reflexivity.
Qed.

Lemma rstrip_paren : forall p, rstrip (p ++ ")")%string = (p ++ ")")%string.
Proof.
  induction p as [|c p IH]; cbn [String.append rstrip]; [reflexivity|]. rewrite IH.
  destruct p; reflexivity.
Qed.

Lemma slast_paren : forall p, slast (p ++ ")")%string = Ok ")"%char.
Proof.
  induction p as [|c p IH]; [reflexivity|]. cbn [String.append slast]. rewrite IH. destruct p; reflexivity.
Qed.

Lemma synonym_not_paren : forall k v, In (k, v) keysynonyms -> slast k <> Ok ")"%char.
Proof.
  intros k v H E. assert (forallb (fun kv => negb (match slast (fst kv) with Ok c => Ascii.eqb c ")" | _ => false end))
    keysynonyms = true) as F by (vm_compute; reflexivity).
  rewrite forallb_forall in F. specialize (F _ H). cbn [fst] in F. rewrite E in F. discriminate.
Qed.

Lemma duplicate_key_standard : forall k, get_standard_key (duplicate_key k) = Ok (duplicate_key k).
Proof.
  intros k. unfold get_standard_key.
  assert (ends_paren (DataModel.strip (smap sep_to_space (smap lower_char (duplicate_key k))))) as [p E].
  { unfold duplicate_key. rewrite !smap_app.
    change (smap sep_to_space (smap lower_char "(duplicate)")) with ("(duplicate" ++ ")")%string.
    generalize (smap sep_to_space (smap lower_char k)). intros a. rewrite sapp_assoc.
    unfold DataModel.strip. destruct (lstrip_paren (a ++ "(duplicate")%string) as [p ->].
    rewrite rstrip_paren. exists p. reflexivity. }
  rewrite E. cbv zeta. rewrite slast_paren. cbn [rbind].
  replace (")" =? "s")%char with false by reflexivity.
  assert (dget (p ++ ")")%string keysynonyms = None) as ->; [|reflexivity].
  apply dget_None. intros H. apply dget_In_key in H. destruct H as [v H]. apply dget_Some_In in H.
  apply synonym_not_paren in H. apply H. apply slast_paren.
Qed.

Lemma duplicate_key_inj : forall a b, duplicate_key a = duplicate_key b -> a = b.
Proof. unfold duplicate_key. intros a b. apply sappend_inj_r. Qed.

Lemma duplicate_key_neq : forall a, duplicate_key a <> a.
Proof.
  intros a H. apply (f_equal String.length) in H. unfold duplicate_key in H.
  rewrite slength_app in H. simpl in H. lia.
Qed.

Lemma duplicate_not_date : forall a, duplicate_key a <> "date".
Proof.
  intros a H. apply (f_equal String.length) in H. unfold duplicate_key in H.
  rewrite slength_app in H. simpl in H. lia.
Qed.

(** The name under which the attribute [k] of the weather is stored beside the
    columns [keys]. *)
Definition stored_as (keys : list string) (k : string) : string :=
  if in_dec string_dec k keys then (k ++ "(duplicate)")%string else k.

Lemma mark_ok : forall ks w n keys, well_formed w n -> NoDup ks ->
  (forall k, In k ks -> In k (data_keys w)) ->
  (forall k, In k ks -> In k keys -> ~ In (duplicate_key k) (data_keys w)) ->
  exists w', mark_duplicate_keys w keys ks = (w', Ok tt) /\ well_formed w' n /\
    (forall k, In k ks -> get_col w' (stored_as keys k) = get_col w k) /\
    (forall k, ~ In k ks -> (forall k0, In k0 ks -> In k0 keys -> k <> duplicate_key k0) ->
       get_col w' k = get_col w k) /\
    (forall k, In k (data_keys w') ->
       (exists k0, In k0 ks /\ k = stored_as keys k0) \/ (In k (data_keys w) /\ ~ In k ks)).
Proof.
  induction ks as [|k ks IH]; intros w n keys W N I D.
  - exists w. split; [reflexivity|]. split; [auto|]. split; [intros k []|]. split; [auto|].
    intros k H. right. auto.
  - apply NoDup_cons_iff in N. destruct N as [N0 N]. cbn [mark_duplicate_keys].
    destruct (smem k keys) eqn:E.
    + apply smem_In in E. pose proof W as [T [M R]].
      destruct (rename_ok w k (duplicate_key k) T) as [w1 [E1 [T1 [K1 [M1 [G1 [_ O1]]]]]]].
      { apply not_eq_sym. apply duplicate_key_neq. } { apply I. left. auto. } { apply D; [left; auto|auto]. }
      rewrite E1. cbn [ubind].
      assert (forall x, In x (data_keys w1) <-> (In x (data_keys w) /\ x <> k) \/ x = duplicate_key k) as K1'.
      { intros x. rewrite K1, in_app_iff, filter_In. simpl. destruct (String.eqb_spec x k); simpl; split; intuition congruence. }
      assert (well_formed w1 n) as W1.
      { split; [auto|]. split; [congruence|]. intros x c Hx.
        destruct (string_dec x (duplicate_key k)) as [->|Hd].
        - rewrite G1 in Hx. eauto.
        - assert (x <> k).
          { intros ->. assert (In k (data_keys w1)) by (apply dget_In_key; eauto). apply K1' in H.
            destruct H as [[_ H]|H]; [auto|]. symmetry in H. exact (duplicate_key_neq k H). }
          destruct (O1 x) as [A _]; auto. rewrite A in Hx. eauto. }
      destruct (IH w1 n keys W1 N) as [w' [E' [W' [A' [B' C']]]]].
      * intros x Hx. apply K1'. left. split; [apply I; right; auto|intros ->; auto].
      * intros x Hx Hk Hc. apply K1' in Hc. destruct Hc as [[Hc _]|Hc].
        -- exact (D x (or_intror Hx) Hk Hc).
        -- apply duplicate_key_inj in Hc. subst. auto.
      * exists w'. split; [auto|]. split; [auto|].
        assert (stored_as keys k = duplicate_key k) as SK.
        { unfold stored_as. destruct (in_dec string_dec k keys); [auto|contradiction]. }
        split; [|split].
        -- intros x [<-|Hx].
           ++ rewrite SK. rewrite B'.
              ** unfold get_col. rewrite G1. reflexivity.
              ** intros Hd. apply (D k (or_introl eq_refl) E). apply I. right. auto.
              ** intros k0 H0 _ Hc. apply duplicate_key_inj in Hc. subst. auto.
           ++ rewrite A' by auto. assert (x <> k) by (intros ->; auto).
              assert (x <> duplicate_key k).
              { intros ->. apply (D k (or_introl eq_refl) E). apply I. right. auto. }
              unfold get_col. destruct (O1 x) as [-> _]; auto.
        -- intros x Hx Hd. rewrite B'.
           ++ assert (x <> k) by (intros ->; apply Hx; left; auto).
              assert (x <> duplicate_key k) by (apply Hd; [left; auto|auto]).
              unfold get_col. destruct (O1 x) as [-> _]; auto.
           ++ intros H. apply Hx. right. auto.
           ++ intros k0 H0 H1. apply Hd; [right; auto|auto].
        -- intros x Hx. apply C' in Hx. destruct Hx as [[k0 [H0 ->]]|[H0 H1]].
           ++ left. exists k0. split; [right; auto|auto].
           ++ apply K1' in H0. destruct H0 as [[H0 H2]| ->].
              ** right. split; [auto|]. intros [Hc|Hc]; [auto|auto].
              ** left. exists k. split; [left; auto|auto].
    + apply smem_false in E.
      destruct (IH w n keys W N) as [w' [E' [W' [A' [B' C']]]]].
      { intros x Hx. apply I. right. auto. } { intros x Hx. apply D. right. auto. }
      exists w'. split; [auto|]. split; [auto|].
      assert (stored_as keys k = k) as SK.
      { unfold stored_as. destruct (in_dec string_dec k keys); [contradiction|auto]. }
      split; [|split].
      * intros x [<-|Hx].
        -- rewrite SK. apply B'; [auto|]. intros k0 H0 H1 Hc.
           apply (D k0 (or_intror H0) H1). rewrite <- Hc. apply I. left. auto.
        -- apply A'. auto.
      * intros x Hx Hd. apply B'; [intros H; apply Hx; right; auto|].
        intros k0 H0 H1. apply Hd; [right; auto|auto].
      * intros x Hx. apply C' in Hx. destruct Hx as [[k0 [H0 ->]]|[H0 H1]].
        -- left. exists k0. split; [right; auto|auto].
        -- destruct (string_dec x k) as [->|Hne].
           ++ left. exists k. split; [left; auto|auto].
           ++ right. split; [auto|]. intros [Hc|Hc]; [congruence|auto].
Qed.

(* ---- what the weather model tells ---- *)

(** A weather model that supplies the attributes [ks], as GriddedWeatherModel
    does: numpy numbers or a ValueError. *)
Definition supplies (gw : cell -> cell -> cell -> result (dict cell)) (ks : list string)
  (W : cell -> cell -> cell -> option (list Q)) : Prop :=
  forall t la lo,
    match W t la lo with
    | Some l => length l = length ks /\
                gw t la lo = Ok (combine ks (map (fun q => Some (VNpFloat q)) l))
    | None => gw t la lo = Raise ValueError
    end.

Lemma dget_combine : forall V ks (vs : list V) j k, NoDup ks -> nth_error ks j = Some k ->
  dget k (combine ks vs) = nth_error vs j.
Proof.
  induction ks as [|k0 ks IH]; intros vs j k N E; [destruct j; discriminate|].
  apply NoDup_cons_iff in N. destruct N as [N0 N]. destruct vs as [|v vs].
  - destruct j; reflexivity.
  - cbn [combine dget]. destruct j as [|j]; cbn [nth_error] in *.
    + injection E as ->. rewrite String.eqb_refl. reflexivity.
    + destruct (String.eqb_spec k0 k) as [->|_].
      * destruct N0. eapply nth_error_In. eauto.
      * apply IH; auto.
Qed.

Lemma dkeys_combine : forall V ks (vs : list V), length vs = length ks -> dkeys (combine ks vs) = ks.
Proof.
  induction ks as [|k ks IH]; intros [|v vs] H; try discriminate; [reflexivity|].
  simpl. f_equal. apply IH. simpl in H. lia.
Qed.

Lemma flat_map_map_filter : forall A B (p : A -> bool) (f : A -> B) l,
  flat_map (fun a => if p a then [f a] else []) l = map f (filter p l).
Proof. induction l; simpl; auto. destruct (p a); simpl; congruence. Qed.

Lemma dget_all_none : forall ks k, In k ks -> dget k (map (fun k => (k, @None pyval)) ks) = Some None.
Proof.
  induction ks as [|k0 r IH]; intros k H; [destruct H|].
  cbn [map dget]. destruct (String.eqb_spec k0 k); [reflexivity|]. apply IH. destruct H; [congruence|auto].
Qed.

Section Answers.
  Variable gw : cell -> cell -> cell -> result (dict cell).
  Variable ks : list string.
  Variable W : cell -> cell -> cell -> option (list Q).
  Hypothesis sup : supplies gw ks W.
  Hypothesis ksN : NoDup ks.
  Hypothesis ks0 : ks <> [].
  Variable d : Data.
  Variable n : nat.
  Hypothesis wf : well_formed d n.
  Variables ts las los : list cell.
  Hypothesis Ht : get_col d "datetime" = Ok ts.
  Hypothesis Hla : get_col d "lat" = Ok las.
  Hypothesis Hlo : get_col d "lon" = Ok los.

  Definition answer (i : nat) : option (list Q) := W (nth i ts None) (nth i las None) (nth i los None).
  Definition known (i : nat) : bool := match answer i with Some _ => true | None => false end.
  Definition rows_kept (m : mode) : list nat :=
    match m with Delete => filter known (seq 0 n) | Ignore => seq 0 n end.
  Definition row_dict (i : nat) : dict cell :=
    match answer i with
    | Some l => combine ks (map (fun q => Some (VNpFloat q)) l)
    | None => map (fun k => (k, None)) ks
    end.
  Definition row_value (j i : nat) : option Q :=
    match answer i with Some l => nth_error l j | None => None end.

  Lemma col_length : forall k c, get_col d k = Ok c -> length c = n.
  Proof.
    intros k c H. destruct wf as [_ [_ R]]. apply (R k). unfold get_col in H. destruct (dget k (cols d)); congruence.
  Qed.

  Lemma py_nth_in : forall (c : list cell) i, i < length c -> py_nth c i = Ok (nth i c None).
  Proof. intros. unfold py_nth. rewrite (List.nth_error_nth' c None) by auto. reflexivity. Qed.

  Lemma ask_ok : forall idxs, (forall i, In i idxs -> i < n) ->
    ask gw d idxs = Ok (map (fun i => (i, if known i then Some (row_dict i) else None)) idxs).
  Proof.
    induction idxs as [|i idxs IH]; intros H; [reflexivity|]. cbn [ask].
    assert (i < n) as Hi by (apply H; left; auto).
    unfold moment_position. rewrite Ht, Hla, Hlo. cbn [rbind].
    rewrite !py_nth_in by (erewrite col_length by eauto; auto). cbn [rbind].
    rewrite IH by (intros x Hx; apply H; right; auto).
    pose proof (sup (nth i ts None) (nth i las None) (nth i los None)) as S.
    cbn [map].
    assert ((if known i then Some (row_dict i) else None) =
            match W (nth i ts None) (nth i las None) (nth i los None) with
            | Some l => Some (combine ks (map (fun q => Some (VNpFloat q)) l))
            | None => None
            end) as ->.
    { unfold known, row_dict, answer. destruct (W _ _ _); reflexivity. }
    destruct (W (nth i ts None) (nth i las None) (nth i los None)) as [l|].
    - destruct S as [_ S]. rewrite S. cbn [rbind]. reflexivity.
    - rewrite S. cbn [rbind]. reflexivity.
  Qed.

  Lemma row_dict_keys : forall i, dkeys (row_dict i) = ks.
  Proof.
    intros i. unfold row_dict, answer. pose proof (sup (nth i ts None) (nth i las None) (nth i los None)) as S.
    destruct (W _ _ _) as [l|].
    - apply dkeys_combine. rewrite map_length. tauto.
    - unfold dkeys. rewrite map_map. apply map_id.
  Qed.

  Lemma row_dict_get : forall i j k, nth_error ks j = Some k ->
    dget k (row_dict i) = Some (option_map VNpFloat (row_value j i)).
  Proof.
    intros i j k E. unfold row_dict, row_value, answer.
    pose proof (sup (nth i ts None) (nth i las None) (nth i los None)) as S.
    destruct (W _ _ _) as [l|].
    - erewrite dget_combine by eauto. rewrite nth_error_map. destruct S as [S _].
      destruct (nth_error l j) as [q|] eqn:N; [reflexivity|]. apply nth_error_None in N.
      assert (j < length ks) by (apply nth_error_Some; congruence). lia.
    - apply dget_all_none. eapply nth_error_In. eauto.
  Qed.

  Lemma first_keys_ok : forall idxs, (exists i, In i idxs /\ known i = true) ->
    first_keys (map (fun i => (i, if known i then Some (row_dict i) else None)) idxs) = Some ks.
  Proof.
    induction idxs as [|i idxs IH]; intros [x [Hx Kx]]; [destruct Hx|]. cbn [map first_keys].
    destruct (known i) eqn:E; [rewrite row_dict_keys; reflexivity|]. apply IH. exists x. split; [|auto].
    destruct Hx; [congruence|auto].
  Qed.

  Lemma row_dict_unknown : forall i, known i = false -> row_dict i = map (fun k => (k, None)) ks.
  Proof. intros i. unfold known, row_dict. destruct (answer i); [discriminate|reflexivity]. Qed.

  Lemma weather_list_ok : forall m, (exists i, i < n /\ known i = true) ->
    weather_list m (map (fun i => (i, if known i then Some (row_dict i) else None)) (seq 0 n))
    = Ok (map row_dict (rows_kept m)).
  Proof.
    intros m [i [Hi Ki]]. destruct m; unfold weather_list, rows_kept.
    - f_equal. rewrite <- flat_map_map_filter. rewrite flat_map_concat_map, map_map, flat_map_concat_map.
      f_equal. apply map_ext. intros x. cbn [snd]. destruct (known x); reflexivity.
    - rewrite first_keys_ok. 2: { exists i. split; [apply in_seq; lia|auto]. }
      induction (seq 0 n) as [|x l IH]; [reflexivity|]. cbn [map mapM]. rewrite IH.
      cbn [snd]. destruct (known x) eqn:E; [reflexivity|].
      rewrite row_dict_unknown by auto. reflexivity.
  Qed.

  Lemma none_idxs_ok : 
    none_idxs (map (fun i => (i, if known i then Some (row_dict i) else None)) (seq 0 n))
    = map Z.of_nat (filter (fun i => negb (known i)) (seq 0 n)).
  Proof.
    unfold none_idxs. rewrite <- flat_map_map_filter. rewrite flat_map_concat_map, map_map, flat_map_concat_map.
    f_equal. apply map_ext. intros x. cbn [snd fst]. destruct (known x); reflexivity.
  Qed.

  Lemma surviving_known : surviving n (map Z.of_nat (filter (fun i => negb (known i)) (seq 0 n)))
    = filter known (seq 0 n).
  Proof.
    unfold surviving. apply filter_ext_in. intros i Hi.
    destruct (existsb _ _) eqn:E.
    - apply existsb_exists in E. destruct E as [z [Hz E]]. apply Z.eqb_eq in E. subst z.
      apply in_map_iff in Hz. destruct Hz as [x [Hx Hf]]. apply filter_In in Hf.
      assert (x = i) by lia. subst. destruct Hf as [_ Hf]. destruct (known i); [discriminate|reflexivity].
    - destruct (known i) eqn:K; [reflexivity|]. exfalso.
      assert (existsb (Z.eqb (Z.of_nat i)) (map Z.of_nat (filter (fun i => negb (known i)) (seq 0 n))) = true).
      { apply existsb_exists. exists (Z.of_nat i). split; [|apply Z.eqb_refl]. apply in_map.
        apply filter_In. rewrite K. auto. }
      congruence.
  Qed.

  Lemma kept_table : forall m,
    let d1 := match m with
              | Delete => delete_rows d (map Z.of_nat (filter (fun i => negb (known i)) (seq 0 n)))
              | Ignore => d
              end in
    well_formed d1 (length (rows_kept m)) /\ data_keys d1 = data_keys d /\
    forall k c, get_col d k = Ok c -> get_col d1 k = Ok (map (fun i => nth i c None) (rows_kept m)).
  Proof.
    intros [|]; cbv zeta; unfold rows_kept.
    - set (idx := map Z.of_nat _).
      assert (NoDup idx) as N.
      { unfold idx. apply FinFun.Injective_map_NoDup; [intros x y; lia|]. apply NoDup_filter. apply seq_NoDup. }
      assert (forall i, In i idx -> (0 <= i < Z.of_nat n)%Z) as R.
      { intros i Hi. apply in_map_iff in Hi. destruct Hi as [x [<- Hx]]. apply filter_In in Hx.
        destruct Hx as [Hx _]. apply in_seq in Hx. lia. }
      destruct (surviving_length n idx N R) as [L _]. destruct (delete_rows_cols d n idx wf) as [K C].
      pose proof surviving_known as SV. fold idx in SV.
      split; [|split].
      + rewrite <- SV, L. apply delete_rows_wf; auto.
      + auto.
      + intros k c H. rewrite (C k c H), SV. reflexivity.
    - rewrite seq_length. split; [auto|]. split; [auto|]. intros k c H. rewrite H. f_equal.
      rewrite <- (col_length k c H). clear. 
      assert (forall (l : list cell) s, map (fun i => nth (i - s) l None) (seq s (length l)) = l) as G.
      { induction l as [|a l IH]; intros s; simpl; auto. rewrite Nat.sub_diag. f_equal.
        rewrite <- (IH (S s)) at 2. apply map_ext_in. intros i Hi. apply in_seq in Hi.
        destruct (i - s) eqn:E; [lia|]. f_equal. lia. }
      rewrite <- (G c 0) at 1. apply map_ext. intros. rewrite Nat.sub_0_r. reflexivity.
  Qed.

  Lemma stacked_rows : forall idxs j k, nth_error ks j = Some k ->
    stacked (map (fun i => (one_row (row_dict i), 1)) idxs) k
    = map (fun i => option_map VNpFloat (row_value j i)) idxs.
  Proof.
    induction idxs as [|i idxs IH]; intros j k E; [reflexivity|]. cbn [map stacked].
    rewrite (IH j k E). unfold column_or_none. cbn [cols one_row].
    rewrite dget_dmap, (row_dict_get i j k E). reflexivity.
  Qed.

  Lemma stacked_other : forall idxs k, ~ In k ks ->
    stacked (map (fun i => (one_row (row_dict i), 1)) idxs) k = map (fun _ => None) idxs.
  Proof.
    induction idxs as [|i idxs IH]; intros k E; [reflexivity|]. cbn [map stacked].
    rewrite (IH k E). unfold column_or_none. cbn [cols one_row]. rewrite dget_dmap.
    assert (dget k (row_dict i) = None) as ->; [|reflexivity]. apply dget_None. rewrite row_dict_keys. auto.
  Qed.

  Lemma concat_ok : forall idxs, idxs <> [] ->
    exists w, concat_dicts empty_data (map row_dict idxs) = (w, Ok tt) /\
      well_formed w (length idxs) /\ (forall k, In k (data_keys w) <-> In k ks) /\
      (forall j k, nth_error ks j = Some k ->
         get_col w k = Ok (map (fun i => option_map VNpFloat (row_value j i)) idxs)).
  Proof.
    intros idxs I0. set (ds := map (fun i => (one_row (row_dict i), 1)) idxs).
    destruct (concatenate_ok ds) as [w [E [Ww [K C]]]].
    - intros dn H. apply in_map_iff in H. destruct H as [i [<- _]]. cbn [fst snd]. split.
      + apply one_row_wf. rewrite row_dict_keys. auto.
      + left. intros Hc. apply (f_equal dkeys) in Hc. cbn [cols one_row] in Hc.
        rewrite dmap_keys, row_dict_keys in Hc. auto.
    - intros k. destruct (in_dec string_dec k ks) as [H|H].
      + apply In_nth_error in H. destruct H as [j H]. unfold ds. rewrite (stacked_rows idxs j k H).
        exists TNpFloat. intros v Hv. apply in_map_iff in Hv. destruct Hv as [i [Hv _]].
        destruct (row_value j i); [|discriminate]. injection Hv as <-. reflexivity.
      + unfold ds. rewrite stacked_other by auto. exists TNpFloat. intros v Hv. apply in_map_iff in Hv.
        destruct Hv as [i [Hv _]]. discriminate.
    - exists w. unfold concatenate in E. rewrite concat_dicts_onto.
      replace (map one_row (map row_dict idxs)) with (map fst ds).
      2: { unfold ds. rewrite !map_map. reflexivity. }
      destruct (concat_onto empty_data (map fst ds)) as [w' [[]|e]]; [|discriminate].
      injection E as ->. split; [reflexivity|].
      assert (total_rows ds = length idxs) as TR.
      { unfold ds. clear. induction idxs; simpl; congruence. }
      rewrite TR in Ww. split; [auto|].
      assert (forall k, In k (data_keys w) <-> In k ks) as KK.
      { intros k. rewrite K. split.
        - intros [dn [H1 H2]]. apply in_map_iff in H1. destruct H1 as [i [<- _]]. cbn [fst] in H2.
          unfold data_keys in H2. cbn [cols one_row] in H2. rewrite dmap_keys, row_dict_keys in H2. auto.
        - intros H. destruct idxs as [|i r]; [congruence|]. exists (one_row (row_dict i), 1).
          split; [left; reflexivity|]. cbn [fst]. unfold data_keys. cbn [cols one_row].
          rewrite dmap_keys, row_dict_keys. auto. }
      split; [auto|]. intros j k H. rewrite C.
      + unfold ds. rewrite (stacked_rows idxs j k H). reflexivity.
      + apply KK. eapply nth_error_In. eauto.
  Qed.

  Definition py_weather (j i : nat) : cell := option_map VFloat (row_value j i).

  Lemma expand_ok : forall pf m,
    (exists i, i < n /\ known i = true) ->
    standard_keys (data_keys d) -> no_cast d -> standard_keys ks ->
    (forall k, In k ks -> In k (data_keys d) -> ~ In (duplicate_key k) (data_keys d) /\ ~ In (duplicate_key k) ks) ->
    let r := rows_kept m in
    exists d', weather_expand pf gw m d = (d', Ok tt) /\ well_formed d' (length r + length r) /\
      (forall k, In k (data_keys d') <-> In k (data_keys d) \/ exists k0, In k0 ks /\ k = stored_as (data_keys d) k0) /\
      (forall k c, get_col d k = Ok c ->
         get_col d' k = Ok (map (fun i => nth i c None) r ++ repeat None (length r))) /\
      (forall j k, nth_error ks j = Some k ->
         get_col d' (stored_as (data_keys d) k) = Ok (repeat None (length r) ++ map (py_weather j) r)).
  Proof.
    intros pf m Known SD NC SK DUP r.
    assert (r <> []) as R0.
    { destruct Known as [i [Hi Ki]]. intros H. assert (In i r) as Hr.
      { unfold r, rows_kept. destruct m; [apply filter_In; split; auto|]; apply in_seq; lia. }
      rewrite H in Hr. destruct Hr. }
    unfold weather_expand. pose proof wf as [_ [M _]]. unfold n_rows in M. rewrite M, Nat2Z.id.
    rewrite ask_ok by (intros i Hi; apply in_seq in Hi; lia). rewrite none_idxs_ok.
    rewrite weather_list_ok by auto.
    destruct (kept_table m) as [W1 [K1 C1]]. fold r in W1, C1.
    set (d1 := match m with Delete => _ | Ignore => d end) in *. clearbody d1.
    destruct (concat_ok r R0) as [w [Ew [Ww [Kw Cw]]]]. fold r. rewrite Ew.
    destruct (standard_names_format pf w (length r) Ww) as [w1 [E1 [Ww1 [Kw1 Cw1]]]].
    { intros k Hk. apply SK. apply Kw. auto. }
    rewrite E1.
    assert (forall j k, nth_error ks j = Some k -> get_col w1 k = Ok (map (py_weather j) r)) as Cw1'.
    { intros j k H. pose proof (Cw j k H) as G. destruct Ww as [Tw _].
      assert (In k (data_keys w)) as Hk by (apply Kw; eapply nth_error_In; eauto).
      destruct (typed_types_exist w k Tw Hk) as [t Et]. rewrite (Cw1 k t _ Et G). f_equal.
      rewrite cast_np.
      - rewrite map_map. apply map_ext. intros i. unfold py_weather. destruct (row_value j i); reflexivity.
      - unfold get_col in G. destruct (dget k (cols w)) as [c|] eqn:Ec; [|discriminate]. injection G as <-.
        destruct (proj2 (proj2 Tw) k c Ec) as [t' [Et' F]]. assert (t' = t) by congruence. subst. auto.
      - intros v Hv. apply in_map_iff in Hv. destruct Hv as [i [Hv _]].
        destruct (row_value j i) as [q|]; [|discriminate]. injection Hv as <-. eauto. }
    clear Cw1 Cw. rewrite K1.
    destruct (mark_ok (data_keys w1) w1 (length r) (data_keys d) Ww1) as [w2 [E2 [W2 [A2 [_ B2]]]]].
    { apply Ww1. } { auto. }
    { intros k Hk Hd. rewrite Kw1 in *. intros Hc. apply Kw in Hk. apply Kw in Hc. destruct (DUP k Hk Hd). auto. }
    rewrite E2.
    assert (forall k, In k (data_keys w2) <-> exists k0, In k0 ks /\ k = stored_as (data_keys d) k0) as K2.
    { intros k. split.
      - intros H. destruct (B2 k H) as [[k0 [H0 ->]]|[H0 H1]]; [|contradiction]. exists k0. split; [|auto].
        apply Kw. rewrite <- Kw1. auto.
      - intros [k0 [H0 ->]]. assert (In k0 (data_keys w1)) as H1 by (rewrite Kw1; apply Kw; auto).
        specialize (A2 k0 H1). apply In_nth_error in H0. destruct H0 as [j H0]. rewrite (Cw1' j k0 H0) in A2.
        unfold get_col in A2. apply dget_In_key. destruct (dget (stored_as (data_keys d) k0) (cols w2)); [eauto|discriminate]. }
    assert (forall k, In k (data_keys d) -> ~ In k (data_keys w2)) as DJ.
    { intros k Hd Hw. apply K2 in Hw. destruct Hw as [k0 [H0 E]]. unfold stored_as in E.
      destruct (in_dec string_dec k0 (data_keys d)) as [Hi|Hi].
      - subst k. destruct (DUP k0 H0 Hi). auto.
      - subst. auto. }
    assert (forall j k, nth_error ks j = Some k ->
              get_col w2 (stored_as (data_keys d) k) = Ok (map (py_weather j) r)) as C2.
    { intros j k H. rewrite A2; [eauto|]. rewrite Kw1. apply Kw. eapply nth_error_In; eauto. }
    destruct (update_ok d1 (length r) (dmap UList (cols w2)) W1) as [d2 [Eu [Wd2 [Kd2 Cd2]]]].
    { rewrite dmap_keys. apply W2. }
    { intros k u H. unfold dmap in H. apply in_map_iff in H. destruct H as [[k' c] [H Hin]]. injection H as <- <-.
      cbn [fst snd cells_of]. assert (In k' (data_keys w2)) as Hk' by (apply in_map_iff; exists (k', c); auto).
      assert (column_or_none d1 (length r) k' = repeat None (length r)) as ->.
      { unfold column_or_none. assert (dget k' (cols d1) = None) as ->; [|reflexivity]. apply dget_None.
        intros Hc. apply (DJ k'); [|auto]. rewrite <- K1. auto. }
      apply repeat_none_homog. pose proof (typed_homogeneous w2 k' (proj1 W2)) as HH.
      unfold col_or in HH. rewrite (NoDup_dget _ k' (cols w2) c) in HH; auto. apply W2. }
    unfold update_data. rewrite Eu. cbn [ubind].
    assert (cols w2 <> [] \/ length r = 0) as NE.
    { left. intros Hc. destruct ks as [|k0 ksr]; [congruence|].
      assert (In (stored_as (data_keys d) k0) (data_keys w2)) as Hx by (apply K2; exists k0; split; [left; auto|auto]).
      unfold data_keys in Hx at 2. rewrite Hc in Hx. destruct Hx. }
    rewrite (added_rows_data w2 (length r) W2 NE) in Wd2, Cd2.
    assert (forall k, In k (data_keys d2) <-> In k (data_keys d) \/ In k (data_keys w2)) as Kd2'.
    { intros k. rewrite Kd2, in_app_iff, filter_In, dmap_keys, K1. fold (data_keys w2).
      destruct (smem k (data_keys d)) eqn:Es.
      - apply smem_In in Es. split; intros; [left|left]; auto.
      - simpl. tauto. }
    destruct (standard_names_format pf d2 (length r + length r) Wd2) as [d' [Ed' [Wd' [Kd' Cd']]]].
    { intros k Hk. apply Kd2' in Hk. destruct Hk as [Hk|Hk]; [apply SD; auto|].
      apply K2 in Hk. destruct Hk as [k0 [H0 ->]]. unfold stored_as.
      destruct (in_dec string_dec k0 (data_keys d)); [|apply SK; auto].
      split; [apply duplicate_key_standard|apply duplicate_not_date]. }
    exists d'. split; [exact Ed'|]. split; [auto|]. split; [|split].
    - intros k. rewrite Kd', Kd2', K2. tauto.
    - intros k c H. assert (In k (data_keys d)) as Hk.
      { unfold get_col in H. apply dget_In_key. destruct (dget k (cols d)); [eauto|discriminate]. }
      assert (In k (data_keys d2)) as Hk2 by (apply Kd2'; auto).
      specialize (Cd2 k Hk2). rewrite (column_or_none_get d1 _ k _ (C1 k c H)) in Cd2.
      rewrite given_data in Cd2 by auto. unfold column_or_none in Cd2.
      assert (dget k (cols w2) = None) as Hn by (apply dget_None; apply DJ; auto). rewrite Hn in Cd2.
      destruct (typed_types_exist d2 k (proj1 Wd2) Hk2) as [t Et]. rewrite (Cd' k t _ Et Cd2). f_equal.
      apply cast_kept.
      + unfold get_col in Cd2. destruct (dget k (cols d2)) as [c2|] eqn:Ec; [|discriminate]. injection Cd2 as <-.
        destruct (proj2 (proj2 (proj1 Wd2)) k c2 Ec) as [t' [Et' F]]. assert (t' = t) by congruence. subst. auto.
      + intros v Hv. apply (NC k c v H). apply in_app_or in Hv. destruct Hv as [Hv|Hv].
        * apply in_map_iff in Hv. destruct Hv as [i [Hv _]].
          destruct (Nat.lt_ge_cases i (length c)); [rewrite <- Hv; apply nth_In; auto|].
          rewrite nth_overflow in Hv by auto. discriminate.
        * apply repeat_spec in Hv. discriminate.
    - intros j k H. pose proof (C2 j k H) as G. set (k2 := stored_as (data_keys d) k) in *.
      assert (In k2 (data_keys w2)) as Hw by (apply K2; exists k; split; [eapply nth_error_In; eauto|auto]).
      assert (In k2 (data_keys d2)) as Hk2 by (apply Kd2'; auto).
      specialize (Cd2 k2 Hk2). rewrite given_data in Cd2 by auto. rewrite (column_or_none_get w2 _ k2 _ G) in Cd2.
      assert (column_or_none d1 (length r) k2 = repeat None (length r)) as E0.
      { unfold column_or_none. assert (dget k2 (cols d1) = None) as ->; [|reflexivity]. apply dget_None.
        intros Hc. apply (DJ k2); [|auto]. rewrite <- K1. auto. }
      rewrite E0 in Cd2.
      destruct (typed_types_exist d2 k2 (proj1 Wd2) Hk2) as [t Et]. rewrite (Cd' k2 t _ Et Cd2). f_equal.
      apply cast_kept.
      + unfold get_col in Cd2. destruct (dget k2 (cols d2)) as [c2|] eqn:Ec; [|discriminate].
        destruct (proj2 (proj2 (proj1 Wd2)) k2 c2 Ec) as [t' [Et' F]]. assert (t' = t) as -> by congruence.
        injection Cd2 as Cd2. rewrite Cd2 in F. exact F.
      + intros v Hv. apply in_app_or in Hv. destruct Hv as [Hv|Hv]; [apply repeat_spec in Hv; discriminate|].
        apply in_map_iff in Hv. destruct Hv as [i [Hv _]]. unfold py_weather in Hv.
        destruct (row_value j i); [|discriminate]. injection Hv as <-. reflexivity.
  Qed.
End Answers.

(* ---- the property ---- *)

(** A table in the standard format with moments and positions. *)
Definition log_table (d : Data) (n : nat) (ts las los : list cell) : Prop :=
  well_formed d n /\ standard_keys (data_keys d) /\ no_cast d /\
  get_col d "datetime" = Ok ts /\ get_col d "lat" = Ok las /\ get_col d "lon" = Ok los.

(** No attribute of the weather collides with a column after the renaming. *)
Definition no_collision (keys ks : list string) : Prop :=
  forall k, In k ks -> In k keys -> ~ In (k ++ "(duplicate)")%string keys /\ ~ In (k ++ "(duplicate)")%string ks.

(** C67 (partial: the weather arrives in rows of its own).  The rows for which
    the weather is known (mode "delete") or all rows (mode "ignore") are kept
    in order; below them come as many rows that hold nothing but the weather,
    in the same order, each with the answer of the model to the moment and the
    position of its row and None where the model had no answer. *)
Theorem weather_rows_partial : forall pf gw ks W d n ts las los m,
  supplies gw ks W -> NoDup ks -> ks <> [] -> standard_keys ks ->
  log_table d n ts las los -> no_collision (data_keys d) ks ->
  (exists i, i < n /\ W (nth i ts None) (nth i las None) (nth i los None) <> None) ->
  exists r d', 
    r = match m with
        | Delete => filter (fun i => match W (nth i ts None) (nth i las None) (nth i los None) with
                                     | Some _ => true | None => false end) (seq 0 n)
        | Ignore => seq 0 n
        end /\
    weather_expand pf gw m d = (d', Ok tt) /\ well_formed d' (length r + length r) /\
    (forall k, In k (data_keys d') <->
       In k (data_keys d) \/ exists k0, In k0 ks /\ k = stored_as (data_keys d) k0) /\
    (forall k c, get_col d k = Ok c ->
       get_col d' k = Ok (map (fun i => nth i c None) r ++ repeat None (length r))) /\
    (forall j k, nth_error ks j = Some k ->
       get_col d' (stored_as (data_keys d) k) =
       Ok (repeat None (length r) ++
           map (fun i => match W (nth i ts None) (nth i las None) (nth i los None) with
                         | Some l => option_map VFloat (nth_error l j)
                         | None => None
                         end) r)).
Proof.
  intros pf gw ks W d n ts las los m sup N N0 SK [wf [SD [NC [Ht [Hla Hlo]]]]] DUP [i [Hi Ki]].
  destruct (expand_ok gw ks W sup N N0 d n wf ts las los Ht Hla Hlo pf m) as [d' [E [W' [K' [A B]]]]]; auto.
  { exists i. split; [auto|]. unfold known, answer. destruct (W _ _ _); [auto|congruence]. }
  exists (rows_kept W n ts las los m), d'. split; [destruct m; reflexivity|]. split; [auto|]. split; [auto|].
  split; [auto|]. split; [auto|]. intros j k H. rewrite (B j k H). do 2 f_equal. apply map_ext. intros x.
  unfold py_weather, row_value, answer.
  destruct (W (nth x ts None) (nth x las None) (nth x los None)); reflexivity.
Qed.
Print Assumptions weather_rows_partial.

(** A logbook of two rows and a model that knows the temperature everywhere
    north of the equator. *)
Definition logbook : Data :=
  mkData [("datetime", [Some (VDatetime 0); Some (VDatetime 60)]);
          ("lat", [Some (VFloat (5#1)); Some (VFloat (-5#1))]);
          ("lon", [Some (VFloat (7#1)); Some (VFloat (8#1))]);
          ("temp", [Some (VFloat (20#1)); Some (VFloat (21#1))])]
         [("datetime", Some TDatetime); ("lat", Some TFloat); ("lon", Some TFloat); ("temp", Some TFloat)] 2.

Definition north (t la lo : cell) : option (list Q) :=
  match la with
  | Some (VFloat q) => if Qle_bool 0 q then Some [(q * (2#1))%Q; 30#1] else None
  | _ => None
  end.

Definition north_model (t la lo : cell) : result (dict cell) :=
  match north t la lo with
  | Some l => Ok (combine ["temp"; "humidity"] (map (fun q => Some (VNpFloat q)) l))
  | None => Raise ValueError
  end.

Lemma logbook_log : log_table logbook 2 [Some (VDatetime 0); Some (VDatetime 60)]
  [Some (VFloat (5#1)); Some (VFloat (-5#1))] [Some (VFloat (7#1)); Some (VFloat (8#1))].
Proof.
  split; [apply wfb_ok; reflexivity|]. split.
  { intros k H. change (In k ["datetime"; "lat"; "lon"; "temp"]) in H.
    destruct H as [<-|[<-|[<-|[<-|[]]]]]; (split; [vm_compute; reflexivity|discriminate]). }
  split; [|repeat split].
  intros k c v H Hv. unfold get_col in H. destruct (dget k (cols logbook)) as [c'|] eqn:E; [|discriminate].
  injection H as ->. apply dget_Some_In in E. cbn in E.
  repeat destruct E as [E|E]; try (injection E as <- <-; cbn in Hv; repeat destruct Hv as [Hv|Hv];
    try (injection Hv as <-; reflexivity); destruct Hv); destruct E.
Qed.

Example weather_rows_meet :
  supplies north_model ["temp"; "humidity"] north /\ NoDup ["temp"; "humidity"] /\
  standard_keys ["temp"; "humidity"] /\ no_collision (data_keys logbook) ["temp"; "humidity"] /\
  north (Some (VDatetime 0)) (Some (VFloat (5#1))) (Some (VFloat (7#1))) <> None /\
  (forall pf, cols (fst (weather_expand pf north_model Delete logbook)) =
    [("datetime", [Some (VDatetime 0); None]); ("lat", [Some (VFloat (5#1)); None]);
     ("lon", [Some (VFloat (7#1)); None]); ("temp", [Some (VFloat (20#1)); None]);
     ("humidity", [None; Some (VFloat (30#1))]); ("temp(duplicate)", [None; Some (VFloat (10#1))])]).
Proof.
  split; [|split; [|split; [|split; [|split]]]].
  - intros t la lo. unfold north_model, north. destruct la as [[q| | | | | | | |]|]; auto.
    destruct (Qle_bool 0 q); auto.
  - repeat constructor; cbn; intuition discriminate.
  - intros k [<-|[<-|[]]]; (split; [vm_compute; reflexivity|discriminate]).
  - intros k Hk _. split; intros H; cbn in H; destruct Hk as [<-|[<-|[]]]; cbn in H; intuition discriminate.
  - discriminate.
  - intros pf. vm_compute. reflexivity.
Qed.

(** C67 refuted: after expanding a log of two rows with a weather model that
    knows everything there are four rows and none of them has both a position
    and a weather.  In the mode "ignore", when the model has no answer at all,
    TypeError is raised instead of filling with None. *)
Theorem weather_expander_refuted :
  (exists gw ks W d, supplies gw ks W /\ well_formed d 2 /\ (forall t la lo, W t la lo <> None) /\
     forall pf, exists d', weather_expand pf gw Delete d = (d', Ok tt) /\ n_rows d' = 4%Z /\
       forall k i la t, In k ks -> get_col d' "lat" = Ok la -> get_col d' k = Ok t ->
         nth i la None = None \/ nth i t None = None) /\
  (exists gw d, well_formed d 2 /\ (forall t la lo, gw t la lo = Raise ValueError) /\
     forall pf, weather_expand pf gw Ignore d = (d, Raise TypeError)).
Proof.
  split.
  - exists (fun _ _ _ => Ok [("humidity", Some (VNpFloat (30#1)))]), ["humidity"], (fun _ _ _ => Some [30#1]), logbook.
    split; [intros t la lo; split; reflexivity|]. split; [apply wfb_ok; reflexivity|].
    split; [discriminate|]. intros pf. eexists. split; [vm_compute; reflexivity|]. split; [reflexivity|].
    intros k i la t [<-|[]] E1 E2. vm_compute in E1, E2. injection E1 as <-. injection E2 as <-.
    destruct i as [|[|[|[|i]]]]; cbn; auto. destruct i; auto.
  - exists (fun _ _ _ => Raise ValueError), logbook. split; [apply wfb_ok; reflexivity|].
    split; [auto|]. intros pf. vm_compute. reflexivity.
Qed.
Print Assumptions weather_expander_refuted.
