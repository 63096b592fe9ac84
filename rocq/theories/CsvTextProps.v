(** * Properties of the text of the files (C133) *)

From Coq Require Import String Ascii.
From Coq Require Import List Bool Arith ZArith Reals Lra Lia.
From Verif Require Import Py Num ListX TableModel TableSpec TableProps CsvSpec CsvModel CsvProps WPointsModel InterpModel DataModel CloudModel CloudProps
  DataKeyProps CurveModel CurveProps MultiModel MultiProps CsvTextModel.
Import List ListNotations.
Open Scope nat_scope.
Open Scope list_scope.

(** No field of the rows is longer than the limit of the [csv] module. *)
Definition fits {A} (len : A -> nat) (limit : nat) (rows : list (list A)) : Prop :=
  forall row f, In row rows -> In f row -> len f <= limit.

Lemma skipn_nth_cons : forall A (l : list A) n x, nth_error l n = Some x -> skipn n l = x :: skipn (S n) l.
Proof. induction l as [|y l IH]; intros [|n] x H; try discriminate; cbn in *; [congruence|]. rewrite (IH n x H). reflexivity. Qed.

Definition good_delimiter (d : ascii) : Prop := d <> QUOTE /\ d <> CR /\ d <> LF.

Section Text.
  Variable limit : nat.
  Variable d : ascii.
  Hypothesis HD : good_delimiter d.

  Lemma read_open : forall p o o' c t, read_text limit d p o (c :: t) = read_text limit d p o' (c :: t).
  Proof. reflexivity. Qed.

  Lemma special_false : forall c, special d c = false -> c <> d /\ c <> QUOTE /\ c <> CR /\ c <> LF.
  Proof.
    intros c H. unfold special, is_newline in H. apply orb_false_elim in H. destruct H as [H H2].
    apply orb_false_elim in H. destruct H as [H0 H1]. apply orb_false_elim in H2. destruct H2 as [H2 H3].
    repeat split; intros ->; rewrite Ascii.eqb_refl in *; discriminate.
  Qed.

  Lemma eqb_ne : forall a b : ascii, a <> b -> Ascii.eqb a b = false.
  Proof. intros a b H. destruct (Ascii.eqb_spec a b); auto; contradiction. Qed.

  Lemma newline_ne : forall c, c <> CR -> c <> LF -> is_newline c = false.
  Proof. intros c H1 H2. unfold is_newline. rewrite !eqb_ne by auto. auto. Qed.

  Lemma ends_ne : forall c r, c <> CR -> c <> LF -> ends_line c r = false.
  Proof. intros c r H1 H2. unfold ends_line. rewrite !eqb_ne by auto. auto. Qed.

  Lemma add_ok : forall s fs f c, S (length f) <= limit -> add_char limit s (mkParser s fs f) c = Ok (mkParser s fs (c :: f)).
  Proof. intros. unfold add_char. cbn [p_field p_fields]. assert (limit <=? length f = false) as -> by (apply Nat.leb_gt; lia). auto. Qed.

  Lemma add_ok' : forall s s' fs f c, S (length f) <= limit -> add_char limit s (mkParser s' fs f) c = Ok (mkParser s fs (c :: f)).
  Proof. intros. unfold add_char. cbn [p_field p_fields]. assert (limit <=? length f = false) as -> by (apply Nat.leb_gt; lia). auto. Qed.

  Lemma read_plain : forall f rest fs acc, existsb (special d) f = false -> length acc + length f <= limit ->
    read_text limit d (mkParser InField fs acc) true (f ++ rest) = read_text limit d (mkParser InField fs (rev f ++ acc)) true rest.
  Proof.
    induction f as [|c f IH]; intros rest fs acc H HL; [reflexivity|].
    cbn [existsb] in H. apply orb_false_elim in H. destruct H as [H1 H2].
    destruct (special_false c H1) as [A1 [A2 [A3 A4]]]. cbn [length] in HL.
    cbn [app read_text]. unfold process_char at 1. cbn [p_state].
    rewrite newline_ne, eqb_ne by auto. rewrite add_ok' by lia. cbn [rbind]. rewrite ends_ne by auto.
    rewrite IH by (auto; cbn [length]; lia). cbn [rev]. rewrite <- app_assoc. reflexivity.
  Qed.

  Lemma read_quoted : forall f rest fs acc o, length acc + length f <= limit ->
    read_text limit d (mkParser InQuotedField fs acc) o (double_quotes f ++ QUOTE :: rest) =
    read_text limit d (mkParser QuoteInQuotedField fs (rev f ++ acc)) true rest.
  Proof.
    induction f as [|c f IH]; intros rest fs acc o HL; [reflexivity|]. cbn [length] in HL.
    unfold double_quotes. cbn [flat_map]. fold (double_quotes f). destruct (Ascii.eqb_spec c QUOTE) as [->|N].
    - change ((([QUOTE; QUOTE] ++ double_quotes f) ++ QUOTE :: rest)) with (QUOTE :: QUOTE :: (double_quotes f ++ QUOTE :: rest)).
      cbn [read_text]. unfold process_char at 1. cbn [p_state p_fields p_field]. rewrite Ascii.eqb_refl. cbn [rbind].
      change (ends_line QUOTE (QUOTE :: double_quotes f ++ QUOTE :: rest)) with false. cbn iota.
      unfold process_char at 1. cbn [p_state]. rewrite Ascii.eqb_refl. rewrite add_ok' by lia. cbn [rbind].
      change (ends_line QUOTE (double_quotes f ++ QUOTE :: rest)) with false. cbn iota.
      rewrite IH by (cbn [length]; lia). cbn [rev]. rewrite <- app_assoc. reflexivity.
    - cbn [app read_text]. unfold process_char at 1. cbn [p_state]. rewrite eqb_ne by auto. rewrite add_ok' by lia. cbn [rbind].
      assert (forall o, read_text limit d (mkParser InQuotedField fs (c :: acc)) o (double_quotes f ++ QUOTE :: rest) =
        read_text limit d (mkParser QuoteInQuotedField fs (rev (c :: f) ++ acc)) true rest) as E.
      { intros o'. rewrite IH by (cbn [length]; lia). cbn [rev]. rewrite <- app_assoc. reflexivity. }
      destruct (ends_line c _); [unfold process_eol; cbn [p_state]|]; apply E.
  Qed.

  (** A field, followed by the delimiter or the end of the row. *)
  Lemma read_field : forall f rest fs o, length f <= limit ->
    read_text limit d (mkParser StartField fs []) o (write_field d f ++ d :: rest) =
      read_text limit d (mkParser StartField (f :: fs) []) true rest /\
    read_text limit d (mkParser StartField fs []) o (write_field d f ++ CR :: LF :: rest) =
      read_text limit d (mkParser EatCRNL (f :: fs) []) true (LF :: rest).
  Proof.
    intros f rest fs o HL. destruct HD as [D1 [D2 D3]].
    assert (forall s, s = InField \/ s = QuoteInQuotedField -> forall g,
      read_text limit d (mkParser s fs (rev g)) true (d :: rest) = read_text limit d (mkParser StartField (g :: fs) []) true rest /\
      read_text limit d (mkParser s fs (rev g)) true (CR :: LF :: rest) =
        read_text limit d (mkParser EatCRNL (g :: fs) []) true (LF :: rest)) as E.
    { intros s HS g. split.
      - cbn [read_text]. destruct HS as [-> | ->]; unfold process_char at 1; cbn [p_state];
          rewrite ?(newline_ne d), ?(eqb_ne d QUOTE), Ascii.eqb_refl by auto; cbn [rbind];
          rewrite ends_ne by auto; unfold save_field; cbn [p_field p_fields]; rewrite rev_involutive; reflexivity.
      - cbn [read_text]. destruct HS as [-> | ->]; unfold process_char at 1; cbn [p_state].
        + change (is_newline CR) with true. cbn iota. cbn [rbind]. change (ends_line CR (LF :: rest)) with false. cbn iota.
          unfold save_field; cbn [p_field p_fields]. rewrite rev_involutive. reflexivity.
        + change (Ascii.eqb CR QUOTE) with false. cbn iota. rewrite (eqb_ne CR d) by auto.
          change (is_newline CR) with true. cbn iota. cbn [rbind]. change (ends_line CR (LF :: rest)) with false. cbn iota.
          unfold save_field; cbn [p_field p_fields]. rewrite rev_involutive. reflexivity. }
    unfold write_field. destruct (existsb (special d) f) eqn:ES.
    - cbn [app]. rewrite <- !app_assoc. cbn [app].
      assert (forall tl, read_text limit d (mkParser StartField fs []) o (QUOTE :: (double_quotes f ++ QUOTE :: tl)) =
        read_text limit d (mkParser QuoteInQuotedField fs (rev f)) true tl) as Q.
      { intros tl. cbn [read_text]. unfold process_char at 1, start_field. cbn [p_state].
        change (is_newline QUOTE) with false. cbn iota. rewrite Ascii.eqb_refl. cbn [rbind p_fields p_field].
        change (ends_line QUOTE (double_quotes f ++ QUOTE :: tl)) with false. cbn iota.
        rewrite read_quoted by (cbn [length]; lia). rewrite app_nil_r. reflexivity. }
      rewrite !Q. apply E. auto.
    - destruct f as [|c f].
      + cbn [app]. split.
        * cbn [read_text]. unfold process_char at 1, start_field. cbn [p_state].
          rewrite newline_ne, eqb_ne, Ascii.eqb_refl by auto. cbn [rbind]. rewrite ends_ne by auto. reflexivity.
        * reflexivity.
      + cbn [existsb] in ES. apply orb_false_elim in ES. destruct ES as [ES1 ES2].
        destruct (special_false c ES1) as [A1 [A2 [A3 A4]]]. cbn [length] in HL.
        assert (forall tl, read_text limit d (mkParser StartField fs []) o ((c :: f) ++ tl) =
          read_text limit d (mkParser InField fs (rev (c :: f))) true tl) as Q.
        { intros tl. cbn [app read_text]. unfold process_char at 1, start_field. cbn [p_state].
          rewrite newline_ne, !eqb_ne by auto. rewrite add_ok' by (cbn [length]; lia). cbn [rbind].
          rewrite ends_ne by auto. rewrite read_plain by (auto; cbn [length]; lia). reflexivity. }
        rewrite !Q. apply E. auto.
  Qed.

  Lemma read_join : forall row rest fs o, row <> [] -> (forall f, In f row -> length f <= limit) ->
    read_text limit d (mkParser StartField fs []) o (join_fields d row ++ CR :: LF :: rest) =
    do rows <- read_text limit d fresh false rest; Ok ((rev fs ++ row) :: rows).
  Proof.
    induction row as [|f row IH]; intros rest fs o NE HF; [contradiction|].
    destruct row as [|g row].
    - cbn [join_fields]. rewrite (proj2 (read_field f rest fs o (HF f (or_introl eq_refl)))). reflexivity.
    - change (join_fields d (f :: g :: row)) with (write_field d f ++ d :: join_fields d (g :: row)).
      rewrite <- app_assoc. cbn [app]. rewrite (proj1 (read_field f _ fs o (HF f (or_introl eq_refl)))).
      rewrite IH by (try discriminate; intros; apply HF; right; auto). cbn [rev]. rewrite <- app_assoc. reflexivity.
  Qed.

  Lemma read_record : forall c t fs o, c <> CR -> c <> LF ->
    read_text limit d (mkParser StartRecord fs []) o (c :: t) = read_text limit d (mkParser StartField fs []) o (c :: t).
  Proof.
    intros c t fs o H1 H2. cbn [read_text].
    assert (process_char limit d (mkParser StartRecord fs []) c = process_char limit d (mkParser StartField fs []) c) as ->; [|reflexivity].
    unfold process_char. cbn [p_state]. rewrite newline_ne by auto. reflexivity.
  Qed.

  Lemma write_field_head : forall f tl, f <> [] -> exists c t, write_field d f ++ tl = c :: t /\ c <> CR /\ c <> LF.
  Proof.
    intros f tl NE. unfold write_field. destruct (existsb (special d) f) eqn:ES.
    - cbn [app]. do 2 eexists. split; [reflexivity|]. split; discriminate.
    - destruct f as [|c f]; [contradiction|]. cbn [existsb] in ES. apply orb_false_elim in ES. destruct ES as [ES _].
      destruct (special_false c ES) as [_ [_ [A3 A4]]]. cbn [app]. eauto.
  Qed.

  Lemma read_row : forall row rest o, (forall f, In f row -> length f <= limit) ->
    read_text limit d fresh o (write_row d row ++ rest) = do rows <- read_text limit d fresh false rest; Ok (row :: rows).
  Proof.
    intros row rest o HF. destruct HD as [D1 [D2 D3]].
    assert (forall c t, c <> CR -> c <> LF -> forall r, r <> [] -> (forall f, In f r -> length f <= limit) ->
      join_fields d r ++ CR :: LF :: rest = c :: t ->
      read_text limit d fresh o (join_fields d r ++ CR :: LF :: rest) = do rows <- read_text limit d fresh false rest; Ok (r :: rows)) as J.
    { intros c t C1 C2 r NE HF' E. rewrite E. unfold fresh at 1. rewrite read_record by auto. rewrite <- E.
      rewrite read_join by auto. reflexivity. }
    unfold write_row. destruct row as [|f [|g row]].
    - cbn [join_fields app]. reflexivity.
    - destruct f as [|c f].
      + cbn [app]. cbn [read_text]. unfold process_char at 1, start_field, fresh. cbn [p_state p_fields p_field].
        change (is_newline QUOTE) with false. rewrite Ascii.eqb_refl. cbn iota. cbn [rbind].
        change (ends_line QUOTE (QUOTE :: CR :: LF :: rest)) with false. cbn iota. unfold process_char at 1. cbn [p_state p_fields p_field].
        rewrite Ascii.eqb_refl. cbn [rbind]. change (ends_line QUOTE (CR :: LF :: rest)) with false. cbn iota.
        unfold process_char at 1. cbn [p_state p_fields p_field]. change (Ascii.eqb CR QUOTE) with false. cbn iota.
        rewrite (eqb_ne CR d) by auto. reflexivity.
      + rewrite <- app_assoc. change (join_fields d [c :: f]) with (write_field d (c :: f)).
        destruct (write_field_head (c :: f) ([CR; LF] ++ rest)) as [c' [t [E [C1 C2]]]]; [discriminate|].
        apply (J c' t C1 C2 [c :: f]); auto. discriminate.
    - assert (join_fields d (f :: g :: row) ++ [CR; LF] = match f :: g :: row with [[]] => [QUOTE; QUOTE] | _ => join_fields d (f :: g :: row) end ++ [CR; LF]) as E0
        by (destruct f; reflexivity).
      rewrite <- E0, <- app_assoc. cbn [app].
      destruct f as [|c f].
      + apply (J d (join_fields d (g :: row) ++ CR :: LF :: rest)); auto. discriminate.
      + destruct (write_field_head (c :: f) (d :: join_fields d (g :: row) ++ CR :: LF :: rest)) as [c' [t [E [C1 C2]]]]; [discriminate|].
        apply (J c' t C1 C2); auto; [discriminate|].
        change (join_fields d ((c :: f) :: g :: row)) with (write_field d (c :: f) ++ d :: join_fields d (g :: row)).
        rewrite <- app_assoc. exact E.
  Qed.

  Lemma read_written : forall rows, fits (@length ascii) limit rows -> read_rows_of limit d (write_rows d rows) = Ok rows.
  Proof.
    unfold read_rows_of, write_rows. induction rows as [|r rows IH]; intros HF; [reflexivity|].
    cbn [flat_map]. rewrite read_row by (intros f Hf; apply (HF r f); [left|]; auto).
    rewrite IH by (intros r' f H1 H2; apply (HF r' f); [right|]; auto). reflexivity.
  Qed.
End Text.

(** C133: reading a text written by [csv.writer] with the same delimiter gives the fields back,
    whatever characters they contain. *)
Theorem csv_text_round_trip : forall limit d rows, good_delimiter d -> fits (@length ascii) limit rows ->
  read_rows_of limit d (write_rows d rows) = Ok rows.
Proof. intros. apply read_written; auto. Qed.
Print Assumptions csv_text_round_trip.

(** A name with a delimiter, a name with quotes and line ends, an empty name. *)
Definition hard_rows : list (list text) :=
  map (map list_ascii_of_string) [["Sails"; "jib:small"; ""]; [""]; []; [String QUOTE (String CR (String LF "x"))]]%string.

Example csv_text_meets : good_delimiter colon /\ fits (@length ascii) 100 hard_rows /\
  read_rows_of 100 colon (write_rows colon hard_rows) = Ok hard_rows /\
  string_of_list_ascii (write_row colon (hd [] hard_rows)) =
    ("Sails:" ++ String QUOTE ("jib:small" ++ String QUOTE (":" ++ String CR (String LF ""))))%string.
Proof.
  split; [repeat split; discriminate|]. split.
  - intros row f [<-|[<-|[<-|[<-|[]]]]] H; cbn in H; repeat (destruct H as [<-|H]; [cbn; lia|]); contradiction.
  - split; reflexivity.
Qed.

(* ------------------------------------------------------------------ *)

Lemma strings_texts : forall rows, strings (texts rows) = rows.
Proof.
  intros rows. unfold strings, texts. rewrite map_map. rewrite <- (map_id rows) at 2. apply map_ext. intros r.
  rewrite map_map. rewrite <- (map_id r) at 2. apply map_ext. intros s. apply string_of_list_ascii_of_string.
Qed.

Lemma length_ascii : forall s, length (list_ascii_of_string s) = String.length s.
Proof. induction s; cbn; auto. Qed.

Lemma rows_after_written : forall limit d rows, good_delimiter d -> fits String.length limit rows ->
  rows_after limit d (write_rows d (texts rows)) = Ok rows.
Proof.
  intros limit d rows HD HF. unfold rows_after. rewrite csv_text_round_trip; auto.
  - cbn [rbind]. rewrite strings_texts. reflexivity.
  - intros row f H1 H2. unfold texts in H1. apply in_map_iff in H1. destruct H1 as [r [<- H1]].
    apply in_map_iff in H2. destruct H2 as [s [<- H2]]. rewrite length_ascii. apply (HF r s); auto.
Qed.

Lemma good_comma : good_delimiter comma. Proof. repeat split; discriminate. Qed.
Lemma good_colon : good_delimiter colon. Proof. repeat split; discriminate. Qed.
Lemma good_semicolon : good_delimiter semicolon. Proof. repeat split; discriminate. Qed.

Lemma write_cons : forall d r rows, write_rows d (texts (r :: rows)) = write_row d (map list_ascii_of_string r) ++ write_rows d (texts rows).
Proof. reflexivity. Qed.

Lemma header : forall d name,
  In (d, name) [(comma, "PolarDiagramTable"); (comma, "PolarDiagramPointcloud"); (colon, "PolarDiagramCurve"); (colon, "PolarDiagramMultiSails")]%string ->
  exists l, (forall rest, readline (write_row d (map list_ascii_of_string [name]) ++ rest) = (l, rest)) /\
    rstrip (string_of_list_ascii l) = name.
Proof.
  intros d name H.
  destruct H as [H|[H|[H|[H|[]]]]]; injection H as <- <-; eexists; (split; [intros rest; cbn [map]; reflexivity|vm_compute; reflexivity]).
Qed.

(** C133: the files of tables, point clouds and curves start with the name of their class, and
    the text that is written is read back as the same diagram. *)
Theorem diagram_text_round_trip : forall limit show lit tofloat functions x,
  match x with
  | DTable t => table_ok t /\ t_ws t <> [] /\ t_wa t <> [] /\ t = mkTable (t_ws t) (t_wa t) (t_bs t) false /\
      (forall v, in_table t v -> readable show lit tofloat v) /\ fits String.length limit (table_to_csv show Hro t)
  | DCloud c => (exists pts, c = cloud_new pts) /\ c <> [] /\
      (forall p, In p c -> readable show lit tofloat (pws p) /\ readable show lit tofloat (pwa p) /\
                           readable show lit tofloat (pbs p)) /\
      fits String.length limit (cloud_to_csv show c)
  | DCurve c => curve_new (c_fun c) (c_params c) (c_rad c) = Ok c /\ functions (f_name (c_fun c)) = Some (c_fun c) /\
      (forall v, In v (c_params c) -> readable show lit tofloat v) /\ fits String.length limit (curve_to_csv show c)
  end ->
  diagram_of_text limit lit functions (diagram_text show x) = Ok x.
Proof.
  intros limit show lit tofloat functions x.
  assert (forall A (r : list A) rows (len : A -> nat), fits len limit (r :: rows) -> fits len limit rows) as FT
    by (intros A r rows len HF row f H1 H2; apply (HF row f); [right|]; auto).
  destruct x as [t|c|c].
  - intros [H1 [H2 [H3 [H4 [H5 HF]]]]].
    destruct (table_hro_round_trip show lit tofloat t H1 H2 H3 H5) as [rows [E1 E2]].
    unfold diagram_of_text, diagram_text. rewrite E1 in *. rewrite write_cons.
    destruct (header comma "PolarDiagramTable"%string) as [l [-> ->]]; [cbn; auto 6|]. cbn [String.eqb Ascii.eqb Bool.eqb].
    rewrite rows_after_written by (eauto; apply good_comma). cbn [rbind]. rewrite E2.
    cbn [rbind]. f_equal. f_equal. auto.
  - intros [[pts ->] [H2 [H3 HF]]].
    destruct (cloud_csv_round_trip show lit tofloat pts H2 H3) as [rows [E1 E2]].
    unfold diagram_of_text, diagram_text. rewrite E1 in *. rewrite write_cons.
    destruct (header comma "PolarDiagramPointcloud"%string) as [l [-> ->]]; [cbn; auto 6|]. cbn [String.eqb Ascii.eqb Bool.eqb].
    rewrite rows_after_written by (eauto; apply good_comma). cbn [rbind]. rewrite E2.
    reflexivity.
  - intros [H1 [H2 [H3 HF]]].
    destruct (curve_csv_round_trip show lit tofloat functions _ _ _ _ H1 H2 H3) as [rows [E1 E2]].
    unfold diagram_of_text, diagram_text. rewrite E1 in *. rewrite write_cons.
    destruct (header colon "PolarDiagramCurve"%string) as [l [-> ->]]; [cbn; auto 6|]. cbn [String.eqb Ascii.eqb Bool.eqb].
    rewrite rows_after_written by (eauto; apply good_colon). cbn [rbind]. rewrite E2.
    reflexivity.
Qed.
Print Assumptions diagram_text_round_trip.

(** C133: the same for tables in the formats "orc" and "opencpn". *)
Theorem table_extern_text_round_trip : forall limit f show lit tofloat (t : table R), f = Orc \/ f = Opencpn ->
  table_ok t -> t_ws t <> [] -> t_wa t <> [] -> t = mkTable (t_ws t) (t_wa t) (t_bs t) false ->
  (forall v, in_table t v -> readable show lit tofloat v) ->
  fits String.length limit (table_to_csv show f t) ->
  table_of_text limit lit tofloat f (table_text_of show f t) = Ok t.
Proof.
  intros limit f show lit tofloat t HF H1 H2 H3 H4 H5 H6. unfold table_of_text, table_text_of.
  rewrite rows_after_written; [|destruct HF as [-> | ->]; [apply good_semicolon|apply good_comma]|exact H6].
  cbn [rbind]. rewrite (table_extern_round_trip f show lit tofloat t); auto.
  - f_equal. auto.
  - destruct HF as [-> | ->]; discriminate.
Qed.
Print Assumptions table_extern_text_round_trip.

(* ------------------------------------------------------------------ *)
(** ** Several sails *)

Lemma save_subs_other : forall show path l fs i q, (forall j, i <= j < i + length l -> q <> sub_csv_path path j) ->
  save_subs show fs path i l q = fs q.
Proof.
  intros show path. induction l as [|x l IH]; intros fs i q H; [reflexivity|]. cbn [save_subs length] in *.
  rewrite IH by (intros j Hj; apply H; lia). unfold save. destruct (String.eqb_spec q (sub_csv_path path i)) as [->|]; auto.
  exfalso. apply (H i); auto. lia.
Qed.

Lemma save_subs_nth : forall show path l fs i k x, nth_error l k = Some x ->
  save_subs show fs path i l (sub_csv_path path (i + k)) = Some (diagram_text show x).
Proof.
  intros show path. induction l as [|y l IH]; intros fs i [|k] x H; try discriminate.
  - injection H as ->. cbn [save_subs]. rewrite Nat.add_0_r. rewrite save_subs_other.
    + unfold save. rewrite String.eqb_refl. reflexivity.
    + intros j Hj E. apply sub_csv_path_inj in E. destruct E as [_ E]. lia.
  - cbn [save_subs]. rewrite <- Nat.add_succ_comm. apply IH. auto.
Qed.

(** C133: a diagram with several sails, whatever characters the names of the sails contain, is
    read back from the texts of its files, if its parts are. *)
Theorem multi_text_round_trip : forall limit show lit functions (pds : list diagram) sails path fs,
  let m := multi_new pds sails in
  (forall x, In x pds -> diagram_of_text limit lit functions (diagram_text show x) = Ok x) ->
  (forall s, In s ("Sails"%string :: m_sails m) -> String.length s <= limit) ->
  multi_load limit lit functions (multi_save show fs path m) path = Ok m.
Proof.
  intros limit show lit functions pds sails path fs m HX HS. unfold multi_load.
  assert (length (m_sails m) = length pds) as LS by apply multi_names.
  unfold multi_save at 1. rewrite save_subs_other by (intros j _ E; symmetry in E; apply sub_not_main in E; auto).
  unfold save. rewrite String.eqb_refl. unfold sails_text. rewrite write_cons.
  destruct (header colon "PolarDiagramMultiSails"%string) as [l [-> ->]]; [cbn; auto 6|]. rewrite String.eqb_refl.
  rewrite rows_after_written; [|apply good_colon|].
  2:{ intros row f [<-|[]] H. apply HS. auto. }
  cbn [rbind next_row tl]. rewrite LS.
  assert (mapM (fun i => load limit lit functions (multi_save show fs path m) (sub_csv_path path i)) (seq 0 (length pds)) = Ok pds) as ->.
  { assert (forall k, k <= length pds ->
      mapM (fun i => load limit lit functions (multi_save show fs path m) (sub_csv_path path i)) (seq (length pds - k) k) =
      Ok (skipn (length pds - k) pds)) as G.
    { induction k as [|k IH]; intros K.
      - rewrite Nat.sub_0_r, skipn_all. reflexivity.
      - cbn [seq mapM]. unfold load at 1. unfold multi_save at 1.
        destruct (nth_error pds (length pds - S k)) as [x|] eqn:Ex; [|apply nth_error_None in Ex; lia].
        pose proof (save_subs_nth show path pds (save fs path (sails_text (m_sails m))) 0 (length pds - S k) x Ex) as W.
        rewrite Nat.add_0_l in W. change (m_diagrams m) with pds. rewrite W.
        rewrite HX by (eapply nth_error_In; eauto). cbn [rbind].
        replace (S (length pds - S k)) with (length pds - k) by lia. rewrite IH by lia. cbn [rbind]. f_equal.
        replace (length pds - k) with (S (length pds - S k)) by lia. symmetry. apply skipn_nth_cons. auto. }
    specialize (G (length pds) (le_n _)). rewrite Nat.sub_diag in G. exact G. }
  cbn [rbind]. rewrite multi_new_same by auto. reflexivity.
Qed.
Print Assumptions multi_text_round_trip.

(* ------------------------------------------------------------------ *)
(** ** The layout of the files *)

(** A text without the characters that need quotes. *)
Definition plain (d : ascii) (s : string) : Prop :=
  s <> ""%string /\ forall c, In c (list_ascii_of_string s) -> c <> d /\ c <> QUOTE /\ c <> CR /\ c <> LF.

(** Lines, each with its end. *)
Definition lines (l : list string) : string :=
  String.concat "" (map (fun s => (s ++ String CR (String LF ""))%string) l).

(** The line of the entries of a row. *)
Definition line (d : string) (row : list string) : string := String.concat d row.

Lemma plain_field : forall d s, plain d s -> write_field d (list_ascii_of_string s) = list_ascii_of_string s.
Proof.
  intros d s [_ H]. unfold write_field. destruct (existsb (special d) (list_ascii_of_string s)) eqn:E; auto.
  apply existsb_exists in E. destruct E as [c [Hc E]]. destruct (H c Hc) as [A1 [A2 [A3 A4]]]. exfalso.
  unfold special, is_newline in E. rewrite !eqb_ne in E by auto. discriminate.
Qed.

Lemma ascii_app : forall a b, list_ascii_of_string (a ++ b)%string = list_ascii_of_string a ++ list_ascii_of_string b.
Proof. induction a; cbn; intros; f_equal; auto. Qed.

Lemma join_plain : forall d row, (forall s, In s row -> plain d s) ->
  join_fields d (map list_ascii_of_string row) = list_ascii_of_string (line (String d "") row).
Proof.
  intros d. induction row as [|s row IH]; intros H; [reflexivity|]. destruct row as [|s' row].
  - cbn [map join_fields line String.concat]. apply plain_field. apply H. left. auto.
  - change (join_fields d (map list_ascii_of_string (s :: s' :: row))) with
      (write_field d (list_ascii_of_string s) ++ d :: join_fields d (map list_ascii_of_string (s' :: row))).
    rewrite IH by (intros; apply H; right; auto). rewrite plain_field by (apply H; left; auto).
    change (line (String d "") (s :: s' :: row)) with (s ++ String d "" ++ line (String d "") (s' :: row))%string.
    rewrite !ascii_app. reflexivity.
Qed.

Lemma row_plain : forall d row, (forall s, In s row -> plain d s) ->
  write_row d (map list_ascii_of_string row) = list_ascii_of_string (line (String d "") row ++ String CR (String LF ""))%string.
Proof.
  intros d row H. unfold write_row. rewrite ascii_app, <- join_plain by auto. f_equal.
  destruct row as [|s [|s' row]]; try reflexivity.
  - cbn [map]. destruct (H s (or_introl eq_refl)) as [NE _]. destruct s; [contradiction|reflexivity].
  - cbn [map]. destruct (list_ascii_of_string s); reflexivity.
Qed.

Lemma lines_cons : forall s l, lines (s :: l) = (s ++ String CR (String LF "") ++ lines l)%string.
Proof.
  intros s l. unfold lines. cbn [map]. destruct l as [|s' l].
  - cbn [map String.concat]. rewrite <- sapp_assoc. rewrite append_nil_r. reflexivity.
  - cbn [map String.concat]. rewrite sapp_assoc. reflexivity.
Qed.

Lemma rows_plain : forall d rows, (forall row s, In row rows -> In s row -> plain d s) ->
  string_of_list_ascii (write_rows d (texts rows)) = lines (map (line (String d "")) rows).
Proof.
  intros d rows H. rewrite <- (string_of_list_ascii_of_string (lines _)). f_equal.
  induction rows as [|r rows IH]; [reflexivity|].
  rewrite write_cons, IH by (intros row s H1 H2; apply (H row s); [right|]; auto).
  rewrite row_plain by (intros s Hs; apply (H r s); [left|]; auto). cbn [map]. rewrite lines_cons, <- sapp_assoc.
  rewrite (ascii_app (_ ++ _)). reflexivity.
Qed.

(** C133: the layout of the files, for numbers, names and functions without delimiters. *)
Theorem file_layout : forall show (show_plain : forall x, plain comma (show x) /\ plain colon (show x) /\ plain semicolon (show x)),
  (forall t, string_of_list_ascii (diagram_text show (DTable t)) =
     lines (["PolarDiagramTable"; "TWS"; line "," (map show (t_ws t)); "TWA"; line "," (map show (t_wa t)); "BSP"]%string ++
            map (fun row => line "," (map show row)) (t_bs t))) /\
  (forall c, string_of_list_ascii (diagram_text show (DCloud c)) =
     lines (["PolarDiagramPointcloud"; "TWS,TWA,BSP"]%string ++
            map (fun p => line "," [show (pws p); show (pwa p); show (pbs p)]) c)) /\
  (forall c, plain colon (f_name (c_fun c)) -> string_of_list_ascii (diagram_text show (DCurve c)) =
     lines ["PolarDiagramCurve"; "Function:" ++ f_name (c_fun c); if c_rad c then "Radians:True" else "Radians:False";
            line ":" ("Parameters" :: map show (c_params c))]%string) /\
  (forall sails, (forall s, In s sails -> plain colon s) -> string_of_list_ascii (sails_text sails) =
     lines ["PolarDiagramMultiSails"; line ":" ("Sails" :: sails)]%string) /\
  (forall t, string_of_list_ascii (table_text_of show Orc t) =
     lines ([line ";" ("twa/tws" :: map show (t_ws t)); line ";" (map show (repeat 0%R (S (length (t_ws t)))))]%string ++
            map (fun ar => line ";" (show (fst ar) :: map show (snd ar))) (combine (t_wa t) (t_bs t)))) /\
  (forall t, string_of_list_ascii (table_text_of show Opencpn t) =
     lines ([line "," ("TWA \ TWS" :: map show (t_ws t))]%string ++
            map (fun ar => line "," (show (fst ar) :: map show (snd ar))) (combine (t_wa t) (t_bs t)))).
Proof.
  intros show SP.
  assert (forall d s, (forall c, In c (list_ascii_of_string s) -> negb (special d c) = true) -> s <> ""%string -> plain d s) as PL.
  { intros d s H NE. split; auto. intros c Hc. apply special_false. apply negb_true_iff. auto. }
  assert (forall d s, forallb (fun c => negb (special d c)) (list_ascii_of_string s) && negb (String.eqb s "") = true -> plain d s) as PB.
  { intros d s H. apply andb_true_iff in H. destruct H as [H1 H2]. apply PL.
    - intros c Hc. rewrite forallb_forall in H1. auto.
    - intros ->. discriminate. }
  assert (forall d l, (forall x, plain d (show x)) -> forall s, In s (map show l) -> plain d s) as PM.
  { intros d l H s Hs. apply in_map_iff in Hs. destruct Hs as [x [<- _]]. auto. }
  assert (forall x, plain comma (show x)) as S1 by apply SP.
  assert (forall x, plain colon (show x)) as S2 by apply SP.
  assert (forall x, plain semicolon (show x)) as S3 by apply SP.
  repeat split.
  - intros t. unfold diagram_text. rewrite rows_plain.
    + unfold table_to_csv. cbn [map app]. rewrite map_map. reflexivity.
    + intros row s Hr Hs. unfold table_to_csv in Hr.
      repeat (destruct Hr as [<-|Hr]; [first [destruct Hs as [<-|[]]; apply PB; reflexivity | eapply PM; eauto]|]).
      apply in_map_iff in Hr. destruct Hr as [r [<- _]]. eapply PM; eauto.
  - intros c. unfold diagram_text. rewrite rows_plain.
    + unfold cloud_to_csv. cbn [map app]. rewrite map_map. reflexivity.
    + intros row s Hr Hs. unfold cloud_to_csv in Hr. destruct Hr as [<-|[<-|Hr]].
      * destruct Hs as [<-|[]]; apply PB; reflexivity.
      * destruct Hs as [<-|[<-|[<-|[]]]]; apply PB; reflexivity.
      * apply in_map_iff in Hr. destruct Hr as [p [<- _]]. destruct Hs as [<-|[<-|[<-|[]]]]; auto.
  - intros c HN. unfold diagram_text. rewrite rows_plain.
    + unfold curve_to_csv. cbn [map]. destruct (c_rad c); reflexivity.
    + intros row s Hr Hs. unfold curve_to_csv in Hr. destruct Hr as [<-|[<-|[<-|[<-|[]]]]].
      * destruct Hs as [<-|[]]; apply PB; reflexivity.
      * destruct Hs as [<-|[<-|[]]]; auto.
      * destruct Hs as [<-|[<-|[]]]; [|destruct (c_rad c)]; apply PB; reflexivity.
      * destruct Hs as [<-|Hs]; [apply PB; reflexivity|]. eapply PM; eauto.
  - intros sails HS. unfold sails_text. rewrite rows_plain; [reflexivity|].
    intros row s [<-|[<-|[]]] Hs.
    + destruct Hs as [<-|[]]; apply PB; reflexivity.
    + destruct Hs as [<-|Hs]; auto.
  - intros t. unfold table_text_of. rewrite rows_plain.
    + unfold table_to_csv, delimiter. cbn [map app]. rewrite Nat.add_1_r. unfold csv_rows. rewrite map_map. reflexivity.
    + intros row s Hr Hs. unfold table_to_csv, csv_rows in Hr. destruct Hr as [<-|[<-|Hr]].
      * destruct Hs as [<-|Hs]; [apply PB; reflexivity|]. eapply PM; eauto.
      * eapply PM; eauto.
      * apply in_map_iff in Hr. destruct Hr as [p [<- _]]. eapply PM; eauto.
  - intros t. unfold table_text_of. rewrite rows_plain.
    + unfold table_to_csv, delimiter. cbn [map app]. unfold csv_rows. rewrite map_map. reflexivity.
    + intros row s Hr Hs. unfold table_to_csv, csv_rows in Hr. destruct Hr as [<-|Hr].
      * destruct Hs as [<-|Hs]; [apply PB; reflexivity|]. eapply PM; eauto.
      * apply in_map_iff in Hr. destruct Hr as [p [<- _]]. eapply PM; eauto.
Qed.
Print Assumptions file_layout.

(** ** Examples: a table and a curve as two sails, the name of one with a colon *)

Lemma ex_table_readable : forall x, in_table (mkTable [6; 8] [2; 5; 9] [[3; 4]; [5; 6]; [4; 5]] false)%R x -> readable ex_show ex_lit ex_read x.
Proof.
  intros x H. unfold in_table in H. cbn in H.
  assert (x = 6 \/ x = 8 \/ x = 2 \/ x = 5 \/ x = 9 \/ x = 3 \/ x = 4)%R as C.
  { destruct H as [H|[H|[r [[<-|[<-|[<-|[]]]] H]]]]; cbn in H; intuition auto. }
  destruct C as [C|[C|[C|[C|[C|[C|C]]]]]]; rewrite C; clear.
  - apply (ex_readable 6). lia.
  - apply (ex_readable 8). lia.
  - apply (ex_readable 2). lia.
  - apply (ex_readable 5). lia.
  - apply (ex_readable 9). lia.
  - apply (ex_readable 3). lia.
  - apply (ex_readable 4). lia.
Qed.

Definition ex_functions (s : string) : option pyfun := if String.eqb s "plane" then Some ex_fun else None.

Example diagram_text_meets :
  let t := mkTable [6; 8]%R [2; 5; 9]%R [[3; 4]; [5; 6]; [4; 5]]%R false in
  diagram_of_text 100 ex_lit ex_functions (diagram_text ex_show (DTable t)) = Ok (DTable t) /\
  table_of_text 100 ex_lit ex_read Orc (table_text_of ex_show Orc t) = Ok t /\
  diagram_of_text 100 ex_lit ex_functions (diagram_text ex_show (DCurve (mkCurve ex_fun [1; 2; 3]%R true))) =
    Ok (DCurve (mkCurve ex_fun [1; 2; 3]%R true)).
Proof.
  intros t.
  assert (table_ok t) as OK.
  { unfold table_ok, t. cbn. split; [repeat constructor; lra|]. split; [repeat constructor; lra|].
    split; [rlist|]. split; [rlist|]. split; [reflexivity|rlist]. }
  assert (forall f, f = Hro \/ f = Orc -> fits String.length 100 (table_to_csv ex_show f t)) as F.
  { intros f [-> | ->] row x H1 H2; cbn -[ex_show] in H1;
      repeat (destruct H1 as [<-|H1]; [cbn -[ex_show] in H2; repeat (destruct H2 as [<-|H2]; [cbn; lia|]); contradiction|]); contradiction. }
  split; [|split].
  - apply (diagram_text_round_trip 100 ex_show ex_lit ex_read ex_functions (DTable t)).
    split; [exact OK|]. split; [discriminate|]. split; [discriminate|]. split; [reflexivity|].
    split; [exact ex_table_readable|]. apply F. auto.
  - apply table_extern_text_round_trip; auto; try discriminate. exact ex_table_readable.
  - apply (diagram_text_round_trip 100 ex_show ex_lit ex_read ex_functions (DCurve (mkCurve ex_fun [1; 2; 3]%R true))).
    split; [reflexivity|]. split; [reflexivity|]. split.
    + intros x [<-|[<-|[<-|[]]]]; [apply (ex_readable 1)|apply (ex_readable 2)|apply (ex_readable 3)]; lia.
    + intros row x H1 H2; cbn -[ex_show] in H1;
      repeat (destruct H1 as [<-|H1]; [cbn -[ex_show] in H2; repeat (destruct H2 as [<-|H2]; [cbn; lia|]); contradiction|]); contradiction.
Qed.

Example multi_text_meets :
  let t := DTable (mkTable [6; 8]%R [2; 5; 9]%R [[3; 4]; [5; 6]; [4; 5]]%R false) in
  let c := DCurve (mkCurve ex_fun [1; 2; 3]%R true) in
  let m := multi_new [t; c] (Some ["jib:small"; "spi"]%string) in
  multi_load 100 ex_lit ex_functions (multi_save ex_show (fun _ => None) "x.csv" m) "x.csv" = Ok m.
Proof.
  intros t c m. destruct diagram_text_meets as [E1 [_ E2]]. apply multi_text_round_trip.
  - intros x [<-|[<-|[]]]; assumption.
  - intros s [<-|[<-|[<-|[]]]]; cbn; lia.
Qed.

Example file_layout_meets :
  let show x := if Rltb x 5 then "4.0"%string else "7.5"%string in
  (forall x, plain comma (show x) /\ plain colon (show x) /\ plain semicolon (show x)) /\
  string_of_list_ascii (diagram_text show (DCloud [(4, 4, 4)]%R)) =
    lines ["PolarDiagramPointcloud"; "TWS,TWA,BSP"; "4.0,4.0,4.0"]%string.
Proof.
  intros show.
  assert (forall x, plain comma (show x) /\ plain colon (show x) /\ plain semicolon (show x)) as SP.
  { intros x. unfold show. destruct (Rltb x 5);
      (split; [|split]; (split; [discriminate|]); intros c H; cbn in H; repeat (destruct H as [<-|H]; [repeat split; discriminate|]); contradiction). }
  split; auto. destruct (file_layout show SP) as [_ [H _]]. rewrite H. cbn [map app pws pwa pbs fst snd].
  unfold show. rewrite (Rltb_true 4 5) by lra. reflexivity.
Qed.
