(** * Reading csv files that were typed by hand (C133)

    [csv.reader] on files opened with [newline=""] (CsvTextModel.v, _reading.py and the [__from_csv__] methods):
    lines may end with LF, CR LF or CR, also differently within a file, and the last line may have no line end. *)

From Coq Require Import String Ascii.
From Coq Require Import List Bool Arith Lia.
From Verif Require Import Py ListX CsvTextModel CsvTextProps.
Import List ListNotations.
Open Scope nat_scope.
Open Scope list_scope.

(** ** Specification *)

Definition line_end (e : text) : Prop := e = [LF] \/ e = [CR; LF] \/ e = [CR].

(** A row as one types it: the fields with delimiters in between. *)
Definition typed_row (d : ascii) (row : list text) : text :=
  match row with [] => [] | f :: r => f ++ flat_map (fun g => d :: g) r end.

(** At least one character, no quotes, no delimiter or line end within a field. *)
Definition typed_plain (d : ascii) (row : list text) : Prop :=
  typed_row d row <> [] /\ forall f c, In f row -> In c f -> c <> d /\ c <> QUOTE /\ c <> CR /\ c <> LF.

Definition typed_file (d : ascii) (rows : list (list text * text)) (last : option (list text)) : text :=
  flat_map (fun re => typed_row d (fst re) ++ snd re) rows ++ match last with Some r => typed_row d r | None => [] end.
Definition file_rows (rows : list (list text * text)) (last : option (list text)) : list (list text) :=
  map fst rows ++ match last with Some r => [r] | None => [] end.

(** ** Proofs *)

Section Lines.
  Variable limit : nat.
  Variable d : ascii.
  Hypothesis HD : good_delimiter d.

  Definition ordinary (f : text) : Prop := forall c, In c f -> c <> d /\ c <> QUOTE /\ c <> CR /\ c <> LF.

  Lemma ordinary_special : forall f, ordinary f -> existsb (special d) f = false.
  Proof.
    induction f as [|c f IH]; intros H; [reflexivity|]. cbn [existsb]. rewrite IH by (intros x X; apply H; right; auto).
    destruct (H c (or_introl eq_refl)) as [A [B [C D]]]. unfold special, is_newline. rewrite !eqb_ne by auto. reflexivity.
  Qed.

  (** After an ordinary field. *)
  Lemma read_ordinary : forall f fs o rest, ordinary f -> length f <= limit -> exists s o',
    read_text limit d (mkParser StartField fs []) o (f ++ rest) = read_text limit d (mkParser s fs (rev f)) o' rest /\
    (f = [] /\ s = StartField /\ o' = o \/ s = InField /\ o' = true).
  Proof.
    intros [|c f] fs o rest H L.
    - exists StartField, o. split; [reflexivity|]. auto.
    - exists InField, true. split; [|auto]. destruct (H c (or_introl eq_refl)) as [A [B [C D]]]. cbn [length] in L.
      cbn [app read_text]. unfold process_char at 1, start_field. cbn [p_state]. rewrite newline_ne, !eqb_ne by auto.
      rewrite add_ok' by (cbn [length]; lia). cbn [rbind]. rewrite ends_ne by auto.
      rewrite read_plain; [reflexivity|apply ordinary_special; intros x X; apply H; right; auto|cbn [length]; lia].
  Qed.

  Lemma read_last_field : forall f fs rest, ordinary f -> length f <= limit ->
    (read_text limit d (mkParser StartField fs []) true f = Ok [rev fs ++ [f]]) /\
    (forall e o, line_end e -> (e = [CR] -> forall t, rest <> LF :: t) ->
      read_text limit d (mkParser StartField fs []) o (f ++ e ++ rest) =
      do rows <- read_text limit d fresh false rest; Ok ((rev fs ++ [f]) :: rows)).
  Proof.
    intros f fs rest H L. split.
    - destruct (read_ordinary f fs true [] H L) as [s [o' [E S]]]. rewrite app_nil_r in E. rewrite E.
      assert (o' = true) as -> by (destruct S as [[_ [_ ->]]|[_ ->]]; auto).
      assert (s = StartField \/ s = InField) as [-> | ->] by (destruct S as [[_ [-> _]]|[-> _]]; auto);
        cbn [read_text]; unfold process_eol, save_field; cbn [p_state p_field p_fields rev]; rewrite rev_involutive; reflexivity.
    - intros e o HE HR. destruct (read_ordinary f fs o (e ++ rest) H L) as [s [o' [E S]]]. rewrite E. clear E.
      assert (s = StartField \/ s = InField) as SS by (destruct S as [[_ [-> _]]|[-> _]]; auto). clear S.
      assert (forall c, is_newline c = true -> process_char limit d (mkParser s fs (rev f)) c = Ok (mkParser EatCRNL (f :: fs) [])) as P.
      { intros c C. unfold process_char. destruct SS as [-> | ->]; cbn [p_state]; unfold start_field; rewrite C;
          unfold save_field; cbn [p_field p_fields]; rewrite rev_involutive; reflexivity. }
      destruct HE as [-> | [-> | ->]]; cbn [app read_text].
      + rewrite P by reflexivity. cbn [rbind]. change (ends_line LF rest) with true. cbn iota.
        unfold process_eol. cbn [p_state p_fields p_field rev]. reflexivity.
      + rewrite P by reflexivity. cbn [rbind]. change (ends_line CR (LF :: rest)) with false. cbn iota.
        unfold process_char at 1. cbn [p_state]. change (is_newline LF) with true. cbn iota. cbn [rbind].
        change (ends_line LF rest) with true. cbn iota. unfold process_eol. cbn [p_state p_fields p_field rev]. reflexivity.
      + rewrite P by reflexivity. cbn [rbind].
        assert (ends_line CR rest = true) as ->.
        { unfold ends_line. destruct rest as [|c rest]; [reflexivity|]. rewrite (eqb_ne c LF); [reflexivity|].
          intros ->. apply (HR eq_refl rest). reflexivity. }
        unfold process_eol. cbn [p_state p_fields p_field rev]. reflexivity.
  Qed.

  Lemma read_fields : forall r f fs rest, (forall g, In g (f :: r) -> ordinary g /\ length g <= limit) ->
    (read_text limit d (mkParser StartField fs []) true (f ++ flat_map (fun g => d :: g) r) = Ok [rev fs ++ f :: r]) /\
    (forall e o, line_end e -> (e = [CR] -> forall t, rest <> LF :: t) ->
      read_text limit d (mkParser StartField fs []) o ((f ++ flat_map (fun g => d :: g) r) ++ e ++ rest) =
      do rows <- read_text limit d fresh false rest; Ok ((rev fs ++ f :: r) :: rows)).
  Proof.
    induction r as [|g r IH]; intros f fs rest H; destruct (H f (or_introl eq_refl)) as [OF LF'].
    - cbn [flat_map]. rewrite app_nil_r. apply read_last_field; auto.
    - assert (forall o t, read_text limit d (mkParser StartField fs []) o (f ++ d :: t) = read_text limit d (mkParser StartField (f :: fs) []) true t) as D.
      { intros o t. rewrite <- (proj1 (read_field limit d HD f t fs o LF')). unfold write_field.
        rewrite ordinary_special by auto. reflexivity. }
      destruct (IH g (f :: fs) rest) as [I1 I2]; [intros x X; apply H; right; auto|]. cbn [flat_map rev] in *. split.
      + cbn [app]. rewrite D, I1. rewrite <- app_assoc. reflexivity.
      + intros e o HE HR. cbn [app]. rewrite <- app_assoc. cbn [app]. rewrite D, (I2 e true HE HR).
        rewrite <- app_assoc. reflexivity.
  Qed.

  Lemma typed_head : forall row, typed_plain d row -> exists c t, typed_row d row = c :: t /\ c <> CR /\ c <> LF.
  Proof.
    intros [|f r] [N O]; [contradiction N; reflexivity|]. destruct HD as [_ [D2 D3]]. cbn [typed_row] in *. destruct f as [|c f].
    - destruct r as [|g r]; [contradiction N; reflexivity|]. exists d. eexists. split; [reflexivity|]. auto.
    - exists c. eexists. split; [reflexivity|]. destruct (O (c :: f) c) as [_ [_ Q]]; [left; auto|left; auto|]. auto.
  Qed.

  Lemma read_typed_row : forall row rest, typed_plain d row -> (forall f, In f row -> length f <= limit) ->
    (read_text limit d fresh false (typed_row d row) = Ok [row]) /\
    (forall e, line_end e -> (e = [CR] -> forall t, rest <> LF :: t) ->
      read_text limit d fresh false (typed_row d row ++ e ++ rest) = do rows <- read_text limit d fresh false rest; Ok (row :: rows)).
  Proof.
    intros row rest T L. destruct (typed_head row T) as [c [t [E [C1 C2]]]]. destruct T as [N O].
    destruct row as [|f r]; [contradiction N; reflexivity|].
    destruct (read_fields r f [] rest) as [A B]; [intros g G; split; [intros x X; apply (O g x); auto|auto]|].
    change (f ++ flat_map (fun g => d :: g) r) with (typed_row d (f :: r)) in A, B. rewrite E in *. split.
    - unfold fresh. rewrite read_record by auto. rewrite (read_open limit d _ false true). exact A.
    - intros e HE HR. unfold fresh at 1. cbn [app]. rewrite read_record by auto. exact (B e false HE HR).
  Qed.
End Lines.

(** ** Properties *)

(** C133.  Files typed by hand are read row by row, whichever line ends they have. *)
Theorem csv_text_line_ends : forall limit d rows last, good_delimiter d ->
  (forall row, In row (file_rows rows last) -> typed_plain d row) -> fits (@length ascii) limit (file_rows rows last) ->
  (forall re, In re rows -> line_end (snd re)) ->
  read_rows_of limit d (typed_file d rows last) = Ok (file_rows rows last).
Proof.
  intros limit d rows last HD. unfold read_rows_of, typed_file, file_rows.
  induction rows as [|[row e] rows IH]; intros T F E.
  - cbn [flat_map map app]. destruct last as [r|]; [|reflexivity].
    apply read_typed_row; [auto|constructor|apply T; left; auto|intros f I; apply (F r f); [left; auto|auto]].
  - cbn [flat_map map app fst snd] in *. rewrite <- app_assoc. rewrite <- app_assoc.
    destruct (read_typed_row limit d HD row
      (flat_map (fun re => typed_row d (fst re) ++ snd re) rows ++ match last with Some r => typed_row d r | None => [] end)) as [_ B];
      [apply T; left; auto|intros f I; apply (F row f); [left; auto|auto]|].
    rewrite B.
    + rewrite IH; [reflexivity|intros r I; apply T; right; auto|intros r f I J; apply (F r f); [right; auto|auto]|intros re I; apply E; right; auto].
    + apply (E (row, e)). left; auto.
    + intros _ t Q. destruct rows as [|[row' e'] rows].
      * cbn [flat_map app] in Q. destruct last as [r|]; [|discriminate].
        destruct (typed_head d HD r) as [c [t' [E' [_ C2]]]]; [apply T; right; left; auto|]. congruence.
      * cbn [flat_map fst snd] in Q. destruct (typed_head d HD row') as [c [t' [E' [_ C2]]]]; [apply T; right; left; auto|].
        rewrite E' in Q. cbn [app] in Q. congruence.
Qed.
Print Assumptions csv_text_line_ends.

(** The limit is exact: a field that is longer is refused, wherever it stands in a row. *)
Lemma read_too_long : forall limit d fs g acc rest, (forall c, In c g -> c <> d /\ c <> QUOTE /\ c <> CR /\ c <> LF) ->
  length acc + length g > limit -> length acc <= limit ->
  read_text limit d (mkParser InField fs acc) true (g ++ rest) = Raise CsvError.
Proof.
  intros limit d fs g. induction g as [|c g IH]; intros acc rest O L A; cbn [length] in L; [lia|].
  destruct (O c (or_introl eq_refl)) as [A1 [A2 [A3 A4]]].
  cbn [app read_text]. unfold process_char. cbn [p_state]. rewrite newline_ne, eqb_ne by auto.
  unfold add_char. cbn [p_field p_fields]. destruct (Nat.leb_spec limit (length acc)) as [Q|Q]; [reflexivity|]. cbn [rbind].
  rewrite ends_ne by auto. apply IH; [intros x X; apply O; right; auto|cbn [length]; lia|cbn [length]; lia].
Qed.

(** C133.  A file whose first field exceeds the limit raises [csv.Error]. *)
Theorem csv_text_limit : forall limit d f rest, good_delimiter d ->
  (forall c, In c f -> c <> d /\ c <> QUOTE /\ c <> CR /\ c <> LF) -> limit < length f ->
  read_rows_of limit d (f ++ rest) = Raise CsvError.
Proof.
  intros limit d [|c f] rest HD O L; cbn [length] in L; [lia|]. unfold read_rows_of, fresh.
  destruct (O c (or_introl eq_refl)) as [A1 [A2 [A3 A4]]]. cbn [app]. rewrite read_record by auto.
  cbn [read_text]. unfold process_char at 1, start_field. cbn [p_state]. rewrite newline_ne, !eqb_ne by auto.
  unfold add_char. cbn [p_field p_fields length]. destruct (Nat.leb_spec limit 0) as [Q|Q]; [reflexivity|]. cbn [rbind].
  rewrite ends_ne by auto. apply read_too_long; [intros x X; apply O; right; auto|cbn [length]; lia|cbn [length]; lia].
Qed.
Print Assumptions csv_text_limit.

(** Three rows with the three line ends, and one without. *)
Example csv_text_line_ends_meets :
  let s := map list_ascii_of_string in
  let rows := [(s ["TWS"; "TWA"], [LF]); (s ["6"; ""], [CR]); (s [""; "45"], [CR; LF])]%string in
  let last := Some (s ["3.5"]%string) in
  (forall row, In row (file_rows rows last) -> typed_plain comma row) /\ fits (@length ascii) 3 (file_rows rows last) /\
  (forall re, In re rows -> line_end (snd re)) /\
  string_of_list_ascii (typed_file comma rows last) =
    ("TWS,TWA" ++ String LF ("6," ++ String CR (",45" ++ String CR (String LF "3.5"))))%string /\
  read_rows_of 2 comma (typed_file comma rows last) = Raise CsvError.
Proof.
  cbv zeta. split; [|split; [|split; [|split; [reflexivity|]]]].
  - intros row I. cbn in I. repeat (destruct I as [<-|I]; [split; [discriminate|]; intros f c J K; cbn in J;
      repeat (destruct J as [<-|J]; [cbn in K; repeat (destruct K as [<-|K]; [repeat split; discriminate|]); contradiction|]); contradiction|]); contradiction.
  - intros row f I J. cbn in I. repeat (destruct I as [<-|I]; [cbn in J; repeat (destruct J as [<-|J]; [cbn; lia|]); contradiction|]); contradiction.
  - intros re [<-|[<-|[<-|[]]]]; cbn [snd]; unfold line_end; auto.
  - apply (csv_text_limit 2 comma (list_ascii_of_string "TWS") (comma :: _)); [repeat split; discriminate| |cbn; lia].
    intros c K. cbn in K. repeat (destruct K as [<-|K]; [repeat split; discriminate|]). contradiction.
Qed.
