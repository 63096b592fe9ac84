(** * Model of the text of the files

    Python's [csv] module as used by _reading.py, _polardiagramtable.py 433-479,
    _polardiagrampointcloud.py 257-270, _polardiagramcurve.py 184-202 and
    _polardiagrammultisails.py 181-204: [csv.writer(file, delimiter=d)] and
    [csv.reader(file, delimiter=d)] with the default dialect (quoting with
    double quotes, which are doubled inside, minimal quoting, lines end with CR LF, not strict), on files opened with
    [newline=""].

    Simplifications: a text is a list of bytes, so the limit of the length of a field
    ([csv.field_size_limit()]) counts bytes; the reader is that of Python 3.11 and later, which
    accepts the character NUL; all rows are read before the first one is used. *)

From Coq Require Import String Ascii.
From Coq Require Import List Bool Arith ZArith Reals.
From Verif Require Import Py Num TableModel CsvModel WPointsModel InterpModel DataModel CloudModel CurveModel MultiModel.
Import List ListNotations.
Open Scope nat_scope.
Open Scope list_scope.

Notation text := (list ascii).

Definition CR : ascii := ascii_of_nat 13.
Definition LF : ascii := ascii_of_nat 10.
Definition QUOTE : ascii := ascii_of_nat 34.

Definition is_newline (c : ascii) : bool := Ascii.eqb c CR || Ascii.eqb c LF.

(* ---- csv.writer ---- *)

(** The characters because of which a field is quoted. *)
Definition special (d c : ascii) : bool := Ascii.eqb c d || Ascii.eqb c QUOTE || is_newline c.

Definition double_quotes (f : text) : text :=
  flat_map (fun c => if Ascii.eqb c QUOTE then [QUOTE; QUOTE] else [c]) f.

Definition write_field (d : ascii) (f : text) : text :=
  if existsb (special d) f then QUOTE :: double_quotes f ++ [QUOTE] else f.

Fixpoint join_fields (d : ascii) (l : list text) : text :=
  match l with
  | [] => []
  | [f] => write_field d f
  | f :: r => write_field d f ++ d :: join_fields d r
  end.

(** [writerow]; a row with one empty field is written with quotes. *)
Definition write_row (d : ascii) (row : list text) : text :=
  match row with [[]] => [QUOTE; QUOTE] | _ => join_fields d row end ++ [CR; LF].

Definition write_rows (d : ascii) (rows : list (list text)) : text := flat_map (write_row d) rows.

(* ---- csv.reader ---- *)

(** The states of the parser. *)
Inductive pstate := StartRecord | StartField | InField | InQuotedField | QuoteInQuotedField | EatCRNL.

(** The parser: state, the fields of the row so far and the present field (both backwards). *)
Record parser := mkParser { p_state : pstate; p_fields : list text; p_field : text }.

Definition fresh : parser := mkParser StartRecord [] [].

Section Reader.
  Variable limit : nat.
  Variable d : ascii.

  (** [parse_add_char]. *)
  Definition add_char (s : pstate) (p : parser) (c : ascii) : result parser :=
    if limit <=? length (p_field p) then Raise CsvError
    else Ok (mkParser s (p_fields p) (c :: p_field p)).

  (** [parse_save_field]. *)
  Definition save_field (s : pstate) (p : parser) : parser :=
    mkParser s (rev (p_field p) :: p_fields p) [].

  (** [parse_process_char] in the state of a field that begins. *)
  Definition start_field (p : parser) (c : ascii) : result parser :=
    if is_newline c then Ok (save_field EatCRNL p)
    else if Ascii.eqb c QUOTE then Ok (mkParser InQuotedField (p_fields p) (p_field p))
    else if Ascii.eqb c d then Ok (save_field StartField p)
    else add_char InField p c.

  (** [parse_process_char]. *)
  Definition process_char (p : parser) (c : ascii) : result parser :=
    match p_state p with
    | StartRecord =>
        if is_newline c then Ok (mkParser EatCRNL (p_fields p) (p_field p)) else start_field p c
    | StartField => start_field p c
    | InField =>
        if is_newline c then Ok (save_field EatCRNL p)
        else if Ascii.eqb c d then Ok (save_field StartField p)
        else add_char InField p c
    | InQuotedField =>
        if Ascii.eqb c QUOTE then Ok (mkParser QuoteInQuotedField (p_fields p) (p_field p))
        else add_char InQuotedField p c
    | QuoteInQuotedField =>
        if Ascii.eqb c QUOTE then add_char InQuotedField p c
        else if Ascii.eqb c d then Ok (save_field StartField p)
        else if is_newline c then Ok (save_field EatCRNL p)
        else add_char InField p c
    | EatCRNL => if is_newline c then Ok p else Raise CsvError
    end.

  (** [parse_process_char] at the end of a line. *)
  Definition process_eol (p : parser) : parser :=
    match p_state p with
    | StartRecord => p
    | StartField | InField | QuoteInQuotedField => save_field StartRecord p
    | InQuotedField => p
    | EatCRNL => mkParser StartRecord (p_fields p) (p_field p)
    end.

  (** A line of the file ends after LF, CR LF and after CR before anything else. *)
  Definition ends_line (c : ascii) (rest : text) : bool :=
    Ascii.eqb c LF ||
    (Ascii.eqb c CR && match rest with c' :: _ => negb (Ascii.eqb c' LF) | [] => true end).

  (** The rows of the reader.  [open] says that the present line has characters.  At the end of
      a line in the state [StartRecord] the row is complete; at the end of the file an open
      quotation is closed. *)
  Fixpoint read_text (p : parser) (open : bool) (t : text) : result (list (list text)) :=
    match t with
    | [] =>
        let p := if open then process_eol p else p in
        match p_state p with
        | StartRecord => Ok (if open then [rev (p_fields p)] else [])
        | _ => Ok [rev (p_fields (save_field StartRecord p))]
        end
    | c :: rest =>
        do p <- process_char p c;
        if ends_line c rest then
          let p := process_eol p in
          match p_state p with
          | StartRecord => do rows <- read_text fresh false rest; Ok (rev (p_fields p) :: rows)
          | _ => read_text p false rest
          end
        else read_text p true rest
    end.

  Definition read_rows_of (t : text) : result (list (list text)) := read_text fresh false t.

  (** [file.readline()] and what follows. *)
  Fixpoint readline (t : text) : text * text :=
    match t with
    | [] => ([], [])
    | c :: rest =>
        if ends_line c rest then ([c], rest) else let (l, r) := readline rest in (c :: l, r)
    end.
End Reader.

(* ---- the diagrams ---- *)

Definition strings (rows : list (list text)) : list (list string) := map (map string_of_list_ascii) rows.
Definition texts (rows : list (list string)) : list (list text) := map (map list_ascii_of_string) rows.

Definition comma : ascii := ",".
Definition colon : ascii := ":".
Definition semicolon : ascii := ";".

Section Diagrams.
  Variable limit : nat.
  Variable show : R -> string.
  Variable lit : string -> result R.
  Variable functions : string -> option pyfun.

  (** The diagrams that [from_csv] returns for one file. *)
  Inductive diagram := DTable (t : table R) | DCloud (c : list (pt3 R)) | DCurve (c : curve).

  (** The text written by [to_csv] with the default format. *)
  Definition diagram_text (x : diagram) : text :=
    match x with
    | DTable t => write_rows comma (texts (table_to_csv show Hro t))
    | DCloud c => write_rows comma (texts (cloud_to_csv show c))
    | DCurve c => write_rows colon (texts (curve_to_csv show c))
    end.

  (** [csv.reader(file, delimiter=d)] on the rest of the file. *)
  Definition rows_after (d : ascii) (t : text) : result (list (list string)) :=
    do rows <- read_rows_of limit d t; Ok (strings rows).

  (** [_read_intern_format] for a file that is no file of several sails.  _reading.py 73-90. *)
  Definition diagram_of_text (t : text) : result diagram :=
    let (line, rest) := readline t in
    let name := rstrip (string_of_list_ascii line) in
    if String.eqb name "PolarDiagramTable" then
      do rows <- rows_after comma rest; do x <- table_from_hro lit rows; Ok (DTable x)
    else if String.eqb name "PolarDiagramPointcloud" then
      do rows <- rows_after comma rest; do x <- cloud_from_csv lit rows; Ok (DCloud x)
    else if String.eqb name "PolarDiagramCurve" then
      do rows <- rows_after colon rest; do x <- curve_from_csv lit functions rows; Ok (DCurve x)
    else Raise FileReadingException.

  (** The text of a table in the formats "orc" and "opencpn".
      _polardiagramtable.py 431-475. *)
  Definition delimiter (f : fmt) : ascii := match f with Orc => semicolon | _ => comma end.
  Definition table_text_of (f : fmt) (t : table R) : text := write_rows (delimiter f) (texts (table_to_csv show f t)).
  (** [_read_extern_format] for these formats.  _reading.py 93-143. *)
  Definition table_of_text (tofloat : string -> option R) (f : fmt) (t : text) : result (table R) :=
    do rows <- rows_after (delimiter f) t; table_from_extern lit tofloat f rows.

  (** The texts of the files. *)
  Definition store := string -> option text.
  Definition save (fs : store) (path : string) (t : text) : store :=
    fun p => if String.eqb p path then Some t else fs p.

  Fixpoint save_subs (fs : store) (path : string) (i : nat) (l : list diagram) : store :=
    match l with
    | [] => fs
    | x :: r => save_subs (save fs (sub_csv_path path i) (diagram_text x)) path (S i) r
    end.

  (** [to_csv] of a diagram with several sails.  _polardiagrammultisails.py 181-188. *)
  Definition sails_text (sails : list string) : text :=
    write_rows colon (texts [["PolarDiagramMultiSails"%string]; "Sails"%string :: sails]).
  Definition multi_save (fs : store) (path : string) (m : multi diagram) : store :=
    save_subs (save fs path (sails_text (m_sails m))) path 0 (m_diagrams m).

  (** [from_csv] for the file of one sail. *)
  Definition load (fs : store) (path : string) : result diagram :=
    match fs path with None => Raise FileNotFoundError | Some t => diagram_of_text t end.

  (** [from_csv] for a file of several sails.  _reading.py 73-90,
      _polardiagrammultisails.py 195-204; other files are those of [load]. *)
  Definition multi_load (fs : store) (path : string) : result (multi diagram) :=
    match fs path with
    | None => Raise FileNotFoundError
    | Some t =>
        let (line, rest) := readline t in
        if String.eqb (rstrip (string_of_list_ascii line)) "PolarDiagramMultiSails" then
          do rows <- rows_after colon rest;
          do (r, _) <- next_row rows;
          let sails := tl r in
          do ds <- mapM (fun i => load fs (sub_csv_path path i)) (seq 0 (length sails));
          Ok (multi_new ds (Some sails))
        else Raise FileReadingException
    end.
End Diagrams.
