(** * Model of reading and writing tables as files

    hrosailing/polardiagram/_polardiagramtable.py 368-491 and _reading.py.

    A file is the list of its rows, a row the list of its fields.  Splitting rows
    at the delimiter and quoting are modelled in [CsvTextModel]. *)

From Coq Require Import String Ascii.
From Coq Require Import List Bool Arith ZArith.
From Verif Require Import Py Num TableModel.
Import ListNotations.
Open Scope string_scope.
Open Scope list_scope.

(** The [fmt] argument.  _polardiagramtable.py 432, _reading.py 68. *)
Inductive fmt := Hro | Orc | Opencpn | Array.

(** [s.replace("°", "")]: the two bytes 194 176 are removed. *)
Fixpoint remove_degree (s : string) : string :=
  match s with
  | String a (String b r as t) =>
      if (Nat.eqb (nat_of_ascii a) 194 && Nat.eqb (nat_of_ascii b) 176)%bool
      then remove_degree r else String a (remove_degree t)
  | _ => s
  end.

Section Csv.
  Context {T : Type} `{Num T}.
  (** How [csv.writer] prints a number, [literal_eval] of a field (only numeric
      results are represented) and the conversion done by [np.genfromtxt] ([None]
      is nan). *)
  Variable show : T -> string.
  Variable lit : string -> result T.
  Variable tofloat : string -> option T.

  (** [_write_rows].  _polardiagramtable.py 457-459. *)
  Definition csv_rows (t : table T) : list (list string) :=
    map (fun ar => map show (fst ar :: snd ar)) (combine (t_wa t) (t_bs t)).

  (** [to_csv].  _polardiagramtable.py 430-479. *)
  Definition table_to_csv (f : fmt) (t : table T) : list (list string) :=
    match f with
    | Orc => ("twa/tws" :: map show (t_ws t)) ::
             map show (repeat (nofZ 0) (length (t_ws t) + 1)) :: csv_rows t
    | Array => ("TWA\TWS" :: map show (t_ws t)) :: csv_rows t
    | Opencpn => ("TWA \ TWS" :: map show (t_ws t)) :: csv_rows t
    | Hro => ["PolarDiagramTable"] :: ["TWS"] :: map show (t_ws t) :: ["TWA"] ::
             map show (t_wa t) :: ["BSP"] :: map (map show) (t_bs t)
    end.

  (** [next(csv_reader)]. *)
  Definition next_row (rows : list (list string)) : result (list string * list (list string)) :=
    match rows with [] => Raise StopIteration | r :: rest => Ok (r, rest) end.

  (** [PolarDiagramTable(ws_res, wa_res, bsps)] for lists read from a file.  A
      ragged or empty [bsps] is no two-dimensional array. *)
  Definition table_of_lists (ws wa : list T) (bs : list (list T)) : result (table T) :=
    table_new (RIter ws) (RIter wa) (Some (match bs with [] => Nd1 [] | _ => Nd2 bs end)).

  (** [__from_csv__], called with the rows after the first one.
      _polardiagramtable.py 481-491. *)
  Definition table_from_hro (rows : list (list string)) : result (table T) :=
    do (_, rows) <- next_row rows;
    do (r, rows) <- next_row rows;
    do ws <- mapM lit r;
    do (_, rows) <- next_row rows;
    do (r, rows) <- next_row rows;
    do wa <- mapM lit r;
    do (_, rows) <- next_row rows;
    do bs <- mapM (mapM lit) rows;
    table_of_lists ws wa bs.

  (** [_read_wind_speeds].  _reading.py 122-123. *)
  Definition read_wind_speeds (rows : list (list string)) : result (list T * list (list string)) :=
    do (r, rows) <- next_row rows;
    do ws <- mapM lit (tl r);
    Ok (ws, rows).

  (** [_read_wind_angles_and_boat_speeds].  _reading.py 126-134. *)
  Definition read_rows (rows : list (list string)) : result (list T * list (list T)) :=
    do l <- mapM (fun row =>
              match row with
              | [] => Raise IndexError
              | a :: cells =>
                  do wa <- lit (remove_degree a);
                  do bs <- mapM (fun c => if String.eqb c "" then Ok (nofZ 0) else lit c) cells;
                  Ok (wa, bs)
              end) rows;
    Ok (map fst l, map snd l).

  (** [np.genfromtxt(file)] on whitespace separated fields: blank lines are
      skipped, all lines need the same number of fields, a single line or a single
      column gives a one-dimensional array, on which the next lines raise
      IndexError. *)
  Definition genfromtxt (rows : list (list string)) : result (list (list (option T))) :=
    match filter (fun r => match r with [] => false | _ => true end) rows with
    | [] | [_] => Raise IndexError
    | r :: rest =>
        if forallb (fun q => Nat.eqb (length q) (length r)) rest
        then if Nat.eqb (length r) 1 then Raise IndexError else Ok (map (map tofloat) (r :: rest))
        else Raise ValueError
    end.

  (** [np.asarray_chkfinite] on numbers that may be nan. *)
  Definition chkfinite (l : list (option T)) : result (list T) :=
    mapM (fun x => match x with Some v => Ok v | None => Raise ValueError end) l.

  (** [_read_from_array] and the table built from it.  _reading.py 101, 104-106. *)
  Definition table_from_array (rows : list (list string)) : result (table T) :=
    do d <- genfromtxt rows;
    match d with
    | [] => Raise IndexError
    | r :: rest =>
        do ws <- chkfinite (tl r);
        do wa <- chkfinite (map (fun q => hd None q) rest);
        do bs <- mapM (fun q => chkfinite (tl q)) rest;
        table_of_lists ws wa bs
    end.

  (** [_read_extern_format].  _reading.py 93-143; [_read_orc_format] skips the
      line of zeros. *)
  Definition table_from_extern (f : fmt) (rows : list (list string)) : result (table T) :=
    match f with
    | Array => table_from_array rows
    | Orc =>
        do (ws, rows) <- read_wind_speeds rows;
        do (_, rows) <- next_row rows;
        do (wa, bs) <- read_rows rows;
        table_of_lists ws wa bs
    | _ =>
        do (ws, rows) <- read_wind_speeds rows;
        do (wa, bs) <- read_rows rows;
        table_of_lists ws wa bs
    end.
End Csv.
