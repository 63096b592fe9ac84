(** * Model of hrosailing/polardiagram/_polardiagrammultisails.py

    The contained diagrams are values of a type [D]; what the code uses of them are
    the functions below (for tables they are those of TableModel and CsvModel). *)

From Coq Require Import String Ascii.
From Coq Require Import List Bool Arith ZArith Reals.
From Verif Require Import Py Num WPointsModel InterpModel DataModel CsvModel.
Import ListNotations.
Open Scope string_scope.
Open Scope list_scope.

(** [f"Sail {i}"]. *)
Definition sail_name (i : nat) : string := "Sail " ++ string_of_nat i.

(** [path.split(".")[0]]. *)
Fixpoint before_dot (s : string) : string :=
  match s with
  | EmptyString => EmptyString
  | String c r => if Ascii.eqb c "."%char then EmptyString else String c (before_dot r)
  end.

(** [_get_sub_csv_path].  _polardiagrammultisails.py 190-193. *)
Definition sub_csv_path (path : string) (i : nat) : string :=
  before_dot path ++ "_sail_" ++ string_of_nat i ++ ".csv".

(** The contents of the files, as rows of fields. *)
Definition files := string -> option (list (list string)).

(** [open(path, "w")] and writing rows; failing to open a file is not modelled. *)
Definition write_file (fs : files) (path : string) (rows : list (list string)) : files :=
  fun p => if String.eqb p path then Some rows else fs p.

(** [zip( *lists )]: as long as every list has an entry. *)
Fixpoint zip_all {A} (n : nat) (ls : list (list A)) : list (list A) :=
  match n with
  | O => []
  | S m =>
      if forallb (fun l => match l with [] => false | _ => true end) ls
      then flat_map (fun l => match l with [] => [] | x :: _ => [x] end) ls ::
           zip_all m (map (@tl A) ls)
      else []
  end.

(** [zip( *lists )] stops at the shortest list; of no lists it is empty. *)
Definition py_zip {A} (ls : list (list A)) : list (list A) :=
  match ls with [] => [] | l :: _ => zip_all (length l) ls end.

Section Multi.
  Variable D : Type.
  (** [pd(ws, wa)]. *)
  Variable d_call : D -> R -> R -> result R.
  (** [pd.ws_to_slices(ws)]; a slice is the list of its columns. *)
  Variable d_slices : D -> list R -> result (list (list (pt3 R))).
  (** [pd.symmetrize()]. *)
  Variable d_symmetrize : D -> result D.
  (** [pd.to_csv(path)]: the rows written. *)
  Variable d_rows : D -> list (list string).
  (** [from_csv] on the rows of a file. *)
  Variable d_read : list (list string) -> result D.

  (** [_sails], [_diagrams].  _polardiagrammultisails.py 50-62. *)
  Record multi := mkMulti { m_sails : list string; m_diagrams : list D }.

  (** [__init__].  _polardiagrammultisails.py 50-62. *)
  Definition multi_new (pds : list D) (sails : option (list string)) : multi :=
    let names :=
      match sails with
      | None => map sail_name (seq 0 (length pds))
      | Some l =>
          if Nat.ltb (length l) (length pds)
          then l ++ map sail_name (seq (length l) (length pds - length l))
          else if Nat.ltb (length pds) (length l) then firstn (length pds) l
          else l
      end in
    mkMulti names pds.

  (** [self.sails.index(item)], from position [i] on. *)
  Fixpoint index_of (name : string) (l : list string) (i : nat) : option nat :=
    match l with
    | [] => None
    | n :: r => if String.eqb n name then Some i else index_of name r (S i)
    end.

  (** [__getitem__].  _polardiagrammultisails.py 72-79. *)
  Definition multi_getitem (m : multi) (name : string) : result D :=
    match index_of name (m_sails m) 0 with
    | None => Raise ValueError
    | Some i => match nth_error (m_diagrams m) i with Some d => Ok d | None => Raise IndexError end
    end.

  (** [max(...)] of values. *)
  Definition py_max (l : list R) : result R :=
    match l with
    | [] => Raise ValueError
    | x :: r => Ok (fold_left (fun b y => if nltb b y then y else b) r x)
    end.

  (** [__call__].  _polardiagrammultisails.py 99-100. *)
  Definition multi_call (m : multi) (ws wa : R) : result R :=
    do vs <- mapM (fun d => d_call d ws wa) (m_diagrams m);
    py_max vs.

  (** [ws_to_slices].  _polardiagrammultisails.py 129-141. *)
  Definition multi_slices (m : multi) (ws : list R) : result (list (list (pt3 R))) :=
    do all <- mapM (fun d => d_slices d ws) (m_diagrams m);
    Ok (map (@List.concat (pt3 R)) (py_zip all)).

  (** [get_slice_info].  _polardiagrammultisails.py 143-164. *)
  Definition multi_slice_info (m : multi) (ws : list R) : result (list (list string)) :=
    do all <- mapM (fun d => d_slices d ws) (m_diagrams m);
    Ok (map (fun coll => flat_map (fun ns => map (fun _ => fst ns) (snd ns)) (combine (m_sails m) coll))
            (py_zip all)).

  (** [symmetrize].  _polardiagrammultisails.py 206-219. *)
  Definition multi_symmetrize (m : multi) : result multi :=
    do pds <- mapM d_symmetrize (m_diagrams m);
    Ok (multi_new pds (Some (m_sails m))).

  (** [enumerate(diagrams)] from position [i] on, writing every diagram. *)
  Fixpoint write_subs (fs : files) (path : string) (i : nat) (l : list D) : files :=
    match l with
    | [] => fs
    | d :: r => write_subs (write_file fs (sub_csv_path path i) (d_rows d)) path (S i) r
    end.

  (** [to_csv].  _polardiagrammultisails.py 166-188. *)
  Definition multi_to_csv (fs : files) (path : string) (m : multi) : files :=
    write_subs (write_file fs path [["PolarDiagramMultiSails"]; "Sails" :: m_sails m]) path 0 (m_diagrams m).

  (** [from_csv(path)] for a contained diagram.  _reading.py 71-78. *)
  Definition read_file (fs : files) (path : string) : result D :=
    match fs path with None => Raise FileNotFoundError | Some rows => d_read rows end.

  (** Reading a multi-sail file: [from_csv] and [__from_csv__].  _reading.py 73-90,
      _polardiagrammultisails.py 195-204; other formats in the file are not
      represented here and give FileReadingException. *)
  Definition multi_from_csv (fs : files) (path : string) : result multi :=
    match fs path with
    | None => Raise FileNotFoundError
    | Some [] => Raise FileReadingException
    | Some (r :: rows) =>
        match r with
        | [name] =>
            if String.eqb name "PolarDiagramMultiSails" then
              do (r, rows) <- next_row rows;
              let sails := tl r in
              do ds <- mapM (fun i => read_file fs (sub_csv_path path i)) (seq 0 (length sails));
              Ok (multi_new ds (Some sails))
            else Raise FileReadingException
        | _ => Raise FileReadingException
        end
    end.
End Multi.
Arguments mkMulti {D}.
Arguments m_sails {D}.
Arguments m_diagrams {D}.
Arguments multi_new {D}.
Arguments multi_getitem {D}.
Arguments multi_call {D}.
Arguments multi_slices {D}.
Arguments multi_slice_info {D}.
Arguments multi_symmetrize {D}.
Arguments write_subs {D}.
Arguments multi_to_csv {D}.
Arguments read_file {D}.
Arguments multi_from_csv {D}.
