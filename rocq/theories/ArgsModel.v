(** * Arrays handed to polar diagrams

    TableModel.v and CloudModel.v treat arguments as values.  Here the arrays of
    the caller are objects in a store, since several calls write to them. *)

From Coq Require Import List Bool Arith ZArith Reals.
From Verif Require Import Py Num Trig InterpModel WindModel TableModel CloudModel.
Import ListNotations.
Open Scope R_scope.

(** A store of arrays, an address is a position. *)
Definition aread {A} (h : list (list A)) (a : nat) : list A := nth a h [].
Fixpoint awrite {A} (h : list (list A)) (a : nat) (v : list A) : list (list A) :=
  match h, a with
  | [], _ => []
  | _ :: r, O => v :: r
  | x :: r, S a => x :: awrite r a v
  end.

(** An argument: an object that numpy copies (a list, a number), or an array of
    the caller, which [np.asarray_chkfinite] and [np.atleast_1d] return as it is.
    Arrays are of a type in which the remainder can be stored (float or int). *)
Inductive arg (A : Type) := Val (l : list A) | Ref (a : nat).
Arguments Val {A}.
Arguments Ref {A}.
Definition value {A} (h : list (list A)) (x : arg A) : list A :=
  match x with Val l => l | Ref a => aread h a end.
(** In place change of an argument; a copy is not seen by the caller. *)
Definition inplace {A} (f : A -> A) (h : list (list A)) (x : arg A) : list (list A) :=
  match x with Val _ => h | Ref a => awrite h a (map f (aread h a)) end.

(** The arrays of the caller with one axis ([winds]) and with three columns
    ([rows]), the tables and the point clouds.  The diagrams are values: their
    constructors copy ([sorted] or [np.array] in _polardiagramtable.py 172-173 and
    801-805, indexing in _polardiagrampointcloud.py 138, [np.row_stack] in 326) and
    their properties return copies (_polardiagramtable.py 333-340,
    _polardiagrampointcloud.py 239-241).  The angle of a point of a cloud may be nan
    ([None]). *)
Record astate := mkA {
  winds : list (list R); rows : list (list (pt3 R));
  tables : list (table R); clouds : list (list out_row) }.

Definition mod360 (x : R) : R := nmod x 360.

(** The calls.  [MkTable]: PolarDiagramTable(ws, wa, bsps); [Item]: t[ws, wa];
    [Change]: t.change_entries(new, ws, wa); [MkCloud]: PolarDiagramPointcloud(pts,
    apparent_wind); [AddPts]: c.add_points(pts, apparent_wind); [Convert]: the
    functions of core/computing.py. *)
Inductive call :=
| MkTable (ws wa : arg R) (bsps : option (TableModel.nd R))
| Item (t : nat) (ws wa : arg R)
| Change (t : nat) (new : TableModel.nd R) (ws wa : option (arg R))
| MkCloud (apparent : bool) (pts : arg (pt3 R))
| AddPts (c : nat) (apparent : bool) (pts : arg (pt3 R))
| Convert (d : wind_dir) (pts : arg (pt3 R)).

(** What a call returns to the caller. *)
Inductive answer := Done | Number (x : R) | Rows (l : list out_row).

Definition defined (p : pt3 R) : out_row := (pws p, Some (pwa p), pbs p).

(** [convert_wind] on an array of three columns.  computing.py 14-38. *)
Definition convert (d : wind_dir) (h : list (list (pt3 R))) (pts : arg (pt3 R))
  : list (list (pt3 R)) * result (list out_row) :=
  if existsb (fun p => nltb (pws p) 0) (value h pts) then (h, Raise TypeError)
  else
    let h' := inplace reduce_angle h pts in
    (h', Ok (map (fun p => convert_row d (pws p) (pwa p) (pbs p)) (value h' pts))).

Definition list_set {A} (l : list A) (i : nat) (x : A) : list A := firstn i l ++ x :: skipn (S i) l.

(** One call.  A call on a diagram that does not exist is an error of the caller
    (modelled as KeyError). *)
Definition step (s : astate) (c : call) : astate * result answer :=
  match c with
  | MkTable ws wa bsps =>
      (* _polardiagramtable.py 143-173, 727-755: first the speeds are checked,
         then the angles are reduced, then the table is built from the arrays *)
      match build_ws (RIter (value (winds s) ws)) with
      | Raise e => (s, Raise e)
      | Ok _ =>
          let h := inplace mod360 (winds s) wa in
          match table_new (RIter (value h ws)) (RIter (value h wa)) bsps with
          | Raise e => (mkA h (rows s) (tables s) (clouds s), Raise e)
          | Ok t => (mkA h (rows s) (tables s ++ [t]) (clouds s), Ok Done)
          end
      end
  | Item t ws wa =>
      (* _polardiagramtable.py 303-330, 773-783: columns first, then rows *)
      match nth_error (tables s) t with
      | None => (s, Raise KeyError)
      | Some tab =>
          match get_indices normalize_ws (t_ws tab) (Some (value (winds s) ws)) with
          | Raise e => (s, Raise e)
          | Ok _ =>
              let h := inplace mod360 (winds s) wa in
              (mkA h (rows s) (tables s) (clouds s),
               do x <- getitem tab (value (winds s) ws) (value h wa); Ok (Number x))
          end
      end
  | Change t new ws wa =>
      (* _polardiagramtable.py 626-661 *)
      match nth_error (tables s) t with
      | None => (s, Raise KeyError)
      | Some tab =>
          let ws' := option_map (value (winds s)) ws in
          match get_indices normalize_ws (t_ws tab) ws' with
          | Raise e => (s, Raise e)
          | Ok _ =>
              let h := match wa with None => winds s | Some wa => inplace mod360 (winds s) wa end in
              match change_entries tab new ws' (option_map (value h) wa) with
              | Raise e => (mkA h (rows s) (tables s) (clouds s), Raise e)
              | Ok tab' => (mkA h (rows s) (list_set (tables s) t tab') (clouds s), Ok Done)
              end
          end
      end
  | MkCloud apparent pts =>
      (* _polardiagrampointcloud.py 133-141 *)
      if apparent then
        match convert TO_TRUE (rows s) pts with
        | (h, Raise e) => (mkA (winds s) h (tables s) (clouds s), Raise e)
        | (h, Ok l) => (mkA (winds s) h (tables s) (clouds s ++ [l]), Ok Done)
        end
      else (mkA (winds s) (rows s) (tables s)
              (clouds s ++ [map defined (cloud_new (value (rows s) pts))]), Ok Done)
  | AddPts c apparent pts =>
      (* _polardiagrampointcloud.py 301-326 *)
      match nth_error (clouds s) c with
      | None => (s, Raise KeyError)
      | Some cloud =>
          if apparent then
            match convert TO_TRUE (rows s) pts with
            | (h, Raise e) => (mkA (winds s) h (tables s) (clouds s), Raise e)
            | (h, Ok l) => (mkA (winds s) h (tables s) (list_set (clouds s) c (cloud ++ l)), Ok Done)
            end
          else if existsb (fun p => nleb (pws p) 0) (value (rows s) pts) then (s, Raise ValueError)
          else
            let h := inplace reduce_angle (rows s) pts in
            (mkA (winds s) h (tables s) (list_set (clouds s) c (cloud ++ map defined (map reduce_angle (value (rows s) pts)))), Ok Done)
      end
  | Convert d pts =>
      (* computing.py 63-98 *)
      let (h, r) := convert d (rows s) pts in
      (mkA (winds s) h (tables s) (clouds s), do l <- r; Ok (Rows l))
  end.

(** A program: calls one after the other, exceptions are caught by the caller. *)
Fixpoint run (s : astate) (p : list call) : astate * list (result answer) :=
  match p with
  | [] => (s, [])
  | c :: p => let (s1, r) := step s c in let (s2, rs) := run s1 p in (s2, r :: rs)
  end.
