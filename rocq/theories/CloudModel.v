(** * Model of hrosailing/polardiagram/_polardiagrampointcloud.py *)

From Coq Require Import String.
From Coq Require Import List Bool Arith ZArith.
From Verif Require Import Py Num PySort WPointsModel NhoodModel InterpModel TableModel BaseModel CsvModel.
Import ListNotations.
Open Scope string_scope.
Open Scope list_scope.

(** A cloud is its array [_points] of wind speed, wind angle, boat speed. *)
Section Cloud.
  Context {T : Type} `{Num T}.

  (** [points[:, 1] %= 360]. *)
  Definition reduce_angle (p : pt3 T) : pt3 T := (pws p, nmod (pwa p) (nofZ 360), pbs p).

  (** [__init__] with [apparent_wind=False] for an array of shape (n, 3).
      _polardiagrampointcloud.py 133-141.  Indexing copies, so the caller's array
      is not changed. *)
  Definition cloud_new (pts : list (pt3 T)) : list (pt3 T) :=
    map reduce_angle (filter (fun p => nleb (nofZ 0) (pws p)) pts).

  (** The same for a nested list: an empty list gives an array of shape (0,) and
      [points[:, 0]] raises IndexError. *)
  Definition cloud_of_list (pts : list (pt3 T)) : result (list (pt3 T)) :=
    match pts with [] => Raise IndexError | _ => Ok (cloud_new pts) end.

  (** [__call__].  _polardiagrampointcloud.py 161-215. *)
  Definition cloud_call (nhood : list (T * T) -> result mask)
      (interp : list (pt3 T) -> list T -> T * T -> result T)
      (cloud : list (pt3 T)) (ws wa : T) : result T :=
    if nleb ws (nofZ 0) then Raise ValueError
    else
      let wa := nmod wa (nofZ 360) in
      match filter (fun p => neqb (pws p) ws && neqb (pwa p) wa) cloud with
      | p :: _ => Ok (pbs p)
      | [] => interpolate_from nhood interp cloud ws wa
      end.

  (** [ws_to_slices] without interpolator.  _polardiagrampointcloud.py 107-131. *)
  Definition cloud_slices (range : T) (cloud : list (pt3 T)) (ws : list T) : list (list (pt3 T)) :=
    map (fun s => filter (fun p => nleb (nabs (pws p - s)%num) range) cloud) ws.

  (** [wind_speeds], [wind_angles].  _polardiagrampointcloud.py 222-230. *)
  Fixpoint dedup (l : list T) : list T :=
    match l with
    | [] => []
    | x :: r => if nmem x r then dedup r else x :: dedup r
    end.
  Definition cloud_wind_speeds (cloud : list (pt3 T)) : list T := py_sorted nleb (dedup (map pws cloud)).
  Definition cloud_wind_angles (cloud : list (pt3 T)) : list T := py_sorted nleb (dedup (map pwa cloud)).

  (** [symmetrize].  _polardiagrampointcloud.py 272-299; the warning is dropped. *)
  Definition cloud_symmetrize (cloud : list (pt3 T)) : list (pt3 T) :=
    match cloud with
    | [] => []
    | _ => cloud_new (cloud ++ map (fun p => (pws p, (nofZ 360 - pwa p)%num, pbs p)) cloud)
    end.

  (** [add_points] with [apparent_wind=False] for an array of shape (n, 3):
      the new cloud and the caller's array afterwards ([np.asarray_chkfinite] does
      not copy an array, so its angles are reduced in place).
      _polardiagrampointcloud.py 301-326. *)
  Definition cloud_add (cloud new : list (pt3 T)) : result (list (pt3 T) * list (pt3 T)) :=
    if existsb (fun p => nleb (pws p) (nofZ 0)) new then Raise ValueError
    else let new := map reduce_angle new in Ok (cloud ++ new, new).

  Variable show : T -> string.
  Variable lit : string -> result T.

  (** [to_csv].  _polardiagrampointcloud.py 244-261. *)
  Definition cloud_to_csv (cloud : list (pt3 T)) : list (list string) :=
    ["PolarDiagramPointcloud"] :: ["TWS"; "TWA"; "BSP"] ::
    map (fun p => [show (pws p); show (pwa p); show (pbs p)]) cloud.

  (** [__from_csv__], called with the rows after the first one.
      _polardiagrampointcloud.py 263-270.  Rows of other lengths raise in numpy
      (IndexError is modelled for all of them). *)
  Definition cloud_from_csv (rows : list (list string)) : result (list (pt3 T)) :=
    do (_, rows) <- next_row rows;
    do pts <- mapM (fun row => mapM lit row) rows;
    do pts <- mapM (fun r => match r with [s; a; b] => Ok (s, a, b) | _ => Raise IndexError end) pts;
    cloud_of_list pts.
End Cloud.
