(** * Model of the default points and slices of polar diagrams *)

From Coq Require Import List Bool Arith ZArith Reals.
From Verif Require Import Py Num WPointsModel InterpModel BaseModel TableModel CloudModel CurveModel MultiModel.
Import ListNotations.
Open Scope list_scope.
Open Scope R_scope.

(** [np.min], [np.max]: a ValueError for an empty array. *)
Definition np_min (l : list R) : result R :=
  match l with [] => Raise ValueError | x :: r => Ok (fold_left Rmin r x) end.
Definition np_max (l : list R) : result R :=
  match l with [] => Raise ValueError | x :: r => Ok (fold_left Rmax r x) end.

(** [np.linspace(l.min(), l.max(), 20)]. *)
Definition spread (l : list R) : result (list R) :=
  do a <- np_min l; do b <- np_max l; Ok (linspace a b 20).

(** [PolarDiagramPointcloud.default_slices].  _polardiagrampointcloud.py 217-220. *)
Definition cloud_default_slices (cloud : list (pt3 R)) : result (list R) := spread (map pws cloud).

(** [PolarDiagramCurve.default_slices].  _polardiagramcurve.py 151-153. *)
Definition curve_default_slices : list R := linspace 5 20 16.

(** [PolarDiagramCurve.default_points].  _polardiagramcurve.py 70-77. *)
Definition curve_default_points (c : curve) : result (list (pt3 R)) :=
  mapM (fun sa => do b <- curve_call c (fst sa) (snd sa); Ok (fst sa, snd sa, b))
       (flat_map (fun a => map (fun s => (s, a)) (linspace 5 20 128)) (linspace 5 355 144)).

Section Multi.
  Variable D : Type.
  (** [pd.default_slices], [pd.default_points] of a contained diagram. *)
  Variable d_default_slices : D -> result (list R).
  Variable d_default_points : D -> result (list (pt3 R)).

  (** [PolarDiagramMultiSails.default_slices].  _polardiagrammultisails.py 221-226:
      [np.concatenate] of nothing is a ValueError. *)
  Definition multi_default_slices (m : multi D) : result (list R) :=
    do all <- mapM d_default_slices (m_diagrams m);
    spread (concat all).

  (** [PolarDiagramMultiSails.default_points].  _polardiagrammultisails.py 102-104:
      [np.row_stack] of nothing is a ValueError. *)
  Definition multi_default_points (m : multi D) : result (list (pt3 R)) :=
    do all <- mapM d_default_points (m_diagrams m);
    match all with [] => Raise ValueError | _ => Ok (concat all) end.
End Multi.
Arguments multi_default_slices {D}.
Arguments multi_default_points {D}.

(** [PolarDiagramPointcloud.ws_to_slices] with an interpolator: every slice is the array
    with the rows [self(ws_, wa, interpolator)].  _polardiagrampointcloud.py 118-126;
    numpy 1.22 accepts the generator with a warning, [np.row_stack] of nothing is a
    ValueError. *)
Definition cloud_interp_slices (call : R -> R -> result R) (wa_resolution : nat) (ws : list R) :
    result (list (list (list R))) :=
  mapM (fun s =>
    do rows <- mapM (fun a => do b <- call s a; Ok [b]) (linspace 0 360 wa_resolution);
    match rows with [] => Raise ValueError | _ => Ok rows end) ws.
