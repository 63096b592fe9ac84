(** * Model of the plots of whole diagrams, /repo/hrosailing/plotting/projections.py 57-236

    [HROPolar.plot], [HROPolar.scatter], [HROFlat.plot], [HROFlat.scatter] for a polar diagram:
    what is handed to matplotlib, line by line.

    Simplifications: the keyword arguments for matplotlib and [legend_kw] are not modelled, nor is
    the orientation of the axes; a plot without colours and the warnings of numpy are not modelled
    (see [PlotModel]). *)

From Coq Require Import String List Bool Arith ZArith Reals.
From Verif Require Import Py Num WPointsModel InterpModel BaseModel PlotModel LegendModel.
Import ListNotations.
Open Scope list_scope.
Open Scope R_scope.

(** What the plots need of a polar diagram: [default_slices], [ws_to_slices] and
    [get_slice_info] ([None] except for several sails). *)
Record plotted := mkPlotted {
  pl_default : result (list R);
  pl_slices : list R -> result (list (list (pt3 R)));
  pl_info : list R -> option (result (list (list string)))
}.

(** [get_slices(ws, n_steps, full_info=True)].  _basepolardiagram.py 92-98. *)
Definition get_slices (pd : plotted) (ws : ws_arg R) (n_steps : option Z) :
    result (list R * list (list (pt3 R)) * option (list (list string))) :=
  do default <- match ws with WNone => pl_default pd | _ => Ok [] end;
  do labels <- get_windspeeds default ws n_steps;
  do slices <- pl_slices pd labels;
  do info <- match pl_info pd labels with None => Ok None | Some r => do i <- r; Ok (Some i) end;
  Ok (labels, slices, info).

(** A colour of a line: as it was given or mixed. *)
Inductive shade := Given (c : pycolor) | Rgb (c : R * R * R).

Definition shades (c : cycle) : list shade :=
  match c with Colors l => map Given l | Mixed l => map Rgb l end.

(** A line or a group of markers: angles, speeds ([None] for a gap), colour. *)
Record drawing := mkDrawing { d_angles : list (option R); d_speeds : list (option R); d_shade : shade }.

(** [ax.set_prop_cycle("color", ...)] does not take what is no colour. *)
Definition set_cycle (is_color_like : pycolor -> bool) (c : cycle) : result (list shade) :=
  match c with
  | Colors l => if forallb is_color_like l then Ok (shades c) else Raise ValueError
  | Mixed _ => Ok (shades c)
  end.

(** Matplotlib takes the colours of the cycle in turn. *)
Definition take_color (l : list shade) (i : nat) : result shade := py_nth l (i mod length l).

(** [safe_zip].  projections.py 447-453. *)
Definition safe_zip {A B} (l : list A) (m : option (list B)) : list (A * option B) :=
  match m with
  | None => map (fun x => (x, None)) l
  | Some m => map (fun xy => (fst xy, Some (snd xy))) (combine l m)
  end.

Section Plot.
  Variable is_color_like : pycolor -> bool.
  Variable to_rgb : pycolor -> result (R * R * R).
  Variable hull : list (R * R) -> option (list nat).
  Variable argsort : list (pt3 R) -> list (pt3 R).

  (** [_plot].  projections.py 438-475; lines and markers have the same points. *)
  Definition plot_all (colors : list shade) (use_radians use_convex_hull : bool)
      (slices : list (list (pt3 R))) (info : option (list (list string))) : result (list drawing) :=
    match slices with
    | [] => do c <- take_color colors 0; Ok [mkDrawing [] [] c]
    | _ =>
        mapM (fun isl => do xy <- plot_slice hull argsort use_radians use_convex_hull (fst (snd isl)) (snd (snd isl));
                         do c <- take_color colors (fst isl);
                         Ok (mkDrawing (fst xy) (snd xy) c))
             (enumerate (safe_zip slices info))
    end.

  (** [plot] and [scatter]; polar axes use radians.  projections.py 57-236, 651-657. *)
  Definition draw (polar : bool) (pd : plotted) (ws : ws_arg R) (n_steps : option Z) (colors : pycolor)
      (show_legend use_convex_hull : bool) : result (list drawing * option legend) :=
    do lsi <- get_slices pd ws n_steps;
    let '(labels, slices, info) := lsi in
    do c <- configure_colors is_color_like to_rgb labels colors;
    do cs <- set_cycle is_color_like c;
    do leg <- (if show_legend then do l <- configure_legend is_color_like to_rgb labels colors; Ok (Some l) else Ok None);
    do l <- plot_all cs polar use_convex_hull slices info;
    Ok (l, leg).
End Plot.
