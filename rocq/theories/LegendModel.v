(** * Model of the legends of /repo/hrosailing/plotting/projections.py

    The keyword arguments in [legend_kw] only change the appearance and are not
    modelled. *)

From Coq Require Import String List Bool Arith ZArith Reals.
From Verif Require Import Py Num PlotModel.
Import ListNotations.
Open Scope list_scope.
Open Scope R_scope.

(** A colour bar between two wind speeds, or the handles of a legend with the value
    that is printed behind "TWS" and the colour. *)
Inductive legend :=
| ColorBar (vmin vmax : R) (first last : R * R * R)
| Handles (l : list (pycolor * pycolor)).

(** The colour that a colour bar shows at [w]: [Normalize] and
    [LinearSegmentedColormap.from_list] with two colours, [_create_color_map],
    projections.py 821-822.  Matplotlib rounds to one of 256 colours, the model does not. *)
Definition bar_color (vmin vmax : R) (first last : R * R * R) (w : R) : result (R * R * R) :=
  do c <- np_div (w - vmin) (vmax - vmin); Ok (mix c first last).

Section Legend.
  Variable is_color_like : pycolor -> bool.
  Variable to_rgb : pycolor -> result (R * R * R).

  (** [Line2D([0], [0], color=color, lw=1, label=f"TWS {ws}")]: a ValueError for
      what is no colour. *)
  Definition line (wc : pycolor * pycolor) : result (pycolor * pycolor) :=
    if is_color_like (snd wc) then Ok wc else Raise ValueError.

  (** [_set_legend_without_wind_speeds].  projections.py 789-796. *)
  Definition legend_without_wind_speeds (l : list pycolor) : result legend :=
    do h <- mapM (fun c => do lc <- entries c;
                           match lc with [ws; color] => line (ws, color) | _ => Raise ValueError end) l;
    Ok (Handles h).

  (** [_set_legend_with_wind_speeds].  projections.py 799-808. *)
  Definition legend_with_wind_speeds (l : list pycolor) (ws : list R) : result legend :=
    do h <- mapM line (combine (map PFloat ws) l); Ok (Handles h).

  (** [_plot_with_color_gradient].  projections.py 768-769. *)
  Definition plot_with_color_gradient (ws : list R) (l : list pycolor) : bool :=
    negb (no_color_gradient is_color_like l) && (Nat.ltb (length l) (length ws) && Nat.eqb (length l) 2).

  (** [_set_colormap].  projections.py 772-782. *)
  Definition set_colormap (ws : list R) (l : list pycolor) : result legend :=
    do first <- py_nth l 0;
    do rgb1 <- to_rgb first;
    do second <- py_nth l 1;
    do rgb2 <- to_rgb second;
    match ws with
    | [] => Raise ValueError
    | w :: r => Ok (ColorBar (fold_left Rmin r w) (fold_left Rmax r w) rgb1 rgb2)
    end.

  (** [_configure_legend].  projections.py 756-765. *)
  Definition configure_legend (ws : list R) (colors : pycolor) : result legend :=
    do l <- entries colors;
    if plot_with_color_gradient ws l then set_colormap ws l
    else
      do first <- py_nth l 0;
      match first with
      | PTuple _ => if is_color_like first then legend_with_wind_speeds l ws else legend_without_wind_speeds l
      | _ => legend_with_wind_speeds l ws
      end.

  (** The colour cycle and the legend that [_configure_axes] sets, with
      [show_legend].  projections.py 651-657. *)
  Definition configure_axes (labels : list R) (colors : pycolor) : result (cycle * legend) :=
    do c <- configure_colors is_color_like to_rgb labels colors;
    do l <- configure_legend labels colors;
    Ok (c, l).
End Legend.
