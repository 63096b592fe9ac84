(** * Model of [HROColorGradient.scatter],
      /repo/hrosailing/plotting/projections.py 257-311

    The first argument is a polar diagram; [points] is what its [get_points] returns.
    The inner call of [self.scatter] has an array as first argument and ends in
    [Axes.scatter] of matplotlib. *)

From Coq Require Import String List Bool Arith ZArith Reals.
From Verif Require Import Py Num InterpModel PlotModel LegendModel.
Import ListNotations.
Open Scope list_scope.
Open Scope R_scope.

Section Gradient.
  Variable is_color_like : pycolor -> bool.
  Variable to_rgb : pycolor -> result (R * R * R).

  (** The marks (wind speed, wind angle, colour) and the legend.
      projections.py 300-311. *)
  Definition gradient_scatter (points : list (pt3 R)) (colors : pycolor) (show_legend : bool) :
      result (list (R * R * (R * R * R)) * option legend) :=
    let bsp := map pbs points in
    do leg <- (if show_legend
               then do l <- configure_legend is_color_like to_rgb bsp colors; Ok (Some l)
               else Ok None);
    do l <- entries colors;
    do cs <- color_gradient to_rgb l bsp;
    Ok (map (fun '(p, c) => (pws p, pwa p, c)) (combine points cs), leg).
End Gradient.
