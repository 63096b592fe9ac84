(** * Model of [Axes3D.scatter], /repo/hrosailing/plotting/projections.py 322-345, 413-429, 821-822

    The first argument is a polar diagram; [points] is what its [get_points] returns.
    Labels and ticks are left out.  matplotlib makes the table of colours when it draws the figure;
    here an exception it raises then is the result of [scatter]. *)

From Coq Require Import String List Bool Arith ZArith Reals.
From Verif Require Import Py Num InterpModel PlotModel.
Import ListNotations.
Open Scope list_scope.
Open Scope R_scope.

(** [LinearSegmentedColormap.from_list("cmap", colors)] of matplotlib: a table of 256 colours; the
    [i]-th one lies at [i / 255] of the way through the given colours, which are evenly spaced.
    projections.py 821-822. *)
Definition table_color (cs : list (R * R * R)) (i : Z) : result (R * R * R) :=
  match cs with
  | [] | [_] => Raise ValueError
  | _ =>
      let x := IZR i / 255 * INR (length cs - 1) in
      let j := Nat.min (Z.to_nat (Int_part x)) (length cs - 2) in
      do a <- py_nth cs j;
      do b <- py_nth cs (S j);
      Ok (mix (x - INR j) a b)
  end.

(** The entry of the table for a number from 0 to 1. *)
Definition table_index (t : R) : Z := if Reqb t 1 then 255%Z else Int_part (256 * t).

(** matplotlib's [Normalize]: the place between the least and the greatest number, 0 if all
    numbers are equal. *)
Definition normalized (l : list R) : list R :=
  match l with
  | [] => []
  | z :: r =>
      let mn := fold_left Rmin r z in
      let mx := fold_left Rmax r z in
      map (fun x => if Reqb mx mn then 0 else (x - mn) / (mx - mn)) l
  end.

Section Space.
  Variable to_rgb : pycolor -> result (R * R * R).

  (** The marks: position and colour.  projections.py 342-345 and 423-429 ([c=z]). *)
  Definition space_scatter (points : list (pt3 R)) (colors : pycolor) : result (list (R * R * R * (R * R * R))) :=
    let xyz := map prepare_point points in
    do l <- entries colors;
    do cs <- mapM to_rgb l;
    do marks <- mapM (table_color cs) (map table_index (normalized (map snd xyz)));
    Ok (combine xyz marks).
End Space.
