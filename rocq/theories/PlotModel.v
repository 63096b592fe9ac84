(** * Model of /repo/hrosailing/plotting/projections.py

    Exact real numbers.  What is handed to matplotlib is the result of the model;
    how matplotlib draws it is not modelled.  [nan], which interrupts a line, is
    [None].  A slice is the list of its columns (wind speed, wind angle, boat
    speed); all wind angles are degrees. *)

From Coq Require Import String List Bool Arith ZArith Reals.
From Verif Require Import Py Num Dict PySort Trig InterpModel.
Import ListNotations.
Open Scope string_scope.
Open Scope list_scope.
Open Scope R_scope.

(** ** Lines *)

(** [_get_info_intervals].  projections.py 474-480. *)
Definition info_intervals (info : list string) : list (list nat) :=
  dvals (fold_left (fun d je =>
    let '(j, entry) := je in
    dset entry (match dget entry d with Some l => l | None => [] end ++ [j]) d)
    (enumerate info) []).

(** [_merge].  projections.py 483-489. *)
Definition merge (col : list R) (intervals : list (list nat)) : result (list (option R)) :=
  match intervals with
  | [] => Ok []
  | _ =>
      do parts <- mapM (fun interval => do xs <- mapM (py_nth col) interval; Ok (map Some xs ++ [None])) intervals;
      Ok (removelast (concat parts))
  end.

(** [_alter_with_info].  projections.py 492-496. *)
Definition alter_with_info (wa bsp : list R) (info : list string) : result (list (option R) * list (option R)) :=
  let intervals := info_intervals info in
  do wa' <- merge wa intervals;
  do bsp' <- merge bsp intervals;
  Ok (wa', bsp').

(** Order by wind angle: [key=lambda x: x[0][1]], [key=lambda x: x[1]]. *)
Definition wa_le (p q : pt3 R) : bool := Rleb (pwa p) (pwa q).

(** The wind speed and the boat speed estimated at 0 degrees between the first
    and the last point.  projections.py 541-547. *)
Definition wrap_estimate (first last : pt3 R) : result (R * R) :=
  let x0 := pbs first * sin (deg2rad (pwa first)) in
  let x1 := pbs last * sin (deg2rad (pwa last)) in
  let y0 := pbs first * cos (deg2rad (pwa first)) in
  let y1 := pbs last * cos (deg2rad (pwa last)) in
  do lamb <- np_div x0 (x0 - x1);
  Ok (lamb * pws first + (1 - lamb) * pws last, lamb * y0 + (1 - lamb) * y1).

Section Hull.
  (** [ConvexHull(points).vertices]; [None] is a ValueError or QhullError. *)
  Variable hull : list (R * R) -> option (list nat).

  (** Closing the line.  projections.py 516-556. *)
  Definition close_hull (pts : list (pt3 R)) (info : option (list (option string))) :
      result (list (pt3 R) * option (list (option string))) :=
    do first <- py_nth pts 0;
    do last <- py_last pts;
    if Reqb (pwa first) 0 && Reqb (pwa last) 360 then Ok (pts, info)
    else if Rltb (pwa last - pwa first) 180 then Ok (pts, info)
    else if Reqb (pwa first) 0 then
      do info' <- match info with
                  | None => Ok None
                  | Some l => do x <- py_nth l 0; Ok (Some (l ++ [x]))
                  end;
      Ok (pts ++ [(pws first, 360, pbs first)], info')
    else if Reqb (pwa last) 360 then
      do info' <- match info with
                  | None => Ok None
                  | Some l => do x <- py_last l; Ok (Some (x :: l))
                  end;
      Ok ((pws last, 0, pbs last) :: pts, info')
    else
      do e <- wrap_estimate first last;
      Ok ((fst e, 0, snd e) :: pts ++ [(fst e, 360, snd e)],
          match info with None => None | Some l => Some (None :: l ++ [None]) end).

  (** [_get_convex_hull].  projections.py 499-514. *)
  Definition convex_hull_slice (slice : list (pt3 R)) (info : option (list string)) :
      result (list (pt3 R) * option (list (option string))) :=
    match hull (map (fun p => (pbs p * cos (deg2rad (pwa p)), pbs p * sin (deg2rad (pwa p)))) slice) with
    | None => Ok (slice, match info with None => None | Some l => Some (map Some l) end)
    | Some vertices =>
        do pts <- mapM (py_nth slice) vertices;
        match info with
        | None => close_hull (py_sorted wa_le pts) None
        | Some l =>
            do names <- mapM (py_nth l) vertices;
            let both := py_sorted (fun a b => wa_le (fst a) (fst b)) (combine pts names) in
            close_hull (map fst both) (Some (map (fun b => Some (snd b)) both))
        end
    end.

  (** [slice_[:, np.argsort(slice_[1])]]; numpy does not fix the order of equal
      angles, so the sorting is a parameter. *)
  Variable argsort : list (pt3 R) -> list (pt3 R).

  (** One round of the loop of [_plot]: angles and speeds handed to matplotlib.
      projections.py 459-471. *)
  Definition plot_slice (use_radians use_convex_hull : bool) (slice : list (pt3 R)) (info : option (list string)) :
      result (list (option R) * list (option R)) :=
    let unit a := if use_radians then deg2rad a else a in
    let sorted := argsort slice in
    if use_convex_hull then
      do r <- convex_hull_slice sorted info;
      Ok (map (fun p => Some (unit (pwa p))) (fst r), map (fun p => Some (pbs p)) (fst r))
    else
      let wa := map (fun p => unit (pwa p)) sorted in
      let bsp := map pbs sorted in
      match info with
      | None => Ok (map Some wa, map Some bsp)
      | Some l => alter_with_info wa bsp l
      end.
End Hull.

(** ** Colours *)

(** Python values that are given as colours. *)
Inductive pycolor :=
| PStr (s : string)
| PInt (z : Z)
| PFloat (x : R)
| PTuple (l : list pycolor)
| PList (l : list pycolor).

(** The entries of a sequence. *)
Definition entries (c : pycolor) : result (list pycolor) :=
  match c with
  | PStr s => Ok (map (fun a => PStr (String a "")) (list_ascii_of_string s))
  | PTuple l | PList l => Ok l
  | _ => Raise TypeError
  end.

(** A number as a wind speed. *)
Definition as_number (c : pycolor) : option R :=
  match c with PInt z => Some (IZR z) | PFloat x => Some x | _ => None end.

Section Colours.
  (** [matplotlib.colors.is_color_like] and [to_rgb]. *)
  Variable is_color_like : pycolor -> bool.
  Variable to_rgb : pycolor -> result (R * R * R).

  (** [_only_one_color].  projections.py 688-696. *)
  Definition only_one_color (colors : pycolor) : bool :=
    match colors with
    | PStr _ => is_color_like colors
    | PTuple (PInt z :: l) =>
        if (Nat.eqb (length l) 2 || Nat.eqb (length l) 3)%bool then is_color_like colors else false
    | _ => false
    end.

  (** [_no_color_gradient].  projections.py 699-701. *)
  Definition no_color_gradient (l : list pycolor) : bool :=
    negb (Nat.eqb (length l) 2) || negb (forallb is_color_like l).

  (** [list(labels).index(label)]. *)
  Fixpoint label_index (label : pycolor) (labels : list R) : result nat :=
    match labels with
    | [] => Raise ValueError
    | w :: r =>
        if match as_number label with Some x => Reqb w x | None => false end then Ok 0%nat
        else do i <- label_index label r; Ok (S i)
    end.

  (** [l[i] = x] for [i < len(l)]. *)
  Fixpoint set_nth {A} (l : list A) (i : nat) (x : A) : list A :=
    match l, i with
    | _ :: r, O => x :: r
    | y :: r, S j => y :: set_nth r j x
    | [], _ => []
    end.

  (** The loop [for label, color in colors].  projections.py 713-715. *)
  Fixpoint color_pairs (cycle : list pycolor) (labels : list R) (l : list pycolor) : result (list pycolor) :=
    match l with
    | [] => Ok cycle
    | c :: r =>
        do lc <- entries c;
        match lc with
        | [label; color] =>
            do i <- label_index label labels;
            color_pairs (set_nth cycle i color) labels r
        | _ => Raise ValueError
        end
    end.

  (** [_set_color_cycle], [_configure_color_cycle].  projections.py 704-720. *)
  Definition color_cycle (labels : list R) (l : list pycolor) : result (list pycolor) :=
    let cycle := map (fun _ => PStr "blue") labels in
    do first <- py_nth l 0;
    match first with
    | PTuple [_; _] => color_pairs cycle labels l
    | _ => Ok (firstn (length cycle) l ++ skipn (length (firstn (length cycle) l)) cycle)
    end.

  (** [_get_gradient_coefficients].  projections.py 736-744. *)
  Definition gradient_coefficients (gradient : list R) : result (list R) :=
    match gradient with
    | [] => Raise ValueError
    | g :: r =>
        let mn := fold_left Rmin r g in
        let mx := fold_left Rmax r g in
        mapM (fun x => np_div (x - mn) (mx - mn)) gradient
    end.

  (** [(1 - coeff) * min_color + coeff * max_color]. *)
  Definition mix (coeff : R) (c1 c2 : R * R * R) : R * R * R :=
    let '(r1, g1, b1) := c1 in
    let '(r2, g2, b2) := c2 in
    ((1 - coeff) * r1 + coeff * r2, (1 - coeff) * g1 + coeff * g2, (1 - coeff) * b1 + coeff * b2).

  (** [_determine_color_gradient], [_determine_colors_from_coefficients].
      projections.py 728-733, 747-753. *)
  Definition color_gradient (l : list pycolor) (gradient : list R) : result (list (R * R * R)) :=
    do coeffs <- gradient_coefficients gradient;
    do first <- py_nth l 0;
    do min_color <- to_rgb first;
    do second <- py_nth l 1;
    do max_color <- to_rgb second;
    Ok (map (fun c => mix c min_color max_color) coeffs).

  (** The argument of [ax.set_prop_cycle("color", ...)]. *)
  Inductive cycle := Colors (l : list pycolor) | Mixed (l : list (R * R * R)).

  (** [_configure_colors].  projections.py 676-685. *)
  Definition configure_colors (labels : list R) (colors : pycolor) : result cycle :=
    if only_one_color colors then Ok (Colors [colors])
    else
      do l <- entries colors;
      if (Nat.leb (length labels) (length l) || no_color_gradient l)%bool
      then do c <- color_cycle labels l; Ok (Colors c)
      else do c <- color_gradient l labels; Ok (Mixed c).
End Colours.

(** ** Surfaces *)

(** [_prepare_points].  projections.py 413-421. *)
Definition prepare_point (p : pt3 R) : R * R * R :=
  (pbs p * sin (deg2rad (pwa p)), pbs p * cos (deg2rad (pwa p)), pws p).

(** [np.sign(a) != np.sign(b)]. *)
Definition sign (x : R) : Z := if Rltb 0 x then 1%Z else if Rltb x 0 then (-1)%Z else 0%Z.
Definition sign_differs (a b : R) : bool := negb (Z.eqb (sign a) (sign b)).

(** Whether a triangle with the given corners (x, y, z) is drawn by
    [plot_surface].  projections.py 385-402.  The third argument of
    [np.logical_or] is the array the result is written to, so its values do not
    matter. *)
Definition draws_triangle (a b c : R * R * R) : bool :=
  let '(xa, ya, za) := a in
  let '(xb, yb, zb) := b in
  let '(xc, yc, zc) := c in
  let not_too_narrow := Rltb (2 / 10) ((za - zb) ^ 2) || Rltb (2 / 10) ((za - zc) ^ 2) in
  let axis_skip := sign_differs xa xb || sign_differs xa xc in
  let northern := Rltb 0 ya && Rltb 0 yb in
  not_too_narrow && negb (axis_skip && northern).
