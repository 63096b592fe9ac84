(** * Model of hrosailing/core/computing.py: wind conversion and norms *)

From Coq Require Import List Bool ZArith Reals.
From Verif Require Import Py Num Trig.
Import ListNotations.
Open Scope R_scope.

(** The value of [_Wind.TO_TRUE] (-1) and [_Wind.TO_APPARENT] (1).
    computing.py 10-12. *)
Inductive wind_dir := TO_TRUE | TO_APPARENT.
Definition dir_value (d : wind_dir) : R :=
  match d with TO_TRUE => -1 | TO_APPARENT => 1 end.

(** Converted rows: wind speed, wind angle ([None] where numpy delivers nan),
    boat speed. *)
Definition out_row := (R * option R * R)%type.

(** [_convert_wind_speed].  computing.py 40-45, one row. *)
Definition convert_wind_speed (d : wind_dir) (ws wa bsp : R) : R :=
  sqrt (ws * ws + bsp * bsp + 2 * dir_value d * ws * bsp * cos wa).

(** [temp[temp > 1] = 1; temp[temp < -1] = -1].  computing.py 51-52. *)
Definition clip1 (t : R) : R :=
  let t := if Rltb 1 t then 1 else t in
  if Rltb t (-1) then -1 else t.

(** [_convert_wind_angle].  computing.py 47-60, one row.  The division by a
    converted speed of zero is 0/0 and yields nan ([None]). *)
Definition convert_wind_angle (d : wind_dir) (cws ws wa bsp : R) (above : bool) : option R :=
  if Reqb cws 0 then None
  else
    let temp := clip1 ((ws * cos wa + dir_value d * bsp) / cws) in
    let a := acos temp in
    Some (if above then 360 - rad2deg a else rad2deg a).

(** One row of [convert_wind] after validation.  computing.py 29-38. *)
Definition convert_row (d : wind_dir) (ws wa bsp : R) : out_row :=
  let wa := nmod wa 360 in
  let above := Rltb 180 wa in
  let wr := deg2rad wa in
  let cws := convert_wind_speed d ws wr bsp in
  (cws, convert_wind_angle d cws ws wr bsp above, bsp).

(** What the caller hands in: an array with one, two or more axes.  A
    two-dimensional array has a width and rows of that width.  Nested lists
    that numpy cannot turn into a numeric array are not modelled (numpy raises
    or delivers dtype object, both a refusal). *)
Inductive nd := Arr1 (l : list R) | Arr2 (width : nat) (rows : list (list R)) | ArrN.

(** [wa %= 360] writes through the view into the array itself.
    computing.py 29 ([np.hsplit] in line 25 returns views). *)
Definition normalise_angle (row : list R) : list R :=
  match row with [ws; wa; bsp] => [ws; nmod wa 360; bsp] | _ => row end.

(** [convert_wind].  computing.py 14-38.  [shared]: the argument is a float
    ndarray, so [np.asarray_chkfinite] returns the caller's own array.
    Returns the caller's object after the call and the outcome. *)
Definition convert_wind (d : wind_dir) (shared : bool) (wind : nd)
  : nd * result (list out_row) :=
  match wind with
  | Arr2 w rows =>
      if Nat.eqb w 3 then
        if existsb (fun r => Rltb (nth 0 r 0) 0) rows then (wind, Raise TypeError)
        else
          (if shared then Arr2 w (map normalise_angle rows) else wind,
           Ok (map (fun r => convert_row d (nth 0 r 0) (nth 1 r 0) (nth 2 r 0)) rows))
      else (wind, Raise TypeError)
  | _ => (wind, Raise TypeError)
  end.

(** [convert_apparent_wind_to_true].  computing.py 63-79. *)
Definition convert_apparent_wind_to_true := convert_wind TO_TRUE.
(** [convert_true_wind_to_apparent].  computing.py 82-98. *)
Definition convert_true_wind_to_apparent := convert_wind TO_APPARENT.

(** [euclidean_norm] of one row.  computing.py 127-140. *)
Definition euclidean_norm (v : list R) : R := sqrt (nsum (map (fun x => x * x) v)).

(** [scaled_norm] of one row, [scal_factors] and the row of equal length.
    computing.py 101-124 (numpy broadcasting of other shapes not modelled). *)
Definition scaled_norm (norm : list R -> R) (scal_factors v : list R) : R :=
  norm (map (fun p => fst p * snd p) (combine scal_factors v)).

(** [scaled_euclidean_norm] on an array of [width] columns.
    computing.py 143-166. *)
Definition scaled_euclidean_norm (width : nat) (vec : list (list R)) : result (list R) :=
  match width with
  | 2%nat => Ok (map (scaled_norm euclidean_norm [1 / 40; 1 / 360]) vec)
  | 3%nat => Ok (map (scaled_norm euclidean_norm [1 / 40; 1 / 360; 1 / 20]) vec)
  | _ => Raise NotImplementedError
  end.
