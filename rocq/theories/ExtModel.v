(** * Model of hrosailing/pipeline/extensions.py *)

From Coq Require Import List Bool Arith ZArith Reals.
From Verif Require Import Py Num WPointsModel NhoodModel InterpModel TableModel CloudModel CurveModel.
Import ListNotations.
Open Scope list_scope.

Section Ext.
  Context {T : Type} `{Num T}.

  (** Python's [round(x)]: the nearest integer, the even one of two. *)
  Definition py_round (x : T) : Z :=
    let f := nfloor x in
    let d := (x - nofZ f)%num in
    if nltb (nofZ 2 * d)%num (nofZ 1) then f
    else if nltb (nofZ 1) (nofZ 2 * d)%num then (f + 1)%Z
    else if Z.even f then f else (f + 1)%Z.

  (** [range(start, stop, step)] for a positive step. *)
  Definition py_range (start stop step : Z) : list Z :=
    map (fun k => (start + Z.of_nat k * step)%Z) (seq 0 (Z.to_nat ((stop - start + step - 1) / step))).

  (** [points.min()], [points.max()]; an empty array raises ValueError. *)
  Definition arr_min (l : list T) : result T :=
    match l with [] => Raise ValueError | x :: r => Ok (fold_left (fun m y => if nltb y m then y else m) r x) end.
  Definition arr_max (l : list T) : result T :=
    match l with [] => Raise ValueError | x :: r => Ok (fold_left (fun m y => if nltb m y then y else m) r x) end.

  (** [_min_max_resolution].  extensions.py 145-151. *)
  Definition min_max_resolution (pts : list (pt3 T)) : result (list Z * list Z) :=
    do lo <- arr_min (map pws pts);
    do hi <- arr_max (map pws pts);
    Ok (py_range (py_round lo) (py_round hi + 1) 2, py_range 5 356 5).

  (** [_extract_wind].  extensions.py 154-172. *)
  Definition extract_wind (l : list T) (n : Z) (threshold : nat) : result (list Z) :=
    do hi <- arr_max l;
    do lo <- arr_min l;
    let w_max := py_round hi in
    let w_min := py_round lo in
    let w_start := ((w_min / n + 1) * n)%Z in
    let w_end := ((w_max / n) * n)%Z in
    let enough w :=
      let inside x :=
        if (w =? w_start)%Z then nleb x (nofZ w) && nleb (nofZ w_min) x
        else if (w =? w_end)%Z then nleb x (nofZ w_max) && nleb (nofZ w) x
        else nleb x (nofZ w) && nleb (nofZ (w - n)) x in
      Nat.leb threshold (length (filter inside l)) in
    Ok ([w_max; w_min] ++ filter enough (py_range w_start (w_end + n) n)).

  (** [_automatically_determined_resolution].  extensions.py 138-142. *)
  Definition auto_resolution (pts : list (pt3 T)) : result (list Z * list Z) :=
    do ws <- extract_wind (map pws pts) 2 100;
    do wa <- extract_wind (map pwa pts) 5 30;
    Ok (ws, wa).

  (** The attribute [wind_resolution]. *)
  Inductive wres := WAuto | WMinMax | WNone | WPair (ws wa : res_arg T).

  (** [_determine_table_size].  extensions.py 122-135. *)
  Definition table_size (r : wres) (pts : list (pt3 T)) : result (list T * list T) :=
    match r with
    | WAuto => do w <- auto_resolution pts; Ok (map nofZ (fst w), map nofZ (snd w))
    | WMinMax => do w <- min_max_resolution pts; Ok (map nofZ (fst w), map nofZ (snd w))
    | WNone => do ws <- build_ws RNone; do wa <- build_wa RNone; Ok (ws, wa)
    | WPair a b => do ws <- build_ws a; do wa <- build_wa b; Ok (ws, wa)
    end.

  (** [_interpolate_point] and [_neighbourhood_too_small].  extensions.py 341-363; the warning is
      dropped.  [weighted_points[True]] is an array of another dimension, on which the
      interpolators fail. *)
  Definition interpolate_point (nhood : list (T * T) -> result mask)
      (interp : list (pt3 T) -> list T -> T * T -> result T)
      (pts : list (pt3 T)) (weights : list T) (g : T * T) : result (pt3 T) :=
    do m <- nhood (map (fun p => (pws p - fst g, pwa p - snd g)%num) pts);
    match m with
    | MTrue => Raise ValueError
    | MList m =>
        if existsb (fun b => b) m then
          do ps <- np_mask pts m;
          do w <- np_mask weights m;
          do v <- interp ps w g;
          Ok (fst g, snd g, v)
        else Ok (fst g, snd g, nofZ 0)
    end.

  (** [_interpolate_points].  extensions.py 330-338. *)
  Definition interpolate_points nhood interp pts weights (gs : list (T * T)) : result (list (pt3 T)) :=
    mapM (interpolate_point nhood interp pts weights) gs.

  (** [np.meshgrid], [ravel] and [column_stack].  extensions.py 110-111: the wind speeds run
      fastest. *)
  Definition grid (ws wa : list T) : list (T * T) :=
    flat_map (fun a => map (fun s => (s, a)) ws) wa.

  (** [reshape(rows, cols)] in [_extract_boat_speed].  extensions.py 175-177. *)
  Fixpoint reshape (rows cols : nat) (l : list T) : list (list T) :=
    match rows with
    | O => []
    | S r => firstn cols l :: reshape r cols (skipn cols l)
    end.

  (** [TableExtension.process].  extensions.py 90-120. *)
  Definition table_process (r : wres) nhood interp (pts : list (pt3 T)) (weights : list T) : result (table T) :=
    do (ws, wa) <- table_size r pts;
    do ps <- interpolate_points nhood interp pts weights (grid ws wa);
    table_new (RIter ws) (RIter wa) (Some (Nd2 (reshape (length wa) (length ws) (map pbs ps)))).

  (** [PointcloudExtension.process].  extensions.py 295-321; [sample] is [sampler.sample].  No
      sample points give an empty array of shape (0,), which raises IndexError. *)
  Definition cloud_process (sample : list (pt3 T) -> result (list (T * T))) nhood interp
      (pts : list (pt3 T)) (weights : list T) : result (list (pt3 T)) :=
    do gs <- sample pts;
    do ps <- interpolate_points nhood interp pts weights gs;
    cloud_of_list ps.
End Ext.
Arguments wres T : clear implicits.

(** [CurveExtension.process].  extensions.py 223-252: the curve and the points afterwards, whose
    angles are converted in place.  [fit] is [regressor.fit] followed by
    [regressor.optimal_params]. *)
Definition curve_process (f : pyfun) (fit : list (pt3 R) -> result (list R)) (radians : bool) (pts : list (pt3 R))
  : result (curve * list (pt3 R)) :=
  let pts := if radians then map (fun p => (pws p, deg2rad (pwa p), pbs p)) pts else pts in
  do params <- fit pts;
  do c <- curve_new f params radians;
  Ok (c, pts).
