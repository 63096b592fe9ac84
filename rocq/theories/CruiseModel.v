(** * Model of /repo/hrosailing/cruising/basics.py

    Exact real numbers.  A slice is the list of its columns (wind speed, wind
    angle, boat speed).  Times are hours on a common clock. *)

From Coq Require Import String List Bool Arith ZArith Reals.
From Verif Require Import Py Num Dict PySort Trig WPointsModel InterpModel GlobeModel.
Import ListNotations.
Open Scope string_scope.
Open Scope list_scope.
Open Scope R_scope.

(** [Direction].  cruising/basics.py 17-42 ([__str__]: DirTextModel.v). *)
Record direction := mkDir { d_angle : R; d_prop : R; d_sail : option string }.

Definition pt_wa (p : pt3 R) : R := let '(_, a, _) := p in a.
Definition pt_ws (p : pt3 R) : R := let '(s, _, _) := p in s.
Definition pt_bsp (p : pt3 R) : R := let '(_, _, b) := p in b.

(** [np.column_stack((bsp * np.cos(wa), bsp * np.sin(wa)))] of one point.
    cruising/basics.py 106-108. *)
Definition polar_pt (wa bsp : R) : R * R := (bsp * cos (deg2rad wa), bsp * sin (deg2rad wa)).

(** Numpy broadcasting of the boat speeds against [n] wind angles: one speed is
    repeated, other lengths are a ValueError (one angle and several speeds do
    not give a hull and are not modelled). *)
Definition broadcast (bsp : list R) (n : nat) : result (list R) :=
  if (length bsp =? n)%nat then Ok bsp
  else match bsp with [b] => Ok (repeat b n) | _ => Raise ValueError end.

(** [_get_first_proportion].  cruising/basics.py 152-160.  [None] stands for an
    infinite value: the scalars are not both zero, so their vanishing sum
    divides a number that is not zero. *)
Definition first_proportion (p1 p2 : R * R) (dir : R) : result (option R) :=
  let c := cos (deg2rad dir) in
  let s := sin (deg2rad dir) in
  let det := fst p1 * snd p2 - fst p2 * snd p1 in
  if Reqb det 0 then Raise LinAlgError
  else
    let x0 := (c * snd p2 - s * fst p2) / det in
    let x1 := (fst p1 * s - snd p1 * c) / det in
    if Reqb (x0 + x1) 0 then Ok None else Ok (Some (x0 / (x0 + x1))).

(** The loop over neighbouring hull vertices.  cruising/basics.py 114-118.  The
    vertices are indices of points, so the default of [nth] is never used. *)
Fixpoint find_pair (wa : list R) (dir : R) (vert : list nat) : option (nat * nat) :=
  match vert with
  | l :: (r :: _) as t =>
      if Rleb (nth l wa 0) dir && Rleb dir (nth r wa 0) then Some (l, r) else find_pair wa dir t
  | _ => None
  end.

Definition sails_eqb (a b : option string) : bool :=
  match a, b with
  | None, None => true
  | Some x, Some y => String.eqb x y
  | _, _ => false
  end.

Section Cruise.
  (** The vertices of the convex hull ([ConvexHull(points).vertices]), as indices
      of points; an error of qhull for degenerate points. *)
  Variable hull : list (R * R) -> result (list nat).

  (** The two ends of the edge.  cruising/basics.py 109-126. *)
  Definition find_edge (wa : list R) (dir : R) (vs : list nat) : result (nat * nat) :=
    let vert := py_sorted Nat.leb vs in
    match find_pair wa dir vert with
    | Some p => Ok p
    | None =>
        do i1 <- py_nth vert 0;
        do i2 <- py_last vert;
        if Rltb (Rabs (nth i1 wa 0 - nth i2 wa 0)) 180 then Raise ValueError else Ok (i1, i2)
    end.

  (** [info[0][i1]], [info[0][i2]] if there is information.
      cruising/basics.py 128-130. *)
  Definition edge_sails (info : option (list (list string))) (i1 i2 : nat)
      : result (option string * option string) :=
    match info with
    | Some (l :: _) => do a <- py_nth l i1; do b <- py_nth l i2; Ok (Some a, Some b)
    | _ => Ok (None, None)
    end.

  (** [convex_direction] after the slice has been taken and the influence added.
      cruising/basics.py 101-149.  The comparisons [edge[0] == direction] and
      [edge[1] == direction] compare a dataclass with a number and are never
      true (lines 132-136).  [wa] is converted to radians and back. *)
  Definition convex_dir (wa bsp : list R) (info : option (list (list string))) (dir : R)
      : result (list direction) :=
    do b <- broadcast bsp (length wa);
    let pts := map (fun p => polar_pt (fst p) (snd p)) (combine wa b) in
    do vs <- hull pts;
    do e <- find_edge wa dir vs;
    let '(i1, i2) := e in
    let w1 := nth i1 wa 0 in
    let w2 := nth i2 wa 0 in
    do sl <- edge_sails info i1 i2;
    if ((i1 - i2 + (i2 - i1) =? 1)%nat && sails_eqb (fst sl) (snd sl))%bool
    then Ok [mkDir w1 1 (fst sl)]
    else
      do lam <- first_proportion (nth i1 pts (0, 0)) (nth i2 pts (0, 0)) dir;
      do lam' <- (let fallback := np_div (dir + 360 - w2) (w1 + 360 - w2) in
                  match lam with
                  | None => fallback
                  | Some x => if Rltb 1 x || Rltb x 0 then fallback else Ok x
                  end);
      Ok [mkDir w1 lam' (fst sl); mkDir w2 (1 - lam') (snd sl)].

  (** A polar diagram: [get_slices(ws, full_info=True)] for a list of wind speeds
      (a number is a list with one entry) and [__call__]. *)
  Record diagram := mkDiagram {
    pd_slices : list R -> result (list (list (pt3 R)) * option (list (list string)));
    pd_call : R -> R -> result R
  }.

  (** [convex_direction].  cruising/basics.py 45-149.  [im] is the outcome of
      [im.add_influence(pd, influence_data)], if there is an influence model. *)
  Definition convex_direction (pd : diagram) (ws : list R) (dir : R) (im : option (result (list R)))
      : result (list direction) :=
    do si <- pd_slices pd ws;
    let '(slices, info) := si in
    do sl <- py_nth slices 0;
    do bsp <- match im with None => Ok (map pt_bsp sl) | Some r => r end;
    convex_dir (map pt_wa sl) bsp info dir.

  (** [_right_handing_course].  cruising/basics.py 525-536; the arguments are not
      converted to radians. *)
  Definition right_handing_course (a b : R * R) : result R :=
    let num := cos (snd a) * sin (snd b) - cos (fst a - fst b) * cos (snd b) * sin (snd a) in
    let den := cos (fst a - fst b) * cos (snd a) * cos (snd b) + sin (snd a) * cos (snd b) in
    if Rltb (1 - den * den) 0 then Raise NonFinite
    else do q <- np_div num (sqrt (1 - den * den)); np_arccos q.

  (** [_wind_relative_to_north].  cruising/basics.py 539-582: unpacking a tuple of
      the wrong length is a ValueError. *)
  Definition wind_relative_to_north (wind : list R) (fmt : string) : result (R * R) :=
    if String.eqb fmt "ws_wan" then
      match wind with [ws; wan] => Ok (ws, wan) | _ => Raise ValueError end
    else if String.eqb fmt "ws_wa_hdt" then
      match wind with [ws; wa; hdt] => Ok (ws, nmod (hdt - wa) 360) | _ => Raise ValueError end
    else if String.eqb fmt "uv_grd" then
      match wind with
      | [u; v] => Ok (sqrt (u * u + v * v), 180 / PI * atan2 v u)
      | _ => Raise ValueError
      end
    else Raise AttributeError.

  (** [_uvgrid_to_tw].  cruising/basics.py 592-597. *)
  Definition uvgrid_to_tw (u v hdt : R) : R * R :=
    let tws := sqrt (u ^ 2 + v ^ 2) in
    let wa := nmod (180 + 180 / PI * atan2 v u) 360 in
    (tws, nmod (hdt - wa) 360).

  (** cruising/basics.py 600-601. *)
  Definition EARTH_FLATTENING : R := 1 / 298.257223563.
  Definition EQUATOR_CIRCUMFERENCE : R := 40075.017.

  (** [_great_earth_ellipsoid_distance].  cruising/basics.py 604-630; the
      arguments are not converted to radians. *)
  Definition ellipsoid_distance (a b : R * R) : result R :=
    let f := (snd a + snd b) / 2 in
    let g := (snd a - snd b) / 2 in
    let lat := (fst a - fst b) / 2 in
    let s := (sin g * cos lat) ^ 2 + (cos f * sin lat) ^ 2 in
    let c := (cos g * cos lat) ^ 2 + (sin f * sin lat) ^ 2 in
    do q <- np_div s c;
    let omega := deg2rad (atan (sqrt q)) in
    let d := EQUATOR_CIRCUMFERENCE * omega / PI in
    do t <- np_div (sqrt (s * c)) omega;
    do h1 <- np_div (3 * t - 1) (2 * c);
    do h2 <- np_div (3 * t + 1) (2 * s);
    Ok (d * (1 + EARTH_FLATTENING * (h1 * (sin f * cos g) ^ 2 - h2 * (cos f * sin g) ^ 2))).

  (** A value in the dictionary [influence_data]. *)
  Inductive pyval := PNum (x : R) | PList (l : list pyval).

  (** The changes [cruise] makes in [influence_data].  cruising/basics.py 238-241. *)
  Definition prepare_influence (sl : list (pt3 R)) (d : dict pyval) : dict pyval :=
    let n := length sl in
    let d1 := dmap (fun v => PList (repeat v n)) d in
    let d2 := dset "TWS" (PList (repeat (PList (map (fun p => PNum (pt_ws p)) sl)) n)) d1 in
    dset "TWA" (PList (map (fun p => PNum (pt_wa p)) sl)) d2.

  (** [bsp[np.where(wa == angle)[0]]]. *)
  Definition speeds_at (wa bsp : list R) (angle : R) : list R :=
    map snd (filter (fun p => Reqb (fst p) angle) (combine wa bsp)).

  (** [cruise], after the slice has been taken.  cruising/basics.py 243-265.
      [float] of an array needs exactly one entry (TypeError).  Where numpy would
      calculate with nan, the outcome is [NonFinite].  Boolean indexing beyond
      the end of [bsp] (an IndexError) is not modelled. *)
  Definition cruise_on (pd : diagram) (start end_ : R * R) (ws wa bsp : list R) (wdir : R)
      : result (list (R * R)) :=
    do rhc <- right_handing_course start end_;
    do h <- np_arccos (cos rhc * cos wdir + sin rhc * sin wdir);
    let heading := 180 - rad2deg h in
    do ds <- convex_direction pd ws heading None;
    do dist <- ellipsoid_distance start end_;
    match ds with
    | [d1] =>
        match speeds_at wa bsp (d_angle d1) with
        | [b1] => do t <- np_div dist b1; Ok [(d_angle d1, t)]
        | _ => Raise TypeError
        end
    | d1 :: d2 :: _ =>
        match speeds_at wa bsp (d_angle d1), speeds_at wa bsp (d_angle d2) with
        | [b1], [b2] =>
            do t <- np_div dist (d_prop d1 * b1 + d_prop d2 * b2);
            Ok [(d_angle d1, d_prop d1 * t); (d_angle d2, d_prop d2 * t)]
        | _, _ => Raise TypeError
        end
    | [] => Raise ValueError
    end.

  (** [cruise].  cruising/basics.py 163-265: the dictionary [influence_data] after
      the call, and the outcome.  [im] is [im.add_influence(pd, .)]. *)
  Definition cruise (pd : diagram) (start end_ : R * R) (wind : list R) (fmt : string)
      (im : option (dict pyval -> result (list R))) (data : option (dict pyval))
      : option (dict pyval) * result (list (R * R)) :=
    match wind_relative_to_north wind fmt with
    | Raise e => (data, Raise e)
    | Ok (ws, wdir) =>
        match (do si <- pd_slices pd [ws]; py_nth (fst si) 0) with
        | Raise e => (data, Raise e)
        | Ok sl =>
            let go bsp := cruise_on pd start end_ (map pt_ws sl) (map pt_wa sl) bsp wdir in
            match im, data with
            | None, _ => (data, go (map pt_bsp sl))
            | Some _, None => (data, Raise AttributeError)
            | Some add, Some d =>
                let d' := prepare_influence sl d in
                (Some d', do bsp <- add d'; go bsp)
            end
        end
    end.

  (** [_mercator_proj].  cruising/basics.py 490-499. *)
  Definition mercator_proj (pt : R * R) (lat_mp : R) : result (R * R) :=
    do t <- np_tan (PI * snd pt / 180);
    Ok (69 * (fst pt - lat_mp), 69 * arcsinh t).

  (** [_inverse_mercator_proj].  cruising/basics.py 482-487. *)
  Definition inverse_mercator_proj (pt : R * R) (lat_mp : R) : R * R :=
    (fst pt / 69 + lat_mp, 180 / PI * asin (tanh (snd pt / 69))).

  (** A weather model: the weather at a time, latitude and longitude. *)
  Definition weather := R -> R -> R -> result (dict R).

  (** [_get_inverse_bsp].  cruising/basics.py 502-522.  [im] is
      [im.add_influence(pd, data)[0]] for the data with one-element lists. *)
  Definition get_inverse_bsp (pd : diagram) (pos : R * R) (hdt t lat_mp start_time : R)
      (wm : weather) (im : option (dict R -> result R)) : result R :=
    let '(lat, long) := inverse_mercator_proj pos lat_mp in
    match wm (start_time + t) lat long with
    | Raise ValueError => Ok 1000
    | Raise e => Raise e
    | Ok data =>
        let data := dset "HDT" hdt data in
        do bsp <- match im with
                  | Some add => add data
                  | None =>
                      match dget "UGRID" data, dget "VGRID" data with
                      | Some u, Some v =>
                          let '(tws, twa) := uvgrid_to_tw u v hdt in pd_call pd tws twa
                      | _, _ => Raise KeyError
                      end
                  end;
        if Reqb bsp 0 then Ok 0 else Ok (1 / bsp)
    end.

  (** The loop of [isochrone].  cruising/basics.py 460-469; [dt_ds] is the
      derivative.  [s], [t], [steps], [h] are the variables of the loop (the step
      size is [h]), [der] the last derivative. *)
  Fixpoint iso_loop (fuel : nat) (dt_ds : R -> R -> result R) (total : R) (min_nodes : Z)
      (h s t : R) (steps : Z) (der : R) : result (R * R * R) :=
    if Rltb t total || Z.ltb steps min_nodes then
      match fuel with
      | O => Raise OutOfFuel
      | S fuel' =>
          if Rleb total t then
            iso_loop fuel' dt_ds total min_nodes (h * (IZR steps / IZR min_nodes)) 0 0 0 der
          else
            do der' <- dt_ds s t;
            iso_loop fuel' dt_ds total min_nodes h (s + h) (t + der' * h) (steps + 1) der'
      end
    else Ok (s, t, der).

  (** [isochrone].  cruising/basics.py 390-479.  Division by [min_nodes] = 0 is a
      ZeroDivisionError; the last division is by a numpy number. *)
  Definition isochrone (fuel : nat) (pd : diagram) (start : R * R) (start_time dir : R) (wm : weather)
      (total : R) (min_nodes : Z) (im : option (dict R -> result R)) : result ((R * R) * R) :=
    let lat_mp := fst start in
    do p0 <- mercator_proj start lat_mp;
    let arc := PI * (1 / 2 - dir / 180) in
    let v := (cos arc, sin arc) in
    let at_s s := (fst p0 + s * fst v, snd p0 + s * snd v) in
    let dt_ds s t := get_inverse_bsp pd (at_s s) dir t lat_mp start_time wm im in
    if Z.eqb min_nodes 0 then Raise ZeroDivisionError
    else
      do r <- iso_loop fuel dt_ds total min_nodes (5 * total / IZR min_nodes) 0 0 0 0;
      let '(s, t, der) := r in
      do s' <- np_div (total + der * s - t) der;
      Ok (inverse_mercator_proj (at_s s') lat_mp, s').

  (** [scipy.integrate.trapezoid(y, x)]. *)
  Fixpoint trapezoid (y x : list R) : R :=
    match y, x with
    | y0 :: ((y1 :: _) as yt), x0 :: ((x1 :: _) as xt) => (x1 - x0) * (y0 + y1) / 2 + trapezoid yt xt
    | _, _ => 0
    end.

  (** The solver: [solve_ivp(fun, t_span=(0, l), y0=[0])] gives the nodes and the
      values of the solution at the nodes. *)
  Definition ivp := (R -> R -> result R) -> R -> result (list R * list R).

  (** [cost_cruise].  cruising/basics.py 268-387.  [integrate] is the integration
      method; the cost density gets the time, latitude and longitude (the weather
      model is fixed). *)
  Definition cost_cruise (solve : ivp) (pd : diagram) (start end_ : R * R) (start_time : R) (wm : weather)
      (cost_dens : option (R -> R -> R -> R)) (cost_abs : R -> R -> R)
      (integrate : list R -> list R -> R) (im : option (dict R -> result R)) : result R :=
    let lat_mp := (fst start + fst end_) / 2 in
    do p0 <- mercator_proj start lat_mp;
    do p1 <- mercator_proj end_ lat_mp;
    let total_s := sqrt ((fst p1 - fst p0) * (fst p1 - fst p0) + (snd p1 - snd p0) * (snd p1 - snd p0)) in
    do hdt <- right_handing_course start end_;
    let pos s := do q <- np_div s total_s;
                 Ok (fst p0 + q * (fst p1 - fst p0), snd p0 + q * (snd p1 - snd p0)) in
    let dt_ds s t := do p <- pos s; get_inverse_bsp pd p hdt t lat_mp start_time wm im in
    do sol <- solve dt_ds total_s;
    do total_t <- py_last (snd sol);
    let absolute := cost_abs total_t total_s in
    match cost_dens with
    | None => Ok absolute
    | Some dens =>
        do ps <- mapM pos (fst sol);
        let costs := map (fun tp => let '(lat, long) := inverse_mercator_proj (snd tp) lat_mp in
                                    dens (start_time + fst tp) lat long)
                         (combine (snd sol) ps) in
        Ok (absolute + integrate costs (fst sol))
    end.
End Cruise.
