(** * Model of hrosailing/processing/interpolator.py *)

From Coq Require Import List Bool Arith ZArith Reals.
From Verif Require Import Py Num NhoodModel WindModel.
Import ListNotations.

(** A measured point: wind speed, wind angle, boat speed. *)
Definition pt3 (T : Type) := (T * T * T)%type.
Definition pws {T} (p : pt3 T) : T := fst (fst p).
Definition pwa {T} (p : pt3 T) : T := snd (fst p).
Definition pbs {T} (p : pt3 T) : T := snd p.

Section Interp.
  Context {T : Type} `{Num T}.

  (** The norm callable, applied to the array of differences [pts[:, :2] - grid_pt]. *)
  Variable norm_all : list (T * T) -> result (list T).

  (** [self._norm(pts[:, :2] - grid_pt)].  interpolator.py 126, 245, 310, 404.
      The data is an array with three columns (other widths not modelled). *)
  Definition distances (pts : list (pt3 T)) (g : T * T) : result (list T) :=
    norm_all (map (fun p => (pws p - fst g, pwa p - snd g)%num) pts).

  (** [np.any(dist == 0)] and [pts[mask][0, 2]].  interpolator.py 127-129,
      246-248, 311-313, 405-407. *)
  Fixpoint at_zero (dist : list T) (pts : list (pt3 T)) : option T :=
    match dist, pts with
    | d :: ds, p :: ps => if neqb d (nofZ 0) then Some (pbs p) else at_zero ds ps
    | _, _ => None
    end.

  (** [x ** p] for a natural exponent. *)
  Fixpoint npow (x : T) (p : nat) : T :=
    match p with O => nofZ 1 | S q => (x * npow x q)%num end.

  (** [u @ v] of two vectors. *)
  Definition dotp (u v : list T) : T := nsum (map (fun q => (fst q * snd q)%num) (combine u v)).

  (** [wts /= np.sum(wts)]; a zero sum gives nan. *)
  Definition normalise (wts : list T) : result (list T) :=
    let s := nsum wts in mapM (fun w => np_div w s) wts.

  (** [IDWInterpolator.__init__].  interpolator.py 86-95 (the type check of
      line 91 is in the type). *)
  Definition idw_new (p : Z) : result nat :=
    if (p <? 0)%Z then Raise ValueError else Ok (Z.to_nat p).

  (** [IDWInterpolator.interpolate].  interpolator.py 121-134. *)
  Definition idw (p : nat) (pts : list (pt3 T)) (g : T * T) : result T :=
    match pts with
    | [] => Raise ValueError
    | _ =>
        do d <- distances pts g;
        match at_zero d pts with
        | Some b => Ok b
        | None =>
            do wts <- mapM (fun x => np_div (nofZ 1) (npow x p)) d;
            do wts <- normalise wts;
            Ok (dotp wts (map pbs pts))
        end
    end.

  (** [np.average(a, weights=w)]: ZeroDivisionError if the weights sum to zero. *)
  Definition np_average (a w : list T) : result T :=
    py_div (dotp a w) (nsum w).

  (** [ArithmeticMeanInterpolator.__init__].  interpolator.py 195-214: [s] must
      be positive; the distribution is chosen in [amean]. *)
  Definition amean_new (s : T) : result T :=
    if nleb s (nofZ 0) then Raise ValueError else Ok s.

  (** [ArithmeticMeanInterpolator.interpolate].  interpolator.py 244-252.
      [distr] is the distribution with its parameters filled in; it maps
      distances and old weights to new weights. *)
  Definition amean (s : T) (distr : list T -> list T -> list T)
      (pts : list (pt3 T)) (weights : list T) (g : T * T) : result T :=
    do d <- distances pts g;
    match at_zero d pts with
    | Some b => Ok b
    | None => do v <- np_average (map pbs pts) (distr d weights); Ok (s * v)%num
    end.

  (** One entry of [_set_weights].  interpolator.py 436-440. *)
  Definition shepard_weight (r d : T) : T :=
    if nltb (nofZ 0) d && nleb d (r / nofZ 3)%num then (nofZ 1 / d)%num
    else if nltb (r / nofZ 3)%num d && nleb d r then
      (nofZ 27 / (nofZ 4 * r) * ((d / r - nofZ 1) * (d / r - nofZ 1)))%num
    else nofZ 0.

  (** [_set_weights].  interpolator.py 431-442 ([np.max] of an empty array
      raises ValueError). *)
  Definition set_weights (dist : list T) : result (list T) :=
    do r <- nmaximum dist; Ok (map (shepard_weight r) dist).

  (** [ImprovedIDWInterpolator.interpolate].  interpolator.py 309-319. *)
  Definition improved_idw (pts : list (pt3 T)) (g : T * T) : result T :=
    do d <- distances pts g;
    match at_zero d pts with
    | Some b => Ok b
    | None =>
        do wts <- set_weights d;
        do wts <- normalise (map (fun w => (w * w)%num) wts);
        Ok (dotp wts (map pbs pts))
    end.

  (** All elements but the [i]-th: [np.delete(l, i)]. *)
  Definition np_delete {A} (l : list A) (i : nat) : list A := firstn i l ++ skipn (S i) l.

  (** The direction term of points [i] and [j].  interpolator.py 450-455: the
      second factor of the second product uses column 0 (line 453), as in the
      source. *)
  Definition direction_term (g : T * T) (pi pj : pt3 T) (di dj : T) : result T :=
    np_div ((fst g - pws pi) * (fst g - pws pj) + (snd g - pwa pi) * (snd g - pws pj))%num
           (di * dj)%num.

  (** [_include_direction].  interpolator.py 445-459. *)
  Definition include_direction (pts : list (pt3 T)) (g : T * T) (dist wts : list T)
    : result (list T) :=
    mapM (fun it =>
      let '(i, ((pi, di), wi)) := it in
      do cosines <- mapM (fun q => direction_term g pi (fst q) di (snd q))
                         (combine (np_delete pts i) (np_delete dist i));
      let t := nsum (map (fun q => (fst q * (nofZ 1 - snd q))%num)
                         (combine (np_delete wts i) cosines)) in
      do t <- np_div t (nsum wts);
      Ok (wi * wi * (nofZ 1 + t))%num)
      (enumerate (combine (combine pts dist) wts)).

  (** [dist < self._tol]: mean of the points within the tolerance.
      interpolator.py 421-425. *)
  Definition within_tol (tol : T) (dist : list T) (pts : list (pt3 T)) : option T :=
    match map snd (filter (fun q => nltb (fst q) tol) (combine dist pts)) with
    | [] => None
    | ps => Some (nsum (map pbs ps) / nofZ (Z.of_nat (length ps)))%num
    end.

  (** [ShepardInterpolator.__init__].  interpolator.py 356-374 (default
      tolerance: machine epsilon). *)
  Definition shepard_new (tol slope : T) : result (T * T) :=
    if nleb tol (nofZ 0) then Raise ValueError
    else if nleb slope (nofZ 0) then Raise ValueError
    else Ok (tol, slope).

  (** [np.sqrt], used in [_determine_slope]. *)
  Variable nsqrt : T -> T.
  (** The neighbourhood applied to differences of points with three columns,
      and the norm applied to such differences. *)
  Variable nhood : list (pt3 T) -> result (list bool).
  Variable norm3 : list (pt3 T) -> result (list T).

  Definition sub3 (p q : pt3 T) : pt3 T :=
    ((pws p - pws q)%num, (pwa p - pwa q)%num, (pbs p - pbs q)%num).

  (** Slope of one point.  interpolator.py 467-486.  [None] marks nan. *)
  Definition deriv (sel : pt3 T -> T) (pts_i : list (pt3 T)) (pt : pt3 T) (dist_i wts_i : list T)
    : option T :=
    match
      (do terms <- mapM (fun q => let '((p, d), w) := q in
                          np_div (w * (pbs p - pbs pt) * (sel p - sel pt))%num (d * d)%num)
                        (combine (combine pts_i dist_i) wts_i);
       np_div (nsum terms) (nsum wts_i))
    with Ok v => Some v | Raise _ => None end.

  (** [_determine_slope].  interpolator.py 462-496. *)
  Definition determine_slope (pts : list (pt3 T)) (g : T * T) (dist wts : list T) (slope : T)
    : result (list (option T)) :=
    do derivs <- mapM (fun ip =>
        let '(i, pt) := ip in
        let rest := np_delete pts i in
        do m <- nhood (map (fun p => sub3 p pt) rest);
        let pts_i := mask_list rest m in
        do dist_i <- norm3 (map (fun p => sub3 p pt) pts_i);
        let wts_i := mask_list (np_delete wts i) m in
        Ok (deriv pws pts_i pt dist_i wts_i, deriv pwa pts_i pt dist_i wts_i))
      (enumerate pts);
    do mx <- nmaximum (map pbs pts);
    do mn <- nminimum (map pbs pts);
    let squares := mapM (fun d => match d with
                                  | (Some x, Some y) => Ok (x * x + y * y)%num
                                  | _ => Raise NonFinite
                                  end) derivs in
    let dim := match squares with
               | Ok sq => match nmaximum sq with
                          | Ok m => match np_div (slope * (mx - mn))%num (nsqrt m) with
                                    | Ok v => Some v | Raise _ => None end
                          | Raise _ => None end
               | Raise _ => None
               end in
    Ok (map (fun q =>
        let '((pt, d), xy) := q in
        match xy, dim with
        | (Some x, Some y), Some dd =>
            match np_div dd (dd + d)%num with
            | Ok f => Some ((x * (fst g - pws pt) + y * (snd g - pwa pt)) * f)%num
            | Raise _ => None
            end
        | _, _ => None
        end) (combine (combine pts dist) derivs)).

  (** [ShepardInterpolator.interpolate].  interpolator.py 403-428.  numpy does
      not stop at nan, so the tolerance branch (421-425) is reached even if the
      weights of line 410 contain nan; [determine_slope] is then evaluated for
      its exceptions only, with the weights before line 410. *)
  Definition shepard (tol slope : T) (pts : list (pt3 T)) (g : T * T) : result T :=
    do d <- distances pts g;
    match at_zero d pts with
    | Some b => Ok b
    | None =>
        do wts <- set_weights d;
        let wts' := include_direction pts g d wts in
        do zdelta <- determine_slope pts g d (match wts' with Ok w => w | Raise _ => wts end) slope;
        match within_tol tol d pts with
        | Some v => Ok v
        | None =>
            do w <- wts';
            do w <- normalise w;
            do zs <- mapM (fun o => match o with Some z => Ok z | None => Raise NonFinite end) zdelta;
            Ok (dotp w (map (fun q => (fst q + snd q)%num) (combine (map pbs pts) zs)))
        end
    end.

  (* ---------------- bilinear ---------------- *)

  (** [_get_maximum_of_smaller_values].  interpolator.py 612-617. *)
  Definition max_smaller (points : list T) (t : T) : result T :=
    match nmaximum (filter (fun x => nleb x t) points) with
    | Ok m => Ok m
    | Raise _ => Raise OutsideGridException
    end.

  (** [_get_minimum_of_bigger_values].  interpolator.py 619-624. *)
  Definition min_bigger (points : list T) (t : T) : result T :=
    match nminimum (filter (fun x => nleb t x) points) with
    | Ok m => Ok m
    | Raise _ => Raise OutsideGridException
    end.

  (** [_bs_in_grid].  interpolator.py 602-610. *)
  Definition bs_in_grid (pts : list (pt3 T)) (ws wa : T) : result T :=
    match filter (fun p => neqb (pws p) ws && neqb (pwa p) wa) pts with
    | [] => Raise NoGridException
    | p :: _ => Ok (pbs p)
    end.

  (** [_convex_interpolation_1d].  interpolator.py 581-600. *)
  Definition convex_1d (pts : list (pt3 T)) (ws wa lo hi : T) : result T :=
    do l <- bs_in_grid pts ws lo;
    do u <- bs_in_grid pts ws hi;
    if neqb lo hi then Ok l
    else
      do f <- np_div (wa - lo)%num (hi - lo)%num;
      Ok ((nofZ 1 - f) * l + f * u)%num.

  (** [BilinearGridInterpolator.interpolate].  interpolator.py 538-579.
      [width] is the number of columns of the data. *)
  Definition bilinear (width : nat) (pts : list (pt3 T)) (g : T * T) : result T :=
    if negb (Nat.eqb width 3) then Raise NoGridException
    else
      do lws <- max_smaller (map pws pts) (fst g);
      do uws <- min_bigger (map pws pts) (fst g);
      do lwa <- max_smaller (map pwa pts) (snd g);
      do uwa <- min_bigger (map pwa pts) (snd g);
      do bl <- convex_1d pts lws (snd g) lwa uwa;
      do bu <- convex_1d pts uws (snd g) lwa uwa;
      if neqb uws lws then Ok bl
      else
        do f <- np_div (fst g - lws)%num (uws - lws)%num;
        Ok ((nofZ 1 - f) * bl + f * bu)%num.
End Interp.

Open Scope R_scope.

(** [_gauss_potential].  interpolator.py 137-139. *)
Definition gauss_potential (alpha : R) (dist weights : list R) : list R :=
  map (fun q => exp (- alpha * snd q * fst q)) (combine dist weights).

(** The default distribution of [ArithmeticMeanInterpolator]: parameter
    [params[0]], or 100 if [params] is empty.  interpolator.py 209-214. *)
Definition default_distr (params : list R) : list R -> list R -> list R :=
  gauss_potential (match params with [] => 100 | a :: _ => a end).

(** The default norm [scaled_euclidean_norm] on an array of two columns, as the
    norm callable of an interpolator.  computing.py 143-166. *)
Definition std_norm_all (pts : list (R * R)) : result (list R) :=
  WindModel.scaled_euclidean_norm 2 (map (fun p => [fst p; snd p]) pts).
