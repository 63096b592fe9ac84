(** * Model of hrosailing/polardiagram/_polardiagramtable.py *)

From Coq Require Import List Bool Arith ZArith.
From Verif Require Import Py Num PySort WPointsModel NhoodModel InterpModel.
Import ListNotations.

(** A table: [_ws_resolution], [_wa_resolution], [_boat_speeds] (rows belong to
    wind angles).  [t_pylist] says that the resolutions are stored as Python
    lists, which happens for tables created without boat speeds
    (_polardiagramtable.py 169-173). *)
Record table (T : Type) := mkTable {
  t_ws : list T; t_wa : list T; t_bs : list (list T); t_pylist : bool }.
Arguments mkTable {T}.
Arguments t_ws {T}.
Arguments t_wa {T}.
Arguments t_bs {T}.
Arguments t_pylist {T}.

(** The arguments [ws_resolution], [wa_resolution]: nothing, a step size, a
    one-dimensional sequence or a sequence of another dimension.
    _polardiagramtable.py 714-725.  nan/inf and non-numbers are not represented. *)
Inductive res_arg (T : Type) := RNone | RStep (s : T) | RIter (l : list T) | RNested.
Arguments RNone {T}.
Arguments RStep {T}.
Arguments RIter {T}.
Arguments RNested {T}.

(** Numeric arrays of dimension one, two or another dimension.  The rows of a
    two-dimensional array given by [Nd2] must have equal length; a ragged list
    raises ValueError in [np.asarray_chkfinite] and fails the shape tests here. *)
Inductive nd (T : Type) := Nd1 (l : list T) | Nd2 (rows : list (list T)) | NdOther.
Arguments Nd1 {T}.
Arguments Nd2 {T}.
Arguments NdOther {T}.

Section Table.
  Context {T : Type} `{Num T}.

  (** [np.arange(start, stop, step)] for a positive step. *)
  Definition np_arange (start stop step : T) : list T :=
    let n := Z.to_nat (- nfloor (- ((stop - start) / step))%num) in
    map (fun k => (start + nofZ (Z.of_nat k) * step)%num) (seq 0 n).

  (** [_custom_stepsize_resolution].  _polardiagramtable.py 757-771. *)
  Definition stepsize_resolution (max_value res : T) : result (list T) :=
    if nleb res (nofZ 0) then Raise ValueError
    else if nltb max_value res then Raise ValueError
    else Ok (np_arange res max_value res).

  (** [build_wind_speed_resolution].  _polardiagramtable.py 669-755 with
      [WIND_SPEED]; the warning for duplicates (740-744) is dropped. *)
  Definition build_ws (r : res_arg T) : result (list T) :=
    match r with
    | RNone => Ok (np_arange (nofZ 2) (nofZ 42) (nofZ 2))
    | RStep s => stepsize_resolution (nofZ 40) s
    | RNested => Raise ValueError
    | RIter l =>
        match l with
        | [] => Raise ValueError
        | _ => if existsb (fun x => nltb x (nofZ 0)) l then Raise ValueError else Ok l
        end
    end.

  (** [build_wind_angle_resolution].  _polardiagramtable.py 669-755 with
      [WIND_ANGLE]; [res %= 360] works in place on the caller's array, see
      ArgsModel.v. *)
  Definition build_wa (r : res_arg T) : result (list T) :=
    match r with
    | RNone => Ok (np_arange (nofZ 0) (nofZ 360) (nofZ 5))
    | RStep s => stepsize_resolution (nofZ 360) s
    | RNested => Raise ValueError
    | RIter l =>
        match l with
        | [] => Raise ValueError
        | _ => Ok (map (fun x => nmod x (nofZ 360)) l)
        end
    end.

  (** [bsps.T] of an array with [n] columns. *)
  Definition transpose (n : nat) (rows : list (list T)) : list (list T) :=
    map (fun j => map (fun r => nth j r (nofZ 0)) rows) (seq 0 n).

  (** [sorted(zip(keys, values), key=lambda x: x[0])]. *)
  Definition sort_by_key {A} (keys : list T) (values : list A) : list (T * A) :=
    py_sorted (fun x y => nleb (fst x) (fst y)) (combine keys values).

  (** [_sort_table].  _polardiagramtable.py 791-805; unpacking [zip] of nothing
      raises ValueError. *)
  Definition sort_table (ws wa : list T) (bs : list (list T))
    : result (list T * list T * list (list T)) :=
    match wa, ws with
    | [], _ | _, [] => Raise ValueError
    | _, _ =>
        let rows := sort_by_key wa bs in
        let cols := sort_by_key ws (transpose (length ws) (map snd rows)) in
        Ok (map fst cols, map fst rows, transpose (length wa) (map snd cols))
    end.

  (** [_create_zero_table].  _polardiagramtable.py 169-173. *)
  Definition zero_table (ws wa : list T) : table T :=
    mkTable (py_sorted nleb ws) (py_sorted nleb wa)
            (repeat (repeat (nofZ 0) (length ws)) (length wa)) true.

  (** [bsps.shape == (rows, cols)]. *)
  Definition has_shape (bs : list (list T)) (rows cols : nat) : bool :=
    Nat.eqb (length bs) rows && forallb (fun r => Nat.eqb (length r) cols) bs.

  (** [__init__].  _polardiagramtable.py 143-167, [_incompatible_shapes] 786-788. *)
  Definition table_new (ws wa : res_arg T) (bsps : option (nd T)) : result (table T) :=
    do ws <- build_ws ws;
    do wa <- build_wa wa;
    match bsps with
    | None => Ok (zero_table ws wa)
    | Some (Nd2 bs) =>
        if has_shape bs (length wa) (length ws) then
          do s <- sort_table ws wa bs;
          let '(ws', wa', bs') := s in Ok (mkTable ws' wa' bs' false)
        else Raise ValueError
    | Some _ => Raise ValueError
    end.

  (** [normalize_wind] for wind speeds and wind angles.  _polardiagramtable.py
      773-783.  In-place change of the caller's array: ArgsModel.v. *)
  Definition normalize_ws (w : list T) : result (list T) :=
    if existsb (fun x => nltb x (nofZ 0)) w then Raise ValueError else Ok w.
  Definition normalize_wa (w : list T) : result (list T) :=
    Ok (map (fun x => nmod x (nofZ 360)) w).

  (** [_get_indices].  _polardiagramtable.py 311-330; [norm] is
      [normalize_wind] for the resolution type. *)
  Definition get_indices (norm : list T -> result (list T)) (res : list T)
      (wind : option (list T)) : result (list nat) :=
    match wind with
    | None => Ok (seq 0 (length res))
    | Some w =>
        do w <- norm w;
        match w with
        | [] => Raise ValueError
        | _ =>
            if forallb (fun x => nmem x res) w
            then Ok (map fst (filter (fun ix => nmem (snd ix) w) (enumerate res)))
            else Raise ValueError
        end
    end.

  (** The entry [_boat_speeds[i, j]]. *)
  Definition cell (bs : list (list T)) (i j : nat) : T := nth j (nth i bs []) (nofZ 0).

  (** [__getitem__].  _polardiagramtable.py 303-309.  The index lists are
      broadcast against each other (IndexError if impossible) and [float] of an
      array of size other than one raises TypeError. *)
  Definition getitem (t : table T) (ws wa : list T) : result T :=
    do col <- get_indices normalize_ws (t_ws t) (Some ws);
    do row <- get_indices normalize_wa (t_wa t) (Some wa);
    match row, col with
    | [i], [j] => Ok (cell (t_bs t) i j)
    | [_], _ | _, [_] => Raise TypeError
    | _, _ => if Nat.eqb (length row) (length col) then Raise TypeError else Raise IndexError
    end.

  (** The points of the table, row by row.  _polardiagramtable.py 288-291 and
      [default_points] 351-361. *)
  Definition points (t : table T) : list (pt3 T) :=
    flat_map (fun ar => map (fun sb => (fst sb, fst ar, snd sb)) (combine (t_ws t) (snd ar)))
             (combine (t_wa t) (t_bs t)).

  (** The interpolation branch of [__call__].  _polardiagramtable.py 286-301.
      [nhood] is [neighbourhood.is_contained_in], [interp] is
      [interpolator.interpolate] on points, weights and the query.  A plain
      [True] as mask (only for an empty table) adds an array dimension and
      makes the interpolator fail; modelled as ValueError. *)
  Definition interpolate_from (nhood : list (T * T) -> result mask)
      (interp : list (pt3 T) -> list T -> T * T -> result T)
      (pts : list (pt3 T)) (ws wa : T) : result T :=
    do m <- nhood (map (fun p => (pws p - ws, pwa p - wa)%num) pts);
    match m with
    | MTrue => Raise ValueError
    | MList m =>
        do ps <- np_mask pts m;
        do w <- np_mask (repeat (nofZ 1) (length pts)) m;
        interp ps w (ws, wa)
    end.

  (** [__call__] for scalar wind speed and angle.  _polardiagramtable.py 247-301. *)
  Definition table_call nhood interp (t : table T) (ws wa : T) : result T :=
    match getitem t [ws] [wa] with
    | Raise TypeError | Raise ValueError => interpolate_from nhood interp (points t) ws wa
    | r => r
    end.

  (** [np.where(self.wind_speeds == ws_)]: for a Python list and a Python
      scalar the comparison is [False] and no index is found. *)
  Definition where_ws (t : table T) (pyscalar : bool) (ws : T) : list nat :=
    if t_pylist t && pyscalar then []
    else map fst (filter (fun ix => neqb (snd ix) ws) (enumerate (t_ws t))).

  (** One slice of [ws_to_slices].  _polardiagramtable.py 127-141; a slice is
      given by its columns. *)
  Definition table_slice nhood interp (t : table T) (pyscalar : bool) (ws : T)
    : result (list (pt3 T)) :=
    do bsp <- (if nmem ws (t_ws t) then
                 match where_ws t pyscalar ws with
                 | [] => Raise IndexError
                 | j :: _ => Ok (map (fun r => nth j r (nofZ 0)) (t_bs t))
                 end
               else mapM (fun wa => table_call nhood interp t ws wa) (t_wa t));
    Ok (map (fun ab => (ws, fst ab, snd ab)) (combine (t_wa t) bsp)).

  (** [ws_to_slices].  _polardiagramtable.py 116-141.  [pyscalar] holds if the
      wind speeds are Python numbers and not elements of an array. *)
  Definition ws_to_slices nhood interp (t : table T) (pyscalar : bool) (ws : list T)
    : result (list (list (pt3 T))) :=
    mapM (table_slice nhood interp t pyscalar) ws.

  (** Position of the first element equal to [x]: [np.where(l == x)[0][0]]. *)
  Fixpoint index_of (x : T) (l : list T) : nat :=
    match l with
    | [] => O
    | y :: r => if neqb y x then O else S (index_of x r)
    end.

  (** [symmetrize].  _polardiagramtable.py 493-565, with
      [_delete_multiple_180_degree_occurrences] 808-813 and
      [_delete_multiple_0_degree_occurrences] 816-817. *)
  Definition table_symmetrize (t : table T) : result (table T) :=
    let wa := t_wa t ++ map (fun a => (nofZ 360 - a)%num) (rev (t_wa t)) in
    let bs := t_bs t ++ rev (t_bs t) in
    let '(wa, bs) :=
      if nmem (nofZ 180) (t_wa t) then
        let mid := index_of (nofZ 180) wa in (np_delete wa mid, np_delete bs mid)
      else (wa, bs) in
    let '(wa, bs) :=
      if nmem (nofZ 0) (t_wa t) then (removelast wa, removelast bs) else (wa, bs) in
    table_new (RIter (t_ws t)) (RIter wa) (Some (Nd2 bs)).

  (** [new_bsps.shape == (n,)] and [new_bsps.shape == (n, m)]. *)
  Definition shape1 (a : nd T) (n : nat) : bool :=
    match a with Nd1 l => Nat.eqb (length l) n | _ => false end.
  Definition shape2 (a : nd T) (n m : nat) : bool :=
    match a with Nd2 rows => has_shape rows n m | _ => false end.
  (** [new_bsps.flat]. *)
  Definition flat (a : nd T) : list T :=
    match a with Nd1 l => l | Nd2 rows => concat rows | NdOther => [] end.

  (** [self._boat_speeds[mask] = values]: the selected cells of one row take the
      next values. *)
  Fixpoint assign_row (row : list T) (m : list bool) (vals : list T) : list T * list T :=
    match row, m with
    | x :: r, c :: m' =>
        if c then
          match vals with
          | v :: vs => let '(r', rest) := assign_row r m' vs in (v :: r', rest)
          | [] => let '(r', rest) := assign_row r m' [] in (x :: r', rest)
          end
        else let '(r', rest) := assign_row r m' vals in (x :: r', rest)
    | _, _ => (row, vals)
    end.
  Fixpoint assign_rows (bs : list (list T)) (m : list (list bool)) (vals : list T)
    : list (list T) :=
    match bs, m with
    | r :: bs', c :: m' =>
        let '(r', rest) := assign_row r c vals in r' :: assign_rows bs' m' rest
    | _, _ => bs
    end.

  Definition mem_nat (i : nat) (l : list nat) : bool := existsb (Nat.eqb i) l.

  (** [change_entries].  _polardiagramtable.py 567-661.  A scalar [new_bsps] is
      [Nd1] of one element (line 626), scalar winds are one-element lists. *)
  Definition change_entries (t : table T) (new : nd T) (ws wa : option (list T))
    : result (table T) :=
    do ws <- get_indices normalize_ws (t_ws t) ws;
    do wa <- get_indices normalize_wa (t_wa t) wa;
    let wa_len := Nat.eqb (length wa) 1 in
    let ws_len := Nat.eqb (length ws) 1 in
    let correct_shape :=
      if wa_len && ws_len then shape1 new 1
      else if wa_len then shape1 new (length ws)
      else if ws_len then shape1 new (length wa)
      else shape2 new (length wa) (length ws) in
    if correct_shape then
      let mask := map (fun i => map (fun j => mem_nat i wa && mem_nat j ws)
                                    (seq 0 (length (t_ws t)))) (seq 0 (length (t_wa t))) in
      Ok (mkTable (t_ws t) (t_wa t) (assign_rows (t_bs t) mask (flat new)) (t_pylist t))
    else Raise ValueError.
End Table.
