(** * Model of /repo/hrosailing/models/influencemodel.py *)

From Coq Require Import String List Bool Arith ZArith Reals.
From Verif Require Import Py Num Dict Trig WindModel BaseModel.
Import ListNotations.
Open Scope string_scope.
Open Scope list_scope.
Open Scope R_scope.

(** A value stored under a key of the data: a number, a Python list of numbers
    or a one-dimensional array.  Missing values ([None]) and strings are not
    modelled. *)
Inductive ival := Single (x : R) | PyList (l : list R) | NpArray (l : list R).

(** The data argument: a dictionary or [Data] object. *)
Definition idata := dict ival.

(** [data[key]]. *)
Definition iget (k : string) (d : idata) : result ival :=
  match dget k d with Some v => Ok v | None => Raise KeyError end.

(** The array returned by [remove_influence]: one-dimensional, rows
    (wind speed, wind angle, boat speed) with [None] for a nan angle, or any
    other two-dimensional array of numbers. *)
Inductive wdata := W1 (l : list R) | W2 (rows : list out_row) | WOther (rows : list (list R)).

(** What [np.column_stack] makes of one entry: a column. *)
Definition column (v : ival) : list R :=
  match v with Single x => [x] | PyList l | NpArray l => l end.

(** core/computing.py:169-187 [data_dict_to_numpy] for three keys:
    [np.column_stack] of the columns, ValueError for different lengths. *)
Definition stack3 (a b c : ival) : result (list (R * R * R)) :=
  let ca := column a in let cb := column b in let cc := column c in
  if ((length ca =? length cb) && (length cb =? length cc))%nat
  then Ok (combine (combine ca cb) cc) else Raise ValueError.

(** [np.array([a, b, c])] for [a] not a list: numbers give a one-dimensional
    array, arrays of equal length the rows of a two-dimensional one, mixed
    shapes ValueError. *)
Definition array3 (a b c : ival) : result wdata :=
  match a, b, c with
  | Single x, Single y, Single z => Ok (W1 [x; y; z])
  | Single _, _, _ | _, Single _, _ | _, _, Single _ => Raise ValueError
  | _, _, _ =>
      if ((length (column a) =? length (column b)) && (length (column b) =? length (column c)))%nat
      then Ok (WOther [column a; column b; column c]) else Raise ValueError
  end.

Definition row_of (p : R * R * R) : list R := let '(s, a, b) := p in [s; a; b].

(** influencemodel.py:230-245 [_get_true_wind_data].  The array handed to
    [convert_apparent_wind_to_true] is fresh, so its modification in place is
    not visible. *)
Definition get_true_wind_data (d : idata) : result wdata :=
  let speed := if dmem "BSP" d then "BSP" else "SOG" in
  if dmem "TWA" d && dmem "TWS" d then
    do tws <- iget "TWS" d;
    do twa <- iget "TWA" d;
    do bsp <- iget speed d;
    match tws with
    | PyList _ => do rows <- stack3 tws twa bsp; Ok (W2 (map (fun p => let '(s, a, b) := p in (s, Some a, b)) rows))
    | _ => array3 tws twa bsp
    end
  else if dmem "AWA" d && dmem "AWS" d then
    do aws <- iget "AWS" d;
    do awa <- iget "AWA" d;
    do bsp <- iget speed d;
    do rows <- stack3 aws awa bsp;
    do out <- snd (convert_apparent_wind_to_true true (Arr2 3 (map row_of rows)));
    Ok (W2 out)
  else Raise ValueError.

(** influencemodel.py:86-104 [IdentityInfluenceModel.remove_influence]. *)
Definition identity_remove : idata -> result wdata := get_true_wind_data.

(** influencemodel.py:168-179 [WindAngleCorrectingInfluenceModel.remove_influence]:
    [wind_data[:, 1]] needs two axes and at least two columns. *)
Definition wac_remove (shift : R) (d : idata) : result wdata :=
  do w <- get_true_wind_data d;
  match w with
  | W1 _ => Raise IndexError
  | W2 rows => Ok (W2 (map (fun r => let '(s, a, b) := r in
                              (s, option_map (fun x => nmod (x - shift) 360) a, b)) rows))
  | WOther rows =>
      if forallb (fun r => 2 <=? length r)%nat rows
      then Ok (WOther (map (fun r => match r with
                                     | x :: y :: t => x :: nmod (y - shift) 360 :: t
                                     | _ => r end) rows))
      else Raise IndexError
  end.

(** The speeds: a number or a list of numbers. *)
Inductive speeds := SpOne (x : R) | SpList (l : list R).

Section Add.
  (** The polar diagram called with numbers; with two arrays (what a diagram
      makes of them is its own business). *)
  Variable pd : R -> R -> result R.
  Variable pd_arrays : ival -> ival -> result (list R).

  (** [pd(ws, wa)] for whatever the dictionary holds. *)
  Definition pd_any (ws wa : ival) : result speeds :=
    match ws, wa with
    | Single s, Single a => do v <- pd s a; Ok (SpOne v)
    | _, _ => do l <- pd_arrays ws wa; Ok (SpList l)
    end.

  (** [[pd(ws, f(wa)) for ws, wa in zip(tws, twa)]]: a number cannot be
      iterated (TypeError). *)
  Definition pd_zip (f : R -> R) (ws : list R) (twa : ival) : result speeds :=
    match twa with
    | Single _ => Raise TypeError
    | PyList wa | NpArray wa => do l <- mapM (fun p => pd (fst p) (f (snd p))) (combine ws wa); Ok (SpList l)
    end.

  (** influencemodel.py:106-130 [IdentityInfluenceModel.add_influence]. *)
  Definition identity_add (d : idata) : result speeds :=
    do tws <- iget "TWS" d;
    do twa <- iget "TWA" d;
    match tws with
    | PyList ws => pd_zip (fun a => a) ws twa
    | _ => pd_any tws twa
    end.

  (** influencemodel.py:181-196
      [WindAngleCorrectingInfluenceModel.add_influence]. *)
  Definition wac_add (shift : R) (d : idata) : result speeds :=
    do tws <- iget "TWS" d;
    do twa <- iget "TWA" d;
    match tws with
    | PyList ws | NpArray ws => pd_zip (fun a => nmod (a + shift) 360) ws twa
    | Single _ => pd_any tws twa
    end.
End Add.

(** influencemodel.py:214-220: the weighted kernel of one recorded angle,
    [other_ws * np.exp(-(((abs(wa - other_wa) % 360) / interval) ** 2))].
    Division by an interval size of zero delivers nan or inf. *)
Definition kernel (interval wa : R) (other : R * R) : result R :=
  do q <- np_div (nmod (nabs (wa - fst other)) 360) interval;
  Ok (snd other * exp (- (q * q))).

(** influencemodel.py:213-223: [counts] at one sample angle. *)
Definition count (interval : R) (others : list (R * R)) (wa : R) : result R :=
  do l <- mapM (kernel interval wa) others; Ok (nsum l).

(** [min(pairs, key=lambda x: x[1])]: the first of the smallest. *)
Fixpoint min_by_snd (best : R * R) (l : list (R * R)) : R * R :=
  match l with
  | [] => best
  | p :: r => min_by_snd (if Rltb (snd p) (snd best) then p else best) r
  end.

(** The sample angles, [np.linspace(0, 359, 10 * 360)] (influencemodel.py:212). *)
Definition fit_sample : list R := linspace 0 359 (10 * 360).

(** influencemodel.py:198-227 [WindAngleCorrectingInfluenceModel.fit]: the new
    value of [_wa_shift] (also stored as statistic "wa_shift"), for a given
    sample. *)
Definition wac_fit_on (sample : list R) (interval : R) (d : idata) : result R :=
  do twa <- iget "TWA" d;
  do tws <- iget "TWS" d;
  match twa, tws with
  | Single _, _ | _, Single _ => Raise TypeError
  | _, _ =>
      do counts <- mapM (count interval (combine (column twa) (column tws))) sample;
      match combine sample counts with
      | [] => Raise ValueError
      | p :: r => Ok (fst (min_by_snd p r))
      end
  end.

Definition wac_fit : R -> idata -> result R := wac_fit_on fit_sample.
