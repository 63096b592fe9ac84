(** * Model of hrosailing/processing/weigher.py (weighers)

    Numbers are reals (square roots occur). *)

From Coq Require Import String.
From Coq Require Import List Bool Arith ZArith Reals.
From Verif Require Import Py Num.
Import ListNotations.
Open Scope string_scope.
Open Scope list_scope.

(* ------------------------------------------------------------------ *)
(** ** Data *)

(** A column of a [Data] object: floats without missing entries or another type.
    Simplified: float columns with missing entries are not represented. *)
Inductive column := CFloat (l : list R) | COther (n : nat).

(** Columns in the order of the dictionary, all of the same length. *)
Definition fdata := list (string * column).

(** The number of entries of a column. *)
Definition col_len (c : column) : nat := match c with CFloat l => length l | COther n => n end.

(** [data.n_rows]. *)
Definition f_rows (d : fdata) : nat := fold_right Nat.max 0 (map (fun kc => col_len (snd kc)) d).

(** [x in l] for strings. *)
Definition smem (x : string) (l : list string) : bool := existsb (String.eqb x) l.

(** [data[key]]. *)
Definition f_get (d : fdata) (key : string) : result column :=
  match find (fun kc => String.eqb (fst kc) key) d with Some kc => Ok (snd kc) | None => Raise KeyError end.

(** [np.column_stack(columns)] as a list of [n] rows. *)
Definition to_rows (n : nat) (cs : list (list R)) : list (list R) :=
  map (fun i => map (fun c => nth i c 0%R) cs) (seq 0 n).

(** The float columns whose key is in [attributes]. *)
Definition float_cols (d : fdata) (attributes : list string) : list (string * list R) :=
  flat_map (fun kc => match snd kc with
                      | CFloat l => if smem (fst kc) attributes then [(fst kc, l)] else []
                      | COther _ => [] end) d.

(** [data[attributes].numerical].  data.py 48-58, 493-520, 538-550.  Without float
    columns the array has no rows; an empty list of attributes is taken as an empty
    mask of the rows: all float columns, no rows. *)
Definition f_numerical (d : fdata) (attributes : list string) : list string * list (list R) :=
  match attributes with
  | [] => (map fst (float_cols d (map fst d)), [])
  | _ => let cs := float_cols d attributes in
         (map fst cs, match cs with [] => [] | _ => to_rows (f_rows d) (map snd cs) end)
  end.

(** Points handed to a weigher. *)
Inductive points := PArray (rows : list (list R)) | PData (d : fdata).

(** [list.remove(x)]: the first occurrence. *)
Fixpoint sremove (x : string) (l : list string) : list string :=
  match l with
  | [] => []
  | y :: r => if String.eqb x y then r else y :: sremove x r
  end.

(** A column as numbers ([np.asarray(bsp)]).  Simplified: a column of another type fails
    here instead of at the first computation with it. *)
Definition as_floats (c : column) : result (list R) :=
  match c with CFloat l => Ok l | COther _ => Raise TypeError end.

(** [_set_points_from_data(data, attributes, reduce=False)].  weigher.py 549-580. *)
Definition set_points (p : points) (attributes : option (list string))
  : option (list string) * list (list R) :=
  match p with
  | PArray rows => (attributes, rows)
  | PData d =>
      let a := match attributes with None => map fst d | Some a => a end in
      let (k, rows) := f_numerical d a in (Some k, rows)
  end.

(** [_set_points_from_data(data, attributes)].  weigher.py 549-580.  The first
    component is the user's list after the call: [remove] changes it in place. *)
Definition set_points_reduce (p : points) (attributes : option (list string))
  : option (list string) * result (option (list string) * list (list R) * list R) :=
  match p with
  | PArray rows =>
      (attributes, Ok (attributes, map (@removelast R) rows, map (fun r => last r 0%R) rows))
  | PData d =>
      let a := match attributes with None => map fst d | Some a => a end in
      let keep l := match attributes with None => None | Some _ => Some l end in
      let go key :=
        let a' := sremove key a in
        match f_get d key with
        | Raise e => (attributes, Raise e)
        | Ok c => (keep a',
                   do bsp <- as_floats c;
                   let (k, rows) := f_numerical d a' in Ok (Some k, rows, bsp))
        end in
      if smem "BSP" a then go "BSP"
      else if smem "SOG" a then go "SOG"
      else (attributes, Raise ValueError)
  end.

(* ------------------------------------------------------------------ *)
(** ** Norms *)

(** [NORM_SCALES] with default 1.  core/constants.py, weigher.py 921-923. *)
Definition norm_scale (key : string) : R :=
  if smem key ["TWS"; "AWS"] then (1 / 20)%R
  else if smem key ["TWA"; "AWA"; "lat"; "lon"] then (1 / 360)%R
  else if smem key ["BSP"; "SOG"] then (1 / 40)%R
  else 1%R.

(** [scaled * vec] for one row: numpy's broadcasting of two shapes. *)
Definition broadcast_mul (scales v : list R) : result (list R) :=
  if Nat.eqb (length scales) (length v) then Ok (map (fun sv => (fst sv * snd sv)%R) (combine scales v))
  else match v, scales with
       | [x], _ => Ok (map (fun s => (s * x)%R) scales)
       | _, [s] => Ok (map (fun x => (s * x)%R) v)
       | _, _ => Raise ValueError
       end.

(** [np.linalg.norm] of one row. *)
Definition norm2 (v : list R) : R := sqrt (nsum (map (fun x => (x * x)%R) v)).

(** [hrosailing_standard_scaled_euclidean_norm(dimensions)].  weigher.py 899-924 and
    computing.py 99-137. *)
Definition standard_norm (dimensions : option (list string)) (vecs : list (list R)) : result (list R) :=
  let dims := match dimensions with None => ["TWS"; "TWA"] | Some l => l end in
  mapM (fun v => do s <- broadcast_mul (map norm_scale dims) v; Ok (norm2 s)) vecs.

(** [points - point], row by row. *)
Definition vsub (p q : list R) : list R := map (fun xy => (fst xy - snd xy)%R) (combine p q).

(** A norm of the user: applied to all difference vectors at once. *)
Definition norm_fun := list (list R) -> result (list R).

(* ------------------------------------------------------------------ *)
(** ** CylindricMeanWeigher *)

(** [np.mean]; of nothing it is nan. *)
Definition np_mean (l : list R) : result R :=
  match l with [] => Raise NonFinite | _ => Ok (nsum l / INR (length l))%R end.

(** [np.std] of a non-empty list. *)
Definition np_std (l : list R) : R :=
  let m := (nsum l / INR (length l))%R in
  sqrt (nsum (map (fun x => ((x - m) * (x - m))%R) l) / INR (length l)).

(** [_standard_deviation_of].  weigher.py 325-326; the deviation of nothing is nan. *)
Definition std_or_1 (l : list R) : result R :=
  match l with [] => Raise NonFinite | _ => let s := np_std l in Ok (if neqb s (nofZ 0) then 1%R else s) end.

(** [_normalize(weights, np.max)].  weigher.py 333-339. *)
Definition normalize (w : list R) : list R :=
  match nmaximum w with
  | Raise _ => w
  | Ok m => if neqb m (nofZ 0) then w else map (fun x => (x / m)%R) w
  end.

(** The object: [_radius], [_norm], [_dimensions].  weigher.py 252-263. *)
Record mean_weigher := mkMean { mw_radius : R; mw_norm : option norm_fun; mw_dims : option (list string) }.

(** [__init__].  weigher.py 252-263. *)
Definition mean_new (radius : R) (norm : option norm_fun) (dims : option (list string)) : result mean_weigher :=
  if nleb radius (nofZ 0) then Raise ValueError else Ok (mkMean radius norm dims).

(** [_calculate_weight] with [_determine_points_in_cylinder].  weigher.py 308-323. *)
Definition mean_weight (norm : norm_fun) (radius : R) (rows : list (list R)) (bsps : list R)
    (point : list R) (bsp : R) : result R :=
  do ds <- norm (map (fun p => vsub p point) rows);
  let inside := mask_list bsps (map (fun d => nleb d radius) ds) in
  do s <- std_or_1 inside;
  do m <- np_mean inside;
  Ok (nabs (m - bsp)%num / s)%R.

(** [len(points)] or [points.n_rows].  weigher.py 288-291. *)
Definition n_points (p : points) : nat :=
  match p with PArray rows => length rows | PData d => f_rows d end.

(** [weigh].  weigher.py 271-306: the object afterwards and the result. *)
Definition mean_weigh (w : mean_weigher) (p : points) : mean_weigher * result (list R) :=
  if Nat.eqb (n_points p) 0 then (w, Ok [])
  else
    let (dims', r) := set_points_reduce p (mw_dims w) in
    match r with
    | Raise e => (mkMean (mw_radius w) (mw_norm w) dims', Raise e)
    | Ok (dimensions, rows, bsps) =>
        let norm := match mw_norm w with Some n => n | None => standard_norm dimensions end in
        (* the norm is only looked up when there is a point to weigh *)
        let stored := match rows with [] => mw_norm w | _ => Some norm end in
        (mkMean (mw_radius w) stored dims',
         do zs <- mapM (fun pb => mean_weight norm (mw_radius w) rows bsps (fst pb) (snd pb)) (combine rows bsps);
         Ok (map (fun z => (1 - z)%R) (normalize zs)))
    end.

(* ------------------------------------------------------------------ *)
(** ** CylindricMemberWeigher *)

(** The object.  weigher.py 384-399. *)
Record member_weigher := mkMember {
  bw_radius : R; bw_length : R; bw_norm : norm_fun; bw_dims : option (list string) }.

(** [__init__].  weigher.py 384-399. *)
Definition member_new (radius length : R) (norm : option norm_fun) (dims : option (list string))
  : result member_weigher :=
  if nleb radius (nofZ 0) then Raise ValueError
  else if nltb length (nofZ 0) then Raise ValueError
  else Ok (mkMember radius length (match norm with None => standard_norm dims | Some n => n end) dims).

(** [_calculate_weight] with [_count_points_in_cylinder].  weigher.py 441-451. *)
Definition member_weight (w : member_weigher) (rows : list (list R)) (point : list R) : result R :=
  let height := map (fun p => nleb (nabs (last p 0%R - last point 0%R)%num) (bw_length w)) rows in
  do ds <- bw_norm w (map (fun p => vsub (removelast p) (removelast point)) rows);
  let radius := map (fun d => nleb d (bw_radius w)) ds in
  let cylinder := map (fun hr => andb (fst hr) (snd hr)) (combine height radius) in
  Ok (INR (length (filter (fun b => b) cylinder)) - 1)%R.

(** [weigh].  weigher.py 407-439. *)
Definition member_weigh (w : member_weigher) (p : points) : member_weigher * result (list R) :=
  if Nat.eqb (n_points p) 0 then (w, Ok [])
  else
    let (dims', rows) := set_points p (bw_dims w) in
    (mkMember (bw_radius w) (bw_length w) (bw_norm w) dims',
     do zs <- mapM (member_weight w rows) rows; Ok (normalize zs)).

(* ------------------------------------------------------------------ *)
(** ** FluctuationWeigher *)

(** The object; times are integers (microseconds).  weigher.py 490-499. *)
Record fluct_weigher := mkFluct {
  fw_attributes : list string; fw_before : Z; fw_after : Z; fw_bounds : list R }.

(** [self._upper_bounds[[i for i, key in enumerate(attributes) if key in dimensions]]];
    a missing bound raises IndexError. *)
Fixpoint select_bounds (attributes : list string) (bounds : list R) (dimensions : list string) : result (list R) :=
  match attributes with
  | [] => Ok []
  | k :: r =>
      if smem k dimensions then
        match bounds with
        | [] => Raise IndexError
        | b :: bs => do l <- select_bounds r bs dimensions; Ok (b :: l)
        end
      else select_bounds r (match bounds with [] => [] | _ :: bs => bs end) dimensions
  end.

(** One attribute: [weights[curr] = 0] or [weights[curr] *= (ub - std) / ub]. *)
Definition fluct_step (window : list R) (ub : R) (w : R) : result R :=
  let s := np_std window in
  if nltb ub s then Ok 0%R
  else do q <- np_div (ub - s)%R ub; Ok (w * q)%R.

(** The loop over the columns; a column that does not exist raises IndexError. *)
Fixpoint fluct_cols (rows : list (list R)) (col : nat) (bounds : list R) (w : R) : result R :=
  match bounds with
  | [] => Ok w
  | ub :: r =>
      do window <- mapM (fun row => match nth_error row col with Some x => Ok x | None => Raise IndexError end) rows;
      do w' <- fluct_step window ub w;
      fluct_cols rows (S col) r w'
  end.

(** [weigh] for data with the given [datetime] column.  weigher.py 501-546. *)
Definition fluct_weigh (fw : fluct_weigher) (times : list Z) (d : fdata) : result (list R) :=
  let (dimensions, rows) := f_numerical d (fw_attributes fw) in
  do bounds <- select_bounds (fw_attributes fw) (fw_bounds fw) dimensions;
  let n := length rows in
  mapM (fun dt =>
    let starts := filter (fun i => let t := nth i times 0%Z in
                            (Z.leb t dt && Z.leb (dt - t) (fw_before fw))%bool) (seq 0 n) in
    let ends := filter (fun i => let t := nth i times 0%Z in
                          (Z.leb dt t && Z.leb (t - dt) (fw_after fw))%bool) (seq 0 n) in
    match starts, rev ends with
    | s :: _, e :: _ => fluct_cols (firstn (S e - s) (skipn s rows)) 0 bounds 1%R
    | _, _ => Raise ValueError
    end) (firstn n times).

(* ------------------------------------------------------------------ *)
(** ** Arithmetic of weighers *)

(** What [weigh] of a weigher returns: an array or, for combined weighers, possibly a
    number. *)
Inductive wvalue := WvArr (l : list R) | WvNum (x : R).

(** [weights, _ = value]. *)
Definition unpack_first (v : wvalue) : result R :=
  match v with
  | WvArr [x; _] => Ok x
  | WvArr _ => Raise ValueError
  | WvNum _ => Raise TypeError
  end.

(** A weigher: a basic one given by its [weigh], [_UnaryMapWeigher] or
    [_BinaryMapWeigher].  The maps are applied to the unpacked value.
    weigher.py 165-189. *)
Inductive wexpr :=
| WBase (weigh : points -> result (list R))
| WUnary (sub : wexpr) (map_ : R -> result wvalue)
| WBinary (sub other : wexpr) (map_ : R -> R -> result wvalue).

(** [weigh].  weigher.py 171-174, 184-189; the statistics never raise. *)
Fixpoint wexpr_weigh (w : wexpr) (p : points) : result wvalue :=
  match w with
  | WBase f => do l <- f p; Ok (WvArr l)
  | WUnary s m => do v <- wexpr_weigh s p; do x <- unpack_first v; m x
  | WBinary s o m =>
      do v <- wexpr_weigh s p; do x <- unpack_first v;
      do u <- wexpr_weigh o p; do y <- unpack_first u; m x y
  end.

(** The other operand: a weigher, a number or an array. *)
Inductive operand := OWeigher (w : wexpr) | ONum (x : R) | OArr (l : list R).

(** [x + other] of a number and a number or array, and likewise. *)
Definition num_op (f : R -> R -> R) (o : operand) (x : R) : result wvalue :=
  match o with
  | ONum y => Ok (WvNum (f x y))
  | OArr l => Ok (WvArr (map (f x) l))
  | OWeigher _ => Raise TypeError
  end.

(** [__add__], [__mul__].  weigher.py 53-61, 66-74. *)
Definition w_add (w : wexpr) (o : operand) : result wexpr :=
  match o with
  | OWeigher v => Ok (WBinary w v (fun x y => Ok (WvNum (x + y)%R)))
  | _ => Ok (WUnary w (num_op Rplus o))
  end.
Definition w_mul (w : wexpr) (o : operand) : result wexpr :=
  match o with
  | OWeigher v => Ok (WBinary w v (fun x y => Ok (WvNum (x * y)%R)))
  | _ => Ok (WUnary w (num_op Rmult o))
  end.

(** [__sub__].  weigher.py 79-87. *)
Definition w_sub (w : wexpr) (o : operand) : result wexpr :=
  match o with
  | OWeigher v => Ok (WBinary w v (fun x y => Ok (WvNum (x - y)%R)))
  | OArr _ => Ok (WUnary w (num_op Rminus o))
  | ONum _ => Raise TypeError
  end.

(** [__neg__].  weigher.py 89-91. *)
Definition w_neg (w : wexpr) : wexpr := WUnary w (fun x => Ok (WvNum (- x)%R)).

(** [__truediv__].  weigher.py 93-101. *)
Definition w_div (w : wexpr) (o : operand) : result wexpr :=
  match o with
  | OWeigher v => Ok (WBinary w v (fun x y => do z <- np_div x y; Ok (WvNum z)))
  | ONum y => Ok (WUnary w (fun x => do z <- np_div x y; Ok (WvNum z)))
  | OArr l => Ok (WUnary w (fun x => do z <- mapM (np_div x) l; Ok (WvArr z)))
  end.

(** [__rtruediv__]: [other / weigher].  weigher.py 103-111. *)
Definition w_rdiv (o : operand) (w : wexpr) : result wexpr :=
  match o with
  | OWeigher v => Ok (WBinary w v (fun x y => do z <- np_div y x; Ok (WvNum z)))
  | OArr l => Ok (WUnary w (fun x => do z <- mapM (fun y => np_div y x) l; Ok (WvArr z)))
  | ONum _ => Raise TypeError
  end.

(** [__pow__] with a natural exponent.  weigher.py 113-115. *)
Definition w_pow (w : wexpr) (n : nat) : wexpr := WUnary w (fun x => Ok (WvNum (x ^ n)%R)).

(* ------------------------------------------------------------------ *)
(** ** Statistics *)

(** [quantiles] of [set_statistics] before rounding to two digits, for at least one
    weight.  weigher.py 131-162. *)
Definition deciles (weights : list R) (minw maxw : R) : list R :=
  let span := (maxw - minw)%R in
  map (fun i =>
    let inside w := (nleb (minw + span * INR i / 10)%R w && nleb w (minw + span * (INR i + 1) / 10)%R)%bool in
    (100 * INR (length (filter inside weights)) / INR (length weights))%R) (seq 0 10).
