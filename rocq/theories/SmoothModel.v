(** * Model of hrosailing/processing/smoother.py

    Time stamps are numbers (seconds).  Columns are complete: None does not occur. *)

From Coq Require Import String.
From Coq Require Import List Bool Arith ZArith.
From Verif Require Import Py Num DataModel.
Import ListNotations.
Open Scope list_scope.
Open Scope nat_scope.

Section Smooth.
  Context {T : Type} `{Num T}.
  (** [1 / 2 * x]. *)
  Definition sm_half (x : T) : T := (nofZ 1 / nofZ 2 * x)%num.

  (** [_get_interval_bounds].  smoother.py 122-141: from the current row on, with the
      lower bound and the value of the current interval.  The two lists have the same
      length. *)
  Fixpoint interval_bounds (x_lb y_lb : T) (xs ys : list T) : list ((T * T) * T) :=
    match xs, ys with
    | x :: ((xa :: _) as xs'), y :: ((ya :: yr) as ys') =>
        match yr with
        | [] => [((x_lb, xa), y)]
        | _ => if (y =? ya)%num then interval_bounds x_lb y_lb xs' ys'
               else ((x_lb, sm_half (x + xa)%num), y_lb) :: interval_bounds (sm_half (x + xa)%num) ya xs' ys'
        end
    | _, _ => []
    end.

  (** One step of the loop of [_approximate_intervals].  smoother.py 151-175. *)
  Definition approx_one (span : T) (y_before : T) (b : (T * T) * T) (y_after : T) : list ((T * T) * (T * T)) :=
    let '((x_lb, x_ub), y) := b in
    if (x_ub - x_lb <? nofZ 2 * span)%num then
      let mid := sm_half (x_ub + x_lb)%num in
      [((x_lb, mid), (sm_half (y_before + y)%num, y)); ((mid, x_ub), (y, sm_half (y_after + y)%num))]
    else
      [((x_lb, (x_lb + span)%num), (sm_half (y_before + y)%num, y));
       (((x_lb + span)%num, (x_ub - span)%num), (y, y));
       (((x_ub - span)%num, x_ub), (y, sm_half (y_after + y)%num))].

  (** [_approximate_intervals].  smoother.py 143-177. *)
  Fixpoint approx_intervals (span : T) (y_before last : T) (bs : list ((T * T) * T)) : list ((T * T) * (T * T)) :=
    match bs with
    | [] => []
    | b :: r =>
        let y_after := match r with [] => last | b' :: _ => snd b' end in
        approx_one span y_before b y_after ++ approx_intervals span (snd b) last r
    end.

  (** The inner loop [while x > x_ub].  smoother.py 186-192; None: IndexError. *)
  Fixpoint advance (x : T) (cur : (T * T) * (T * T)) (rest : list ((T * T) * (T * T)))
    : option (((T * T) * (T * T)) * list ((T * T) * (T * T))) :=
    if (snd (fst cur) <? x)%num then
      match rest with [] => None | c :: r => advance x c r end
    else Some (cur, rest).

  (** smoother.py 194-198. *)
  Definition piece_value (p : (T * T) * (T * T)) (x : T) : T :=
    let '((x_lb, x_ub), (y_lb, y_ub)) := p in
    if (x_ub - x_lb =? nofZ 0)%num then y_ub
    else let mu := ((x - x_lb) / (x_ub - x_lb))%num in (mu * y_ub + (nofZ 1 - mu) * y_lb)%num.

  (** [_smooth_data_from_approx_intervals].  smoother.py 179-200. *)
  Fixpoint smooth_points (cur : (T * T) * (T * T)) (rest : list ((T * T) * (T * T))) (xs ys : list T) : list T :=
    match xs, ys with
    | x :: xs', y :: ys' =>
        match advance x cur rest with
        | None => ys
        | Some (c, r) => piece_value c x :: smooth_points c r xs' ys'
        end
    | _, _ => ys
    end.

  (** [_smooth_field].  smoother.py 103-120. *)
  Definition smooth_field (span : T) (times ys : list T) : result (list T) :=
    match times, ys with
    | t0 :: _, y0 :: _ =>
        let xs := map (fun t => (t - t0)%num) times in
        let bs := interval_bounds (nth 0 xs (nofZ 0)) y0 xs ys in
        match approx_intervals span y0 (last ys y0) bs with
        | [] => Raise IndexError
        | p :: ps => Ok (smooth_points p ps xs ys)
        end
    | _, _ => Raise IndexError
    end.

  (** A table: the time stamps and the other columns, of type float or of another type. *)
  Inductive smcol := FloatCol (l : list T) | OtherCol (l : list pyval).
  Definition smcol_len (c : smcol) : nat := match c with FloatCol l => length l | OtherCol l => length l end.
  Record smdata := mkSm { sm_time : list T; sm_cols : list (string * smcol) }.

  (** [AffineSmoother.smooth].  smoother.py 85-101: the check compares with the first time
      stamp only. *)
  Definition affine_smooth (span : T) (d : smdata) : result smdata :=
    let early := match sm_time d with [] => false | t0 :: _ => existsb (fun t => (t <? t0)%num) (sm_time d) end in
    if early then Raise ValueError
    else
      do cs <- mapM (fun kc => match snd kc with
                               | FloatCol l => do l' <- smooth_field span (sm_time d) l; Ok (fst kc, FloatCol l')
                               | OtherCol _ => Ok kc
                               end) (sm_cols d);
      Ok (mkSm (sm_time d) cs).

  (** [LazySmoother.smooth].  smoother.py 49-57. *)
  Definition lazy_smooth (d : smdata) : smdata := d.
End Smooth.
