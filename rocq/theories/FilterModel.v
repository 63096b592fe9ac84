(** * Model of hrosailing/processing/filter.py *)

From Coq Require Import List Bool Arith ZArith.
From Verif Require Import Py Num PySort.
Import ListNotations.

Section Filter.
  Context {T : Type} `{Num T}.

  (** Weights as returned by a weigher: an array or a Python list (the
      [CylindricMeanWeigher] and [CylindricMemberWeigher] return the list [[]] for no
      points, the [FluctuationWeigher] always returns a list). *)
  Inductive weights := WArray (l : list T) | WList (l : list T).

  Definition wlist (w : weights) : list T := match w with WArray l | WList l => l end.

  (** [np.percentile(wts, percent)] with linear interpolation, for at least one weight. *)
  Definition percentile (wts : list T) (percent : T) : T :=
    let s := py_sorted nleb wts in
    let n := length wts in
    let h := (percent / nofZ 100 * nofZ (Z.of_nat (n - 1)))%num in
    let lo := Z.to_nat (nfloor h) in
    let a := nth lo s (nofZ 0) in
    let b := nth (Nat.min (S lo) (n - 1)) s (nofZ 0) in
    (a + (h - nofZ (Z.of_nat lo)) * (b - a))%num.

  (** [QuantileFilter.__init__].  filter.py 76-81. *)
  Definition quantile_new (percent : T) : result T :=
    if nltb percent (nofZ 0) || nltb (nofZ 100) percent then Raise ValueError else Ok percent.

  (** [QuantileFilter.filter].  filter.py 86-103.  The comparison of a list with a
      number of numpy works as for an array. *)
  Definition quantile_filter (percent : T) (wts : weights) : list bool :=
    match wlist wts with
    | [] => []
    | l => let q := percentile l percent in map (fun w => nleb q w) l
    end.

  (** [BoundFilter.__init__].  filter.py 128-134. *)
  Definition bound_new (lower upper : T) : result (T * T) :=
    if nltb upper lower then Raise ValueError else Ok (lower, upper).

  (** [BoundFilter.filter].  filter.py 139-157.  Comparing a list with a float raises
      TypeError. *)
  Definition bound_filter (b : T * T) (wts : weights) : result (list bool) :=
    match wts with
    | WList _ => Raise TypeError
    | WArray l => Ok (map (fun w => nleb (fst b) w && nleb w (snd b)) l)
    end.

  (** [set_statistics]: [n_filtered_points] and [n_rows].  filter.py 41-56. *)
  Definition filter_statistics (f : list bool) : nat * nat :=
    let n := length (filter negb f) in (n, length f - n).
End Filter.
Arguments weights : clear implicits.
