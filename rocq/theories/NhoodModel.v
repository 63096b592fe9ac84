(** * Model of hrosailing/processing/neighbourhood.py *)

From Coq Require Import List Bool Arith ZArith.
From Verif Require Import Py Num PySort.
Import ListNotations.

(** What [is_contained_in] returns: a boolean array, or the plain [True] that
    some classes return for an empty argument. *)
Inductive mask := MTrue | MList (l : list bool).

Section Nhood.
  Context {T : Type} `{Num T}.

  (** [Ball.__init__].  neighbourhood.py 66-75: the radius must be positive. *)
  Definition ball_new (radius : T) : result T :=
    if nleb radius (nofZ 0) then Raise ValueError else Ok radius.

  (** [Ball.is_contained_in].  neighbourhood.py 98-102.  [norm_all] is the norm
      applied to the whole array, [norm_one] the norm applied to one point (both
      the same user supplied callable); the second is used when the first
      raises ValueError or IndexError. *)
  Definition ball_contains {A} (norm_all : list A -> result (list T))
      (norm_one : A -> result T) (radius : T) (pts : list A) : result mask :=
    match norm_all pts with
    | Ok ds => Ok (MList (map (fun d => nleb d radius) ds))
    | Raise ValueError | Raise IndexError =>
        do l <- mapM (fun pt => do d <- norm_one pt; Ok (nleb d radius)) pts;
        Ok (MList l)
    | Raise e => Raise e
    end.

  (** [ScalingBall.__init__].  neighbourhood.py 130-143. *)
  Definition scaling_ball_new (min_pts : Z) : result Z :=
    if (min_pts <=? 0)%Z then Raise ValueError else Ok min_pts.

  (** [ScalingBall.is_contained_in].  neighbourhood.py 169-177.  [min_pts] is
      positive after the constructor, so the index [min_pts - 1] is not
      negative. *)
  Definition scaling_ball_contains {A} (norm_all : list A -> result (list T))
      (min_pts : Z) (pts : list A) : result mask :=
    match pts with
    | [] => Ok MTrue
    | _ =>
        do dist <- norm_all pts;
        do radius <- py_nth (py_sorted nleb dist) (Z.to_nat (min_pts - 1));
        Ok (MList (map (fun d => nleb d radius) dist))
    end.

  (** 2x2 matrices ((a, b), (c, d)) and vectors. *)
  Definition mat2 := ((T * T) * (T * T))%type.
  Definition det2 (m : mat2) : T :=
    let '((a, b), (c, d)) := m in (a * d - b * c)%num.
  (** [np.linalg.inv] of an invertible 2x2 matrix. *)
  Definition inv2 (m : mat2) : mat2 :=
    let '((a, b), (c, d)) := m in
    let q := det2 m in
    (((d / q)%num, (nopp b / q)%num), ((nopp c / q)%num, (a / q)%num)).
  Definition app2 (m : mat2) (p : T * T) : T * T :=
    let '((a, b), (c, d)) := m in
    ((a * fst p + b * snd p)%num, (c * fst p + d * snd p)%num).

  (** [Ellipsoid.__init__].  neighbourhood.py 212-234.  The shape check
      (line 223) is in the type.  Returns the stored inverse and the radius. *)
  Definition ellipsoid_new (lin_trans : option mat2) (radius : T) : result (mat2 * T) :=
    let m := match lin_trans with
             | Some m => m
             | None => ((nofZ 1, nofZ 0), (nofZ 0, nofZ 1))
             end in
    if neqb (det2 m) (nofZ 0) then Raise ValueError
    else if nleb radius (nofZ 0) then Raise ValueError
    else Ok (inv2 m, radius).

  (** [Ellipsoid.is_contained_in].  neighbourhood.py 242-267. *)
  Definition ellipsoid_contains (norm_all : list (T * T) -> result (list T))
      (e : mat2 * T) (pts : list (T * T)) : result mask :=
    match pts with
    | [] => Ok MTrue
    | _ =>
        do ds <- norm_all (map (app2 (fst e)) pts);
        Ok (MList (map (fun d => nleb d (snd e)) ds))
    end.

  (** [Cuboid.is_contained_in].  neighbourhood.py 323-334 ([Cuboid.__init__],
      294-300, checks nothing).  [norm] is the 1-d norm on one number; an array
      with at least one column. *)
  Definition cuboid_contains (norm : T -> T) (size : T * T) (pts : list (T * T)) : mask :=
    MList (map (fun p => nleb (norm (fst p)) (fst size) && nleb (norm (snd p)) (snd size)) pts).

  (** [Polytope.__init__].  neighbourhood.py 366-380: number of columns of
      [mat] and number of rows of [mat] and [b] must fit. *)
  Definition polytope_new (ncols : nat) (mat : list (list T)) (b : list T)
    : result (list (list T) * list T) :=
    if negb (Nat.eqb ncols 2) then Raise ValueError
    else if negb (Nat.eqb (length b) (length mat)) then Raise ValueError
    else Ok (mat, b).

  (** [ineq @ pt] for one inequality and one point. *)
  Definition ineq_val (ineq : list T) (p : T * T) : T :=
    match ineq with
    | [a; b] => (a * fst p + b * snd p)%num
    | _ => nofZ 0
    end.

  (** [Polytope.is_contained_in].  neighbourhood.py 403-411: the loop over the
      inequalities, [mask & ...] elementwise. *)
  Definition polytope_contains (mat : list (list T)) (b : list T) (pts : list (T * T)) : mask :=
    match pts with
    | [] => MTrue
    | _ =>
        MList (fold_left
          (fun m ib => map (fun mp => fst mp && nleb (ineq_val (fst ib) (snd mp)) (snd ib))
                           (combine m pts))
          (combine mat b) (map (fun _ => true) pts))
    end.
End Nhood.
