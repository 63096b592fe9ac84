(** * What the cruising functions should compute *)

From Coq Require Import List Bool Arith ZArith Reals Sorted.
From Verif Require Import Trig.
Import ListNotations.
Open Scope R_scope.

(** ** Plane vectors *)

Definition vec := (R * R)%type.
Definition vadd2 (p q : vec) : vec := (fst p + fst q, snd p + snd q).
Definition vscale (c : R) (p : vec) : vec := (c * fst p, c * snd p).
Definition vdot (p q : vec) : R := fst p * fst q + snd p * snd q.

(** The unit vector in direction [a] (degrees). *)
Definition heading_vec (a : R) : vec := (cos (deg2rad a), sin (deg2rad a)).

(** Velocity of a boat sailing at speed [v] in direction [a]. *)
Definition velocity (a v : R) : vec := vscale v (heading_vec a).

(** [sum_i w_i p_i]. *)
Fixpoint weighted (w : list R) (pts : list vec) : vec :=
  match w, pts with
  | c :: w', p :: pts' => vadd2 (vscale c p) (weighted w' pts')
  | _, _ => (0, 0)
  end.

Fixpoint total (w : list R) : R := match w with [] => 0 | c :: r => c + total r end.

(** [q] can be sailed by splitting the time between the velocities [pts]. *)
Definition reachable (pts : list vec) (q : vec) : Prop :=
  exists w, length w = length pts /\ Forall (fun c => 0 <= c) w /\ total w = 1 /\ weighted w pts = q.

(** The contract of the convex hull algorithm: the indices of the corners,
    without repetition; a corner is the unique farthest point in some direction,
    and all points are convex combinations of corners. *)
Definition hull_of (pts : list vec) (vs : list nat) : Prop :=
  NoDup vs /\
  (forall i, In i vs -> exists p n, nth_error pts i = Some p /\
      forall q, In q pts -> q <> p -> vdot n q < vdot n p) /\
  (forall q, In q pts -> reachable (map (fun i => nth i pts (0, 0)) vs) q).

(** The boat can make way in every direction: the origin is an inner point of
    the hull. *)
Definition all_round (pts : list vec) : Prop :=
  forall u, u <> (0, 0) -> exists p, In p pts /\ 0 < vdot u p.

(** [best pts dir c]: by splitting time, the boat can make good the speed [c]
    in direction [dir], and no more. *)
Definition best (pts : list vec) (dir c : R) : Prop :=
  reachable pts (velocity dir c) /\
  forall c', reachable pts (velocity dir c') -> c' <= c.

(** ** Time of travel *)

(** Euler's method for [dt/ds = f s t] with step [h]. *)
Fixpoint euler (f : R -> R -> R) (h : R) (n : nat) : R :=
  match n with
  | O => 0
  | S m => euler f h m + h * f (INR m * h) (euler f h m)
  end.

(** The time at way [s] when the nodes of Euler's method are joined linearly:
    [s] is in the step after node [m]. *)
Definition polygon_time (f : R -> R -> R) (h : R) (m : nat) (s : R) : R :=
  euler f h m + (s - INR m * h) * f (INR m * h) (euler f h m).

(** ** Courses *)

(** Initial course (in radians, from north) of the great circle from
    [a] to [b], given as (longitude, latitude) in radians: its cosine and sine,
    times the sine of the central angle. *)
Definition bearing_cos (a b : vec) : R :=
  cos (snd a) * sin (snd b) - sin (snd a) * cos (snd b) * cos (fst b - fst a).
Definition bearing_sin (a b : vec) : R := sin (fst b - fst a) * cos (snd b).
Definition is_bearing (a b : vec) (theta : R) : Prop :=
  exists k, 0 < k /\ bearing_cos a b = k * cos theta /\ bearing_sin a b = k * sin theta.

(** The wind blowing from compass direction [from] with speed [w], as
    (eastward, northward) components. *)
Definition wind_from (w from : R) : vec := (- w * sin (deg2rad from), - w * cos (deg2rad from)).

(** ** The solver of the differential equation *)

(** What is used of the solver: the nodes increase from 0 to [l], there is one
    value per node, and the first value is 0. *)
Definition solution (l : R) (r : list R * list R) : Prop :=
  exists nodes, fst r = 0 :: nodes /\ last (fst r) 0 = l /\ StronglySorted Rle (fst r) /\
  length (snd r) = length (fst r) /\ nth 0 (snd r) 0 = 0.
