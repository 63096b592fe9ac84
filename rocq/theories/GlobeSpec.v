(** * What the globe models should compute

    Positions are (latitude, longitude) in degrees. *)

From Coq Require Import List Arith Reals.
From Verif Require Import Trig.
Import ListNotations.
Open Scope R_scope.

(** The spherical law of cosines: cosine of the central angle of two positions. *)
Definition central_cos (a b : R * R) : R :=
  sin (deg2rad (fst a)) * sin (deg2rad (fst b)) +
  cos (deg2rad (fst a)) * cos (deg2rad (fst b)) * cos (deg2rad (snd a - snd b)).

(** The great circle distance on a sphere of radius [r]. *)
Definition great_circle (r : R) (a b : R * R) : R := r * acos (central_cos a b).

(** Positions as they are usually given; the poles are excluded. *)
Definition proper (p : R * R) : Prop := -90 < fst p < 90 /\ -180 < snd p <= 180.

(** Positions in the range of latitudes and longitudes, poles included. *)
Definition in_range (p : R * R) : Prop := -90 <= fst p <= 90 /\ -180 < snd p <= 180.

(** Two positions denote the same place on the globe. *)
Definition same_place (a b : R * R) : Prop := central_cos a b = 1.

(** [path] consists of [n] places, the [i]-th of which has travelled the fraction
    [i / (n - 1)] of the shortest way from [a] to [b] (and has the rest of it to
    go). *)
Definition geodesic (a b : R * R) (n : nat) (path : list (R * R)) : Prop :=
  length path = n /\
  forall i, (i < n)%nat -> exists p, nth_error path i = Some p /\ in_range p /\
    forall r, great_circle r a p = INR i / INR (n - 1) * great_circle r a b /\
              great_circle r p b = (1 - INR i / INR (n - 1)) * great_circle r a b.

(** Distance of two points of the plane, and of space from the origin. *)
Definition dist2 (p q : R * R) : R :=
  sqrt ((fst p - fst q) * (fst p - fst q) + (snd p - snd q) * (snd p - snd q)).
Definition length3 (p : R * R * R) : R :=
  let '(x, y, z) := p in sqrt (x * x + y * y + z * z).

(** The textbook Mercator map of a position of the sphere of radius [r]:
    [r * (lon, ln (tan (pi/4 + lat/2)))]. *)
Definition mercator (r : R) (p : R * R) : R * R :=
  (r * deg2rad (snd p), r * ln (tan (PI / 4 + deg2rad (fst p) / 2))).
