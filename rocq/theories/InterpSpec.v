(** * What the interpolation properties say *)

From Coq Require Import List Bool Arith ZArith Reals.
From Verif Require Import Py Num NhoodSpec InterpModel.
Import ListNotations.
Open Scope R_scope.

(** The default distance of two winds. *)
Definition std_norm (p : R * R) : R := sqrt ((fst p / 40) ^ 2 + (snd p / 360) ^ 2).

(** The distance of a measured point from the query point. *)
Definition dist_to (norm : R * R -> R) (g : R * R) (p : pt3 R) : R :=
  norm (pws p - fst g, pwa p - snd g).

(** Weighted mean of [b] with weights [w], both indexed by the same list. *)
Definition wmean {A} (w b : A -> R) (l : list A) : R :=
  Rsum (map (fun x => w x * b x) l) / Rsum (map w l).

(** [v] does not leave the range of the numbers [bs]. *)
Definition in_range (bs : list R) (v : R) : Prop :=
  forall lo hi, (forall b, In b bs -> lo <= b <= hi) -> lo <= v <= hi.

(** [p] is the first point of the list with distance zero. *)
Definition first_at (norm : R * R -> R) (g : R * R) (pts : list (pt3 R)) (p : pt3 R) : Prop :=
  exists l1 l2, pts = l1 ++ p :: l2 /\ dist_to norm g p = 0 /\
    forall q, In q l1 -> dist_to norm g q <> 0.

(** The points form a complete grid over wind speeds [xs] and angles [ys]. *)
Definition full_grid (xs ys : list R) (pts : list (pt3 R)) : Prop :=
  (forall p, In p pts -> In (pws p) xs /\ In (pwa p) ys) /\
  (forall x y, In x xs -> In y ys -> exists b, In (x, y, b) pts).
