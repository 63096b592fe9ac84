(** * What the neighbourhood properties say *)

From Coq Require Import List Bool Arith ZArith Reals.
From Verif Require Import Py Num NhoodModel.
Import ListNotations.
Open Scope R_scope.

(** The mask has one entry per point, true exactly for the points in [S]. *)
Definition marks {A} (m : mask) (pts : list A) (S : A -> Prop) : Prop :=
  exists l, m = MList l /\ length l = length pts /\
    forall i p, nth_error pts i = Some p -> (nth_error l i = Some true <-> S p).

(** A norm callable that works on whole arrays and is the row-wise [norm]. *)
Definition rowwise {A} (norm : A -> R) (norm_all : list A -> result (list R)) : Prop :=
  forall pts, norm_all pts = Ok (map norm pts).

(** Number of elements with a property. *)
Definition count {A} (p : A -> bool) (l : list A) : nat := length (filter p l).

(** [r] is the [k]-th smallest of the numbers [ds]. *)
Definition kth_smallest (ds : list R) (k : nat) (r : R) : Prop :=
  In r ds /\ (k <= count (fun d => Rleb d r) ds)%nat /\
  (count (fun d => Rltb d r) ds < k)%nat.

(** Matrix times vector. *)
Definition times (m : (R * R) * (R * R)) (y : R * R) : R * R :=
  (fst (fst m) * fst y + snd (fst m) * snd y, fst (snd m) * fst y + snd (snd m) * snd y).

Definition determinant (m : (R * R) * (R * R)) : R :=
  fst (fst m) * snd (snd m) - snd (fst m) * fst (snd m).
