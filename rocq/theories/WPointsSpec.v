(** * What the properties of [WeightedPoints] say *)

From Coq Require Import String.
From Coq Require Import List Bool Arith ZArith Lia.
From Verif Require Import Py Dict DataModel DataSpec WPointsModel.
Import ListNotations.
Open Scope list_scope.
Open Scope nat_scope.

(** Number of points: what the weights have to match. *)
Definition point_count {A V} (p : pdata A V) (n : nat) : Prop :=
  match p with
  | PArr rows => length rows = n
  | PDict d => NoDup (dkeys d) /\ forall k v, dget k d = Some v -> length v = n
  | PData d => well_formed d n /\ (cols d <> [] \/ n = 0)
  end.

Definition aligned {A V W} (p : wpoints A V W) (n : nat) : Prop :=
  point_count (wdata p) n /\ length (wweights p) = n.

Definition keep {X} (m : list bool) (l : list X) : list X := map fst (filter snd (combine l m)).

(** [q] holds the points and weights of [p] selected by [m]. *)
Definition selected {A V W} (p : wpoints A V W) (m : list bool) (q : wpoints A V W) : Prop :=
  wweights q = keep m (wweights p) /\
  match wdata p, wdata q with
  | PArr r, PArr s => s = keep m r
  | PDict d, PDict e => dkeys e = dkeys d /\
      forall k v, dget k d = Some v -> dget k e = Some (keep m v)
  | PData d, PData e => data_keys e = data_keys d /\
      forall k c, get_col d k = Ok c -> get_col e k = Ok (keep m c)
  | _, _ => False
  end.

(** [r] holds the points and weights of [p] followed by those of [q]. *)
Definition joined {A V W} (p : wpoints A V W) (n : nat) (q : wpoints A V W) (m : nat)
  (r : wpoints A V W) : Prop :=
  wweights r = wweights p ++ wweights q /\
  match wdata p, wdata q, wdata r with
  | PArr a, PArr b, PArr c => c = a ++ b
  | PDict d, PDict e, PDict f =>
      (forall k, In k (dkeys f) <-> In k (dkeys d) /\ In k (dkeys e)) /\
      (forall k v w, dget k d = Some v -> dget k e = Some w -> dget k f = Some (v ++ w))
  | PData d, PData e, PData f =>
      (forall k, In k (data_keys f) <-> In k (data_keys d) \/ In k (data_keys e)) /\
      (forall k, In k (data_keys f) ->
         get_col f k = Ok (column_or_none d n k ++ column_or_none e m k))
  | _, _, _ => False
  end.

Definition same_kind {A V} (p q : pdata A V) : Prop :=
  match p, q with
  | PArr _, PArr _ | PDict _, PDict _ => True
  | PData d, PData e => forall n m k, well_formed d n -> well_formed e m ->
      homogeneous (column_or_none d n k ++ column_or_none e m k)
  | _, _ => False
  end.

