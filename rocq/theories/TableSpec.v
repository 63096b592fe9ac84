(** * What the table properties say *)

From Coq Require Import List Bool Arith ZArith Reals Sorted.
From Verif Require Import Py Num TableModel.
Import ListNotations.
Open Scope R_scope.

(** An array with [n] rows and [m] columns. *)
Definition shaped {A} (n m : nat) (bs : list (list A)) : Prop :=
  length bs = n /\ forall r, In r bs -> length r = m.

(** The array [bs] has the value [v] in the row of the [i]-th wind angle and
    the column of the [j]-th wind speed, these being [a] and [s]. *)
Definition listed (ws wa : list R) (bs : list (list R)) (i j : nat) (s a v : R) : Prop :=
  nth_error ws j = Some s /\ nth_error wa i = Some a /\
  exists r, nth_error bs i = Some r /\ nth_error r j = Some v.

(** The table has an entry [v] for the wind ([s], [a]). *)
Definition entry (t : table R) (s a v : R) : Prop :=
  exists i j, listed (t_ws t) (t_wa t) (t_bs t) i j s a v.

(** Tables as the constructor leaves them. *)
Definition table_ok (t : table R) : Prop :=
  StronglySorted Rle (t_ws t) /\ StronglySorted Rle (t_wa t) /\
  (forall s, In s (t_ws t) -> 0 <= s) /\ (forall a, In a (t_wa t) -> 0 <= a < 360) /\
  shaped (length (t_wa t)) (length (t_ws t)) (t_bs t).

(** Every wind speed and every wind angle occurs once. *)
Definition no_duplicates (t : table R) : Prop := NoDup (t_ws t) /\ NoDup (t_wa t).

(** The angle [a] reduced to [0, 360). *)
Definition reduced (a b : R) : Prop := 0 <= b < 360 /\ exists k, a = b + 360 * IZR k.

(** No two different angles of the list are mirror images of each other. *)
Definition one_sided (wa : list R) : Prop :=
  forall a b, In a wa -> In b wa -> reduced (360 - a) b -> a = b.

(** The winds selected by an argument: all of them if there is no argument. *)
Definition wsel (sel : option (list R)) (all : list R) : list R :=
  match sel with None => all | Some l => l end.

(** Value of [new_bsps] for the [i]-th selected angle out of [n] and the [j]-th
    selected speed out of [m]. *)
Definition new_value (new : nd R) (n m i j : nat) (v : R) : Prop :=
  match new with
  | Nd2 rows => n <> 1%nat /\ m <> 1%nat /\ shaped n m rows /\
                exists r, nth_error rows i = Some r /\ nth_error r j = Some v
  | Nd1 l => (n = 1%nat /\ length l = m /\ i = O /\ nth_error l j = Some v) \/
             (m = 1%nat /\ length l = n /\ j = O /\ nth_error l i = Some v)
  | NdOther => False
  end.

(** [new_bsps] has the shape the documentation asks for. *)
Definition fits (new : nd R) (n m : nat) : Prop :=
  match new with
  | Nd2 rows => n <> 1%nat /\ m <> 1%nat /\ shaped n m rows
  | Nd1 l => (n = 1%nat /\ length l = m) \/ (m = 1%nat /\ length l = n)
  | NdOther => False
  end.

(** No two positions of the list hold the same angle up to full turns. *)
Definition distinct_mod_360 (wa : list R) : Prop :=
  forall i j a b k, nth_error wa i = Some a -> nth_error wa j = Some b ->
    a = b + 360 * IZR k -> i = j.
