(** * What the file properties say *)

From Coq Require Import String Ascii.
From Coq Require Import List Bool Arith ZArith Reals.
From Verif Require Import Py Num TableModel.
Import ListNotations.
Open Scope R_scope.

(** The text holds no degree sign (first byte 194). *)
Fixpoint no_degree (s : string) : Prop :=
  match s with
  | EmptyString => True
  | String a r => nat_of_ascii a <> 194%nat /\ no_degree r
  end.

(** The numbers of a table. *)
Definition in_table (t : table R) (x : R) : Prop :=
  In x (t_ws t) \/ In x (t_wa t) \/ exists r, In r (t_bs t) /\ In x r.

(** Printing and reading the number [x] gives [x] back. *)
Definition readable (show : R -> string) (lit : string -> result R) (tofloat : string -> option R)
    (x : R) : Prop :=
  lit (show x) = Ok x /\ tofloat (show x) = Some x /\ show x <> ""%string /\ no_degree (show x).
