(** * Programs in which no list has two owners *)

From Coq Require Import String.
From Coq Require Import List Arith ZArith.
From Verif Require Import Py Dict DataModel SharedModel.
Import ListNotations.
Open Scope list_scope.
Open Scope nat_scope.

(** All columns have as many entries as the object has rows. *)
Definition level (d : Data) : Prop := forall k col, dget k (cols d) = Some col -> Z.of_nat (length col) = max_len d.

(** The statements that do not make two owners of one list: no slices, no [extend] with a new key, an update of an
    object with itself only if its columns are level; list variables exist. *)
Definition lists_exist (s : vstate) (items : dict arg) : Prop := forall k c, In (k, ArgList c) items -> c < length (vlists s).
Definition private (s : vstate) (c : stmt) : Prop :=
  match c with
  | Slice _ _ => False
  | Extend i key c => c < length (vlists s) /\ (forall d, nth_error (vdata s) i = Some d -> In key (data_keys d))
  | Update _ items _ => lists_exist s items
  | FromDict items => lists_exist s items
  | UpdateData i j => i <> j \/ (forall d, nth_error (vdata s) i = Some d -> level d)
  | _ => True
  end.
Fixpoint private_program (fuel : nat) (s : vstate) (p : list stmt) : Prop :=
  match p with [] => True | c :: r => private s c /\ private_program fuel (fst (vstep fuel s c)) r end.

(** The lists of the caller if nobody else changes them: what they were created with and what the caller appended. *)
Fixpoint caller_lists (ls : list (list cell)) (p : list stmt) : list (list cell) :=
  match p with
  | [] => ls
  | NewList l :: r => caller_lists (ls ++ [l]) r
  | ListAppend c v :: r => caller_lists (put ls c (nth c ls [] ++ [v])) r
  | _ :: r => caller_lists ls r
  end.

(** The column of an object as it is read. *)
Definition column (h : heap) (o : obj) (k : string) : option (list cell) :=
  match dget k (ocols o) with Some a => Some (read h a) | None => None end.
