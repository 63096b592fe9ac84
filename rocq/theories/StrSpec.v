(** * Reading a text with the eye: lines, columns, blanks

    Independent of the model: nothing here mentions how the texts are made. *)

From Coq Require Import String Ascii List Bool Arith.
Import ListNotations.

(** The lines of a text, separated by line breaks. *)
Fixpoint lines (s : string) : list string :=
  match s with
  | EmptyString => [EmptyString]
  | String c r =>
      if Ascii.eqb c (ascii_of_nat 10) then EmptyString :: lines r
      else match lines r with
           | l :: ls => String c l :: ls
           | [] => [String c EmptyString]
           end
  end.

(** A text without its blanks. *)
Fixpoint no_blanks (s : string) : string :=
  match s with
  | EmptyString => EmptyString
  | String c r => if Ascii.eqb c " "%char then no_blanks r else String c (no_blanks r)
  end.

(** What stands on [line] in the columns from [from] on, [width] characters wide. *)
Definition read (line : string) (from width : nat) : string := no_blanks (substring from width line).

(** The columns of a table with the widths [widths], the first [start] characters apart:
    the position of the [j]-th. *)
Fixpoint position (start : nat) (widths : list nat) (j : nat) : nat :=
  match j, widths with
  | S j', w :: r => position (start + w) r j'
  | _, _ => start
  end.
