(** * Model of [Direction.__str__]

    The texts that Python makes of floating point numbers are a parameter. *)

From Coq Require Import String Reals.
From Verif Require Import CruiseModel FloatUnit.
Open Scope string_scope.

(** [if self.sail]: [None] and the empty name are false.  cruising/basics.py 39-40. *)
Definition sail_text (s : option string) : string :=
  match s with
  | Some (String c r) => ", while hissing " ++ String c r
  | _ => ""
  end.

(** [__str__].  cruising/basics.py 33-42; the product is a floating point product. *)
Definition direction_text (show : R -> string) (d : direction) : string :=
  "Sail with an angle of " ++ show (d_angle d) ++ " to the wind for " ++ show (f_mul (d_prop d) 100)
  ++ " percent of the time" ++ sail_text (d_sail d).
