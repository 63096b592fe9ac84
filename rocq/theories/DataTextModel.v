(** * Model of [Data.__str__] *)

From Coq Require Import String Ascii.
From Coq Require Import List Bool Arith ZArith.
From Verif Require Import Py Dict DataModel StrModel.
Import ListNotations.
Open Scope string_scope.
Open Scope list_scope.

(** [sep.join(l)]. *)
Fixpoint sep_join (sep : string) (l : list string) : string :=
  match l with
  | [] => ""
  | [x] => x
  | x :: r => (x ++ sep ++ sep_join sep r)%string
  end.

Section Text.
  (** [str(item)], [repr(item)] (which [str] of a list uses for its items) and [str] of a class or of None. *)
  Variable str_ repr_ : cell -> string.
  Variable tname : option ptype -> string.

  (** The entries of one column.  data.py 567-574; [l[-5:]] of a list with at least five entries. *)
  Definition column_text (col : list cell) : string :=
    if (length col <? 10)%nat then ("[" ++ sep_join ", " (map repr_ col) ++ "]")%string
    else ("[" ++ sep_join "," (map str_ (firstn 5 col)) ++ "," ++ " ..." ++
          " ," ++ sep_join "," (map str_ (skipn (length col - 5) col)) ++ "]")%string.

  (** The text of one column.  data.py 566-575. *)
  Definition field_text (d : Data) (kc : string * list cell) : result string :=
    match dget (fst kc) (types d) with
    | None => Raise KeyError
    | Some t => Ok ("Data field '" ++ fst kc ++ "' of type " ++ tname t ++ ":" ++ nl ++
                    String (ascii_of_nat 9) (column_text (snd kc) ++ nl))%string
    end.

  (** [__str__].  data.py 563-577. *)
  Definition data_text (d : Data) : result string :=
    do l <- mapM (field_text d) (cols d);
    Ok (join l).
End Text.
