(** * Model of the text of table files in the format "array"

    [np.genfromtxt(file)] of _reading.py 104-106 on the text of the file, opened with
    [newline=""], and the text that [_write_array_format] writes (_polardiagramtable.py 461-465).

    Simplifications: a text is a list of bytes, blanks outside ASCII are not represented. *)

From Coq Require Import String Ascii.
From Coq Require Import List Bool Arith Reals.
From Verif Require Import Py Num TableModel CsvModel CsvTextModel.
Import List ListNotations.
Open Scope nat_scope.
Open Scope list_scope.

Definition TAB : ascii := ascii_of_nat 9.
Definition HASH : ascii := "#"%char.

(** [c.isspace()]. *)
Definition blank (c : ascii) : bool :=
  let n := nat_of_ascii c in ((9 <=? n) && (n <=? 13)) || ((28 <=? n) && (n <=? 32)).

(** The lines of a file, with their ends; [cur] is the present line backwards. *)
Fixpoint file_lines (t cur : text) : list text :=
  match t with
  | [] => match cur with [] => [] | _ => [rev cur] end
  | c :: rest => if ends_line c rest then rev (c :: cur) :: file_lines rest [] else file_lines rest (c :: cur)
  end.

(** [line.split("#")[0]]: numpy drops comments. *)
Fixpoint cut_comment (t : text) : text :=
  match t with [] => [] | c :: r => if Ascii.eqb c HASH then [] else c :: cut_comment r end.

(** [line.split()]; the removal of blanks and line ends before it makes no difference. *)
Fixpoint split_blanks (t cur : text) : list text :=
  match t with
  | [] => match cur with [] => [] | _ => [rev cur] end
  | c :: r =>
      if blank c then match cur with [] => split_blanks r [] | _ => rev cur :: split_blanks r [] end
      else split_blanks r (c :: cur)
  end.

Definition array_fields (t : text) : list (list string) :=
  strings (map (fun l => split_blanks (cut_comment l) []) (file_lines t [])).

(** [from_csv(path, fmt="array")] on the text of the file. *)
Definition table_of_array_text (tofloat : string -> option R) (t : text) : result (table R) :=
  table_from_array tofloat (array_fields t).

(** The text written by [to_csv(path, fmt="array")]. *)
Definition array_text (show : R -> string) (t : table R) : text :=
  write_rows TAB (texts (table_to_csv show Array t)).
