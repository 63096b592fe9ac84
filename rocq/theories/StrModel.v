(** * Model of the texts of polar diagrams

    [__str__] of tables, point clouds and diagrams with several sails. *)

From Coq Require Import String Ascii.
From Coq Require Import List Bool Arith ZArith.
From Verif Require Import Py Num WPointsModel InterpModel DataModel TableModel MultiModel ExtModel.
Import ListNotations.
Open Scope string_scope.
Open Scope list_scope.

(** ["".join(l)]. *)
Definition join (l : list string) : string := fold_right String.append EmptyString l.

(** The character [c] repeated [n] times. *)
Fixpoint fill (c : ascii) (n : nat) : string :=
  match n with O => EmptyString | S m => String c (fill c m) end.

(** [s.ljust(width, c)], [s.rjust(width)]: texts that are too long stay as they are. *)
Definition ljust (width : nat) (c : ascii) (s : string) : string :=
  (s ++ fill c (width - String.length s))%string.
Definition rjust (width : nat) (s : string) : string :=
  (fill " "%char (width - String.length s) ++ s)%string.

(** The line break. *)
Definition nl : string := String (ascii_of_nat 10) EmptyString.

Section Str.
  Context {T : Type} `{Num T}.

  (** The decimal digits of [n], with leading zeros up to [width] of them. *)
  Definition digits (width n : nat) : string :=
    (fill "0"%char (width - String.length (string_of_nat n)) ++ string_of_nat n)%string.

  (** [f"{x:.{places}f}"] with at least one place: the exact value is rounded, halves to
      the even neighbour.  Minus zero, nan and infinity are not numbers of the model. *)
  Definition fixed (places : nat) (x : T) : string :=
    let unit := Nat.pow 10 places in
    let n := Z.to_nat (py_round (nabs x * nofZ (Z.of_nat unit))%num) in
    ((if nltb x (nofZ 0) then "-" else "") ++
     string_of_nat (Nat.div n unit) ++ "." ++ digits places (Nat.modulo n unit))%string.

  (** [f"    {float(ws):.1f}"] and ["  ".ljust(le + 4, "+")].
      _polardiagramtable.py 191, 194-196, 216, 224-225. *)
  Definition head_cell (ws : T) : string := ("    " ++ fixed 1 ws)%string.
  Definition rule_cell (ws : T) : string :=
    ljust (String.length (fixed 1 ws) + 4) "+"%char "  ".

  (** [f"{bsps[i][j]:.2f}".rjust(4 + le)].  _polardiagramtable.py 204-205, 236-237. *)
  Definition body_cell (row : list T) (j : nat) (ws : T) : result string :=
    do b <- py_nth row j;
    Ok (rjust (4 + String.length (fixed 1 ws)) (fixed 2 b)).

  (** [_create_short_table].  _polardiagramtable.py 188-207. *)
  Definition short_table (t : table T) (wind : list T) : result (list string) :=
    do body <- mapM (fun '(i, wa) =>
      do cells <- mapM (fun '(j, ws) =>
        do row <- py_nth (t_bs t) i;
        body_cell row j ws) (enumerate wind);
      Ok ([ljust 11 " "%char (fixed 1 wa)] ++ cells ++ [nl])) (enumerate (t_wa t));
    Ok (map head_cell wind ++ [(nl ++ "+++++++++++")%string] ++ map rule_cell wind ++ [nl] ++ concat body).

  (** The extra column of a table that is not shown completely: before the sixth cell.
      _polardiagramtable.py 212-214, 221-222, 233-234. *)
  Definition gap (text : string) (i : nat) : list string := if Nat.eqb i 5 then [text] else [].

  (** [_create_long_table].  _polardiagramtable.py 209-239. *)
  Definition long_table (t : table T) (wind : list T) : result (list string) :=
    do body <- mapM (fun '(i, wa) =>
      do cells <- mapM (fun '(j, ws) =>
        do row <- py_nth (t_bs t) i;
        do c <- body_cell row j ws;
        Ok (gap "  ..." j ++ [c])) (enumerate wind);
      Ok ([rjust 11 (fixed 1 wa)] ++ concat cells ++ [nl])) (enumerate (t_wa t));
    Ok (concat (map (fun '(i, ws) => gap "  ..." i ++ [head_cell ws]) (enumerate wind)) ++
        [(nl ++ "+++++++++++")%string] ++
        concat (map (fun '(i, ws) => gap "  +++" i ++ [rule_cell ws]) (enumerate wind)) ++
        [nl] ++ concat body).

  (** [PolarDiagramTable.__str__].  _polardiagramtable.py 175-186. *)
  Definition table_str (t : table T) : result string :=
    let ws := t_ws t in
    do rest <- (if Nat.leb (length ws) 15 then short_table t ws
                else long_table t (firstn 5 ws ++ skipn (length ws - 5) ws));
    Ok (join ("  TWA / TWS" :: rest)).

  (** One line of a point cloud.  _polardiagrampointcloud.py 146-155. *)
  Definition cloud_line (p : pt3 T) : list string :=
    [rjust 6 (fixed 2 (pws p)); "  "; rjust 7 (fixed 2 (pwa p)); "  ";
     rjust 6 (fixed 2 (pbs p)); "  "; nl].

  (** [PolarDiagramPointcloud.__str__].  _polardiagrampointcloud.py 143-156. *)
  Definition cloud_str (cloud : list (pt3 T)) : string :=
    join (["   TWS      TWA     BSP"; nl; "++++++  +++++++  ++++++"; nl] ++
          concat (map cloud_line cloud)).
End Str.

(** [PolarDiagramMultiSails.__str__] for diagrams with the text [str].
    _polardiagrammultisails.py 81-91. *)
Definition multi_str {D} (str : D -> string) (m : multi D) : string :=
  join (concat (map (fun '(name, table) => [name; nl; table; nl; nl])
    (combine (m_sails m) (map str (m_diagrams m))))).
