(** * Iterating over rows: [Data.rows] as a generator

    core/data.py 81-115.  The generator and the generator expressions it yields for
    [return_type=tuple] are run by a caller who draws rows and reads what he got in any order.
    The data is not changed meanwhile; generator expressions are read to their end. *)

From Coq Require Import String List Bool Arith ZArith Lia.
From Verif Require Import Py Dict DataModel.
Import List ListNotations.
Open Scope list_scope.

(** [return_type]; [ROther]: any other object. *)
Inductive ret := RDict | RTuple | RList | ROther.

(** What is yielded; [IGen j]: the generator expression of line 111 made as the [j]-th item. *)
Inductive item := IDict (d : dict cell) | IList (l : list cell) | IGen (j : nat).

(** The state of the call: [g_at] items have been yielded, so the variable [i] of line 107 is
    [g_at - 1]; [g_over]: the generator has returned or raised; [g_keys]: what a pass through the
    argument [keys] yields; [g_used]: the generator expressions that have been read. *)
Record gen := mkGen { g_at : nat; g_over : bool; g_keys : list string; g_used : list nat }.

(** A pass through the keys at row [i], and the keys behind the end of the pass. *)
Fixpoint pass (d : Data) (i : nat) (ks : list string) : result (list (string * cell)) * list string :=
  match ks with
  | [] => (Ok [], [])
  | k :: r =>
      match (do c <- get_col d k; py_nth c i) with
      | Raise e => (Raise e, r)
      | Ok v => let (l, r') := pass d i r in (do l <- l; Ok ((k, v) :: l), r')
      end
  end.

Section Rows.
  Variable d : Data.
  (** [once]: the argument [keys] is an iterator, which is used up; otherwise it is a collection. *)
  Variable once : bool.
  Variable rt : ret.

  Definition keep (before after : list string) : list string := if once then after else before.

  (** [rows(keys, return_type)] before the first item.  data.py 105-106: without [keys], the view
      of the keys, which is a collection. *)
  Definition rows_start (keys : list string) : gen := mkGen 0 false keys [].

  (** [next()] of the generator; [None]: StopIteration.  data.py 107-118. *)
  Definition rows_next (g : gen) : result (option item) * gen :=
    let over := mkGen (g_at g) true (g_keys g) (g_used g) in
    if g_over g then (Ok None, g)
    else if (Z.of_nat (g_at g) <? max_len d)%Z then
      match rt with
      | RTuple => (Ok (Some (IGen (g_at g))), mkGen (S (g_at g)) false (g_keys g) (g_used g))
      | ROther => (Raise ValueError, over)
      | _ =>
          let (l, left) := pass d (g_at g) (g_keys g) in
          match l with
          | Raise e => (Raise e, over)
          | Ok l =>
              (Ok (Some (match rt with
                         | RDict => IDict (fold_left (fun x kv => dset (fst kv) (snd kv) x) l [])
                         | _ => IList (map snd l)
                         end)),
               mkGen (S (g_at g)) false (keep (g_keys g) left) (g_used g))
          end
      end
    else (Ok None, over).

  (** [list(item)] of the [j]-th generator expression.  data.py 111: the entries are looked up
      now, at the present value of [i]. *)
  Definition rows_read (j : nat) (g : gen) : result (list cell) * gen :=
    if existsb (Nat.eqb j) (g_used g) then (Ok [], g)
    else let (l, left) := pass d (g_at g - 1) (g_keys g) in
         (do l <- l; Ok (map snd l), mkGen (g_at g) (g_over g) (keep (g_keys g) left) (j :: g_used g)).

  (** The actions of a caller and what comes of them. *)
  Inductive action := Next | Read (j : nat).
  Inductive outcome := Yielded (r : result (option item)) | Entries (r : result (list cell)).

  Fixpoint trace (acts : list action) (g : gen) : list outcome * gen :=
    match acts with
    | [] => ([], g)
    | a :: rest =>
        let (o, g1) := match a with
                       | Next => let (r, g1) := rows_next g in (Yielded r, g1)
                       | Read j => let (r, g1) := rows_read j g in (Entries r, g1)
                       end in
        let (os, g2) := trace rest g1 in (o :: os, g2)
    end.
End Rows.
