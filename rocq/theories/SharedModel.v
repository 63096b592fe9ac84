(** * Model of [Data] with list objects

    DataModel.v treats columns as values.  Here the columns are list objects in a store, so that
    two columns, two [Data] objects, or a [Data] object and the caller can hold the same list.
    All methods that write are modelled again on this level: core/data.py. *)

From Coq Require Import String.
From Coq Require Import List Bool Arith ZArith QArith.
From Verif Require Import Py Dict DataModel.
Import ListNotations.
Open Scope string_scope.
Open Scope list_scope.
Open Scope nat_scope.

(** The store: an address is a position. *)
Definition heap := list (list cell).
Definition read (h : heap) (a : nat) : list cell := nth a h [].
Fixpoint write (h : heap) (a : nat) (v : list cell) : heap :=
  match h, a with
  | [], _ => []
  | _ :: r, O => v :: r
  | x :: r, S a => x :: write r a v
  end.

(** A [Data] object: the dictionary of columns holds addresses.  data.py:34-37. *)
Record obj := mkObj { ocols : dict nat; otypes : dict (option ptype); olen : Z }.
Definition new_obj : obj := mkObj [] [] 0.

(** What the object looks like when it is read. *)
Definition seen (h : heap) (o : obj) : Data := mkData (dmap (read h) (ocols o)) (otypes o) (olen o).

Definition hupd := (heap * obj * result unit)%type.
Definition hbind (x : hupd) (f : heap -> obj -> hupd) : hupd :=
  match x with (h, o, Ok _) => f h o | (h, o, Raise e) => (h, o, Raise e) end.

(** data.py:150-177 [extend]: the list of the caller becomes the column if the key is new,
    otherwise [list.extend] changes the column. *)
Definition hextend (h : heap) (o : obj) (key : string) (a : nat) : hupd :=
  match get_type (read h a) with
  | Raise e => (h, o, Raise e)
  | Ok data_type =>
      match dget key (ocols o) with
      | Some c =>
          match dget key (otypes o) with
          | None => (h, o, Raise KeyError)
          | Some t0 =>
              let types1 := match t0 with None => dset key data_type (otypes o) | Some _ => otypes o end in
              let t1 := match t0 with None => data_type | Some t => Some t end in
              let clash := match data_type, t1 with
                           | None, _ => false
                           | Some a, Some b => negb (ptype_eqb a b)
                           | Some _, None => true
                           end in
              if clash then (h, mkObj (ocols o) types1 (olen o), Raise ValueError)
              else
                let col := read h c ++ read h a in
                (write h c col, mkObj (ocols o) types1 (grow (olen o) col), Ok tt)
          end
      | None =>
          (h, mkObj (dset key a (ocols o)) (dset key data_type (otypes o)) (grow (olen o) (read h a)), Ok tt)
      end
  end.

(** data.py:219-234 [append]: [[data]] is a new list. *)
Definition happend (h : heap) (o : obj) (key : string) (v : cell) : hupd := hextend (h ++ [[v]]) o key (length h).

(** data.py:255-262, one key of [fill]. *)
Definition hfill1 (h : heap) (o : obj) (len_ : Z) (key : string) : hupd :=
  let present := dmem key (ocols o) in
  let h0 := if present then h else h ++ [[]] in
  let cols0 := if present then ocols o else dset key (length h) (ocols o) in
  match dget key cols0 with
  | None => (h, o, Raise KeyError)
  | Some a =>
      let col := read h0 a in
      let col' := col ++ repeat None (Z.to_nat (Z.max 0 (len_ - Z.of_nat (length col)))) in
      let h1 := write h0 a col' in
      match get_type col' with
      | Raise e => (h1, mkObj cols0 (otypes o) (olen o), Raise e)
      | Ok t => (h1, mkObj cols0 (dset key t (otypes o)) (olen o), Ok tt)
      end
  end.
Fixpoint hfill_keys (h : heap) (o : obj) (len_ : Z) (keys : list string) : hupd :=
  match keys with
  | [] => (h, o, Ok tt)
  | k :: r => hbind (hfill1 h o len_ k) (fun h o => hfill_keys h o len_ r)
  end.
(** data.py:236-262 [fill]. *)
Definition hfill (h : heap) (o : obj) (len_ : option Z) (keys : option (list string)) : hupd :=
  hfill_keys h o (match len_ with Some l => l | None => olen o end)
             (match keys with Some k => k | None => dkeys (ocols o) end).

(** A value of an update dictionary: a list object or a single value. *)
Inductive hval := HList (a : nat) | HOne (c : cell).

(** data.py:211-217 [_unsafe_update]. *)
Fixpoint hextend_all (h : heap) (o : obj) (items : dict hval) : hupd :=
  match items with
  | [] => (h, o, Ok tt)
  | (k, HList a) :: r => hbind (hextend h o k a) (fun h o => hextend_all h o r)
  | (k, HOne c) :: r => hbind (happend h o k c) (fun h o => hextend_all h o r)
  end.
Definition hunsafe_update (h : heap) (o : obj) (items : dict hval) : hupd :=
  hbind (hextend_all h o items) (fun h o => hfill h o None None).

(** data.py:206-207: [list[:-1]] is a new list. *)
Fixpoint hdrop_lasts (h : heap) (o : obj) (keys : list string) : heap * obj :=
  match keys with
  | [] => (h, o)
  | k :: r =>
      let c := match dget k (ocols o) with Some a => read h a | None => [] end in
      hdrop_lasts (h ++ [removelast c]) (mkObj (dset k (length h) (ocols o)) (otypes o) (olen o)) r
  end.

(** data.py:179-209 [update] with a dictionary; 205 reads the last entries. *)
Definition hupdate (h : heap) (o : obj) (items : dict hval) (compress : bool) : hupd :=
  hbind (hfill_keys h o (olen o) (dkeys items ++ dkeys (ocols o))) (fun h o =>
    if negb compress || (olen o =? 0)%Z then hunsafe_update h o items
    else
      match all_last_none (seen h o) (dkeys items) with
      | Raise e => (h, o, Raise e)
      | Ok true => let (h, o) := hdrop_lasts h o (dkeys items) in hunsafe_update h o items
      | Ok false => hunsafe_update h o items
      end).

(** data.py:194-196 [update] with a [Data] object: the copied dictionary holds the same lists. *)
Definition hupdate_data (h : heap) (o other : obj) : hupd := hupdate h o (dmap HList (ocols other)) false.

(** data.py:445-462 [concatenate]. *)
Fixpoint hconcat_onto (h : heap) (o : obj) (l : list obj) : hupd :=
  match l with
  | [] => (h, o, Ok tt)
  | x :: r => hbind (hupdate_data h o x) (fun h o => hconcat_onto h o r)
  end.

(** New lists for all columns. *)
Fixpoint remap (f : list cell -> list cell) (h : heap) (cs : dict nat) : heap * dict nat :=
  match cs with
  | [] => (h, [])
  | (k, a) :: r => let (h', cs') := remap f (h ++ [f (read h a)]) r in (h', (k, length h) :: cs')
  end.

(** data.py:322-327 [delete] with row indices. *)
Definition hdelete_rows (h : heap) (o : obj) (idx : list Z) : heap * obj :=
  match idx with
  | [] => (h, o)
  | _ => let (h', cs) := remap (drop_rows idx) h (ocols o) in (h', mkObj cs (otypes o) (olen o - Z.of_nat (length idx)))
  end.
(** data.py:518-536 [_mask_rows]. *)
Definition hmask (h : heap) (o : obj) (m : list bool) : heap * obj :=
  let (h', cs) := remap (fun col => mask_list col m) h (ocols o) in
  (h', mkObj cs (otypes o) (max_col_len (dmap (read h') cs))).
(** data.py:347-365 [strip] of rows; slices are new lists. *)
Definition hstrip_rows (fuel : nat) (h : heap) (o : obj) : hupd :=
  match skip_none_rows fuel (cols (seen h o)) 0 1 with
  | Raise e => (h, o, Raise e)
  | Ok a =>
      match skip_none_rows fuel (cols (seen h o)) (olen o - 1) (-1) with
      | Raise e => (h, o, Raise e)
      | Ok b => let (h', cs) := remap (fun col => py_slice col a (b + 1)) h (ocols o) in (h', mkObj cs (otypes o) (olen o), Ok tt)
      end
  end.
(** data.py:341-346 [strip] of columns keeps the lists. *)
Definition hstrip_cols (h : heap) (o : obj) : obj :=
  mkObj (filter (fun kv => negb (forallb is_none (read h (snd kv)))) (ocols o)) (otypes o) (olen o).
(** data.py:302-327 [delete] of a column. *)
Definition hdelete_col (h : heap) (o : obj) (key : string) : hupd :=
  if dmem key (ocols o) then
    if dmem key (otypes o) then (h, mkObj (ddel key (ocols o)) (ddel key (otypes o)) (olen o), Ok tt)
    else (h, mkObj (ddel key (ocols o)) (otypes o) (olen o), Raise KeyError)
  else (h, o, Raise KeyError).
(** data.py:277-300 [rename]: for a moment the list belongs to two keys. *)
Definition hrename (h : heap) (o : obj) (old_key new_key : string) : hupd :=
  if String.eqb old_key new_key then (h, o, Ok tt)
  else if smem new_key (dkeys (ocols o)) then (h, o, Raise ValueError)
  else
    match dget old_key (ocols o) with
    | None => (h, o, Raise KeyError)
    | Some a =>
        match dget old_key (otypes o) with
        | None => (h, mkObj (dset new_key a (ocols o)) (otypes o) (olen o), Raise KeyError)
        | Some t => hdelete_col h (mkObj (dset new_key a (ocols o)) (dset new_key t (otypes o)) (olen o)) old_key
        end
    end.
(** data.py:493-516 [get_slice]: the lists are those of the object. *)
Definition hget_slice (h : heap) (o : obj) (ks : list string) : obj :=
  let cs := filter (fun kv => smem (fst kv) ks) (ocols o) in
  mkObj cs (filter (fun kv => smem (fst kv) ks) (otypes o)) (max_col_len (dmap (read h) cs)).

(* ---- programs ---- *)

(** A value of an update dictionary in a program: a list variable or a single value. *)
Inductive arg := ArgList (c : nat) | ArgOne (v : cell).

(** The statements of a program with [Data] variables and list variables, both numbered in the order of
    their creation. *)
Inductive stmt :=
| NewData
| NewList (l : list cell)
| ListAppend (c : nat) (v : cell)
| Extend (i : nat) (key : string) (c : nat)
| Append (i : nat) (key : string) (v : cell)
| Update (i : nat) (items : dict arg) (compress : bool)
| UpdateData (i j : nat)
| Concatenate (js : list nat)
| FromDict (items : dict arg)
| Mask (i : nat) (m : list bool)
| Slice (i : nat) (ks : list string)
| Fill (i : nat) (len_ : option Z) (keys : option (list string))
| DeleteRows (i : nat) (idx : list Z)
| DeleteCol (i : nat) (key : string)
| Rename (i : nat) (old_key new_key : string)
| StripCols (i : nat)
| StripRows (i : nat).

(** Replacing an entry of a list. *)
Fixpoint put {A} (l : list A) (i : nat) (x : A) : list A :=
  match l, i with [], _ => [] | _ :: r, O => x :: r | y :: r, S i => y :: put r i x end.

(** The state of a program on the level of values: DataModel.v. *)
Record vstate := mkV { vdata : list Data; vlists : list (list cell) }.
(** The same with list objects. *)
Record hstate := mkH { hheap : heap; hobjs : list obj; hlists : list nat }.

Definition varg (ls : list (list cell)) (a : arg) : uval :=
  match a with ArgList c => UList (nth c ls []) | ArgOne v => UOne v end.
Definition harg (ls : list nat) (a : arg) : hval :=
  match a with ArgList c => HList (nth c ls O) | ArgOne v => HOne v end.

(** A method called on the variable [i]; nothing happens if there is none. *)
Definition von (s : vstate) (i : nat) (f : Data -> upd unit) : vstate * result unit :=
  match nth_error (vdata s) i with
  | None => (s, Ok tt)
  | Some d => let (d', r) := f d in (mkV (put (vdata s) i d') (vlists s), r)
  end.
Definition hon (s : hstate) (i : nat) (f : heap -> obj -> hupd) : hstate * result unit :=
  match nth_error (hobjs s) i with
  | None => (s, Ok tt)
  | Some o => let '(h', o', r) := f (hheap s) o in (mkH h' (put (hobjs s) i o') (hlists s), r)
  end.
(** A new variable, unless there was an exception. *)
Definition vnew (s : vstate) (x : upd unit) : vstate * result unit :=
  match x with (d, Ok _) => (mkV (vdata s ++ [d]) (vlists s), Ok tt) | (_, Raise e) => (s, Raise e) end.
Definition hnew (s : hstate) (x : hupd) : hstate * result unit :=
  match x with
  | (h, o, Ok _) => (mkH h (hobjs s ++ [o]) (hlists s), Ok tt)
  | (h, o, Raise e) => (mkH h (hobjs s) (hlists s), Raise e)
  end.
Definition all_of {A} (l : list A) (is_ : list nat) : list A :=
  flat_map (fun i => match nth_error l i with Some x => [x] | None => [] end) is_.

Section Run.
  (** Bound for the loops of [strip]. *)
  Variable fuel : nat.

  Definition vstep (s : vstate) (c : stmt) : vstate * result unit :=
    match c with
    | NewData => vnew s (empty_data, Ok tt)
    | NewList l => (mkV (vdata s) (vlists s ++ [l]), Ok tt)
    | ListAppend c v => (mkV (vdata s) (put (vlists s) c (nth c (vlists s) [] ++ [v])), Ok tt)
    | Extend i key c => von s i (fun d => extend d key (nth c (vlists s) []))
    | Append i key v => von s i (fun d => append d key v)
    | Update i items compress => von s i (fun d => update d (dmap (varg (vlists s)) items) compress)
    | UpdateData i j => match nth_error (vdata s) j with Some d' => von s i (fun d => update_data d d') | None => (s, Ok tt) end
    | Concatenate js => vnew s (concat_onto empty_data (all_of (vdata s) js))
    | FromDict items => vnew s (update empty_data (dmap (varg (vlists s)) items) false)
    | Mask i m => match nth_error (vdata s) i with Some d => vnew s (mask_rows d m, Ok tt) | None => (s, Ok tt) end
    | Slice i ks => match nth_error (vdata s) i with Some d => vnew s (get_slice d ks, Ok tt) | None => (s, Ok tt) end
    | Fill i l ks => von s i (fun d => fill d l ks)
    | DeleteRows i idx => von s i (fun d => (delete_rows d idx, Ok tt))
    | DeleteCol i key => von s i (fun d => delete_col d key)
    | Rename i a b => von s i (fun d => rename d a b)
    | StripCols i => von s i (fun d => (strip_cols d, Ok tt))
    | StripRows i => von s i (fun d => strip_rows fuel d)
    end.

  Definition hstep (s : hstate) (c : stmt) : hstate * result unit :=
    let h := hheap s in
    match c with
    | NewData => hnew s (h, new_obj, Ok tt)
    | NewList l => (mkH (h ++ [l]) (hobjs s) (hlists s ++ [length h]), Ok tt)
    | ListAppend c v =>
        match nth_error (hlists s) c with
        | Some a => (mkH (write h a (read h a ++ [v])) (hobjs s) (hlists s), Ok tt)
        | None => (s, Ok tt)
        end
    | Extend i key c =>
        match nth_error (hlists s) c with Some a => hon s i (fun h o => hextend h o key a) | None => (s, Ok tt) end
    | Append i key v => hon s i (fun h o => happend h o key v)
    | Update i items compress => hon s i (fun h o => hupdate h o (dmap (harg (hlists s)) items) compress)
    | UpdateData i j => match nth_error (hobjs s) j with Some o' => hon s i (fun h o => hupdate_data h o o') | None => (s, Ok tt) end
    | Concatenate js => hnew s (hconcat_onto h new_obj (all_of (hobjs s) js))
    | FromDict items => hnew s (hupdate h new_obj (dmap (harg (hlists s)) items) false)
    | Mask i m => match nth_error (hobjs s) i with Some o => hnew s (hmask h o m, Ok tt) | None => (s, Ok tt) end
    | Slice i ks => match nth_error (hobjs s) i with Some o => hnew s (h, hget_slice h o ks, Ok tt) | None => (s, Ok tt) end
    | Fill i l ks => hon s i (fun h o => hfill h o l ks)
    | DeleteRows i idx => hon s i (fun h o => (hdelete_rows h o idx, Ok tt))
    | DeleteCol i key => hon s i (fun h o => hdelete_col h o key)
    | Rename i a b => hon s i (fun h o => hrename h o a b)
    | StripCols i => hon s i (fun h o => (h, hstrip_cols h o, Ok tt))
    | StripRows i => hon s i (fun h o => hstrip_rows fuel h o)
    end.

  (** The states and outcomes of a program; an exception does not end it. *)
  Fixpoint vrun (s : vstate) (p : list stmt) : vstate * list (result unit) :=
    match p with
    | [] => (s, [])
    | c :: r => let (s', x) := vstep s c in let (s'', xs) := vrun s' r in (s'', x :: xs)
    end.
  Fixpoint hrun (s : hstate) (p : list stmt) : hstate * list (result unit) :=
    match p with
    | [] => (s, [])
    | c :: r => let (s', x) := hstep s c in let (s'', xs) := hrun s' r in (s'', x :: xs)
    end.
End Run.
