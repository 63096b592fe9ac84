(** * What the properties of [Data] say

    Definitions used in the statements about data.py.  They mention only what
    a user sees: the column of a key, the number of rows, the recorded type. *)

From Coq Require Import String.
From Coq Require Import List Bool Arith ZArith QArith Lia.
From Verif Require Import Py Dict DataModel.
Import ListNotations.
Open Scope list_scope.
Open Scope nat_scope.

(** All measured values of a list of cells have the same class. *)
Definition homogeneous (l : list cell) : Prop :=
  exists t, forall v, In (Some v) l -> vtype v = t.

(** The recorded type [t] of a column fits its content. *)
Definition type_fits (t : option ptype) (col : list cell) : Prop :=
  forall v, In (Some v) col -> t = Some (vtype v).

(** Every column holds None and values of one class, the recorded one. *)
Definition typed (d : Data) : Prop :=
  NoDup (dkeys (cols d)) /\ NoDup (dkeys (types d)) /\
  forall k col, dget k (cols d) = Some col ->
    exists t, dget k (types d) = Some t /\ type_fits t col.

(** A table with [n] rows: every column has [n] entries. *)
Definition rectangular (d : Data) (n : nat) : Prop :=
  n_rows d = Z.of_nat n /\
  forall k col, dget k (cols d) = Some col -> length col = n.

Definition well_formed (d : Data) (n : nat) : Prop := typed d /\ rectangular d n.

(** The entries an update dictionary gives for a key. *)
Definition cells_of (u : uval) : list cell :=
  match u with UList l => l | UOne c => [c] end.

(** The column of a key in a table of [n] rows, None where there is no such
    column. *)
Definition column_or_none (d : Data) (n : nat) (k : string) : list cell :=
  match dget k (cols d) with Some c => c | None => repeat None n end.

Definition given (items : dict uval) (k : string) : list cell :=
  match dget k items with Some u => cells_of u | None => [] end.

(** Number of rows an update dictionary adds: its longest entry. *)
Definition added_rows (items : dict uval) : nat :=
  fold_right max 0 (map (fun kv => length (cells_of (snd kv))) items).

Definition pad_to (n : nat) (l : list cell) : list cell :=
  l ++ repeat None (n - length l).

(** Two objects a user cannot tell apart by columns and row count. *)
Definition same_view (d d' : Data) : Prop :=
  data_keys d = data_keys d' /\ n_rows d = n_rows d' /\
  forall k, dget k (cols d) = dget k (cols d').

(** [d'] is [d] with the rows of [items] added at the end. *)
Definition updated (d : Data) (n : nat) (items : dict uval) (d' : Data) : Prop :=
  well_formed d' (n + added_rows items) /\
  data_keys d' = data_keys d ++ filter (fun k => negb (smem k (data_keys d))) (dkeys items) /\
  forall k, In k (data_keys d') ->
    get_col d' k =
      Ok (column_or_none d n k ++ pad_to (added_rows items) (given items k)).

(** The columns of several tables below each other. *)
Fixpoint stacked (ds : list (Data * nat)) (k : string) : list cell :=
  match ds with
  | [] => []
  | (d, n) :: r => column_or_none d n k ++ stacked r k
  end.

Definition total_rows (ds : list (Data * nat)) : nat :=
  fold_right (fun dn s => snd dn + s) 0 ds.

(** Row count after a compressing update that reuses the last row. *)
Definition merged_rows (n : nat) (items : dict uval) : nat :=
  max n (n - 1 + added_rows items).

Definition merged (d : Data) (n : nat) (items : dict uval) (d' : Data) : Prop :=
  well_formed d' (merged_rows n items) /\
  data_keys d' = data_keys d ++ filter (fun k => negb (smem k (data_keys d))) (dkeys items) /\
  forall k, In k (data_keys d') ->
    get_col d' k = Ok (pad_to (merged_rows n items)
      (match dget k items with
       | Some u => firstn (n - 1) (column_or_none d n k) ++ cells_of u
       | None => column_or_none d n k
       end)).


(** Row numbers that are not deleted. *)
Definition surviving (n : nat) (idx : list Z) : list nat :=
  filter (fun i => negb (existsb (Z.eqb (Z.of_nat i)) idx)) (seq 0 n).

(** Row [i] of the table holds no measured value. *)
Definition empty_row (d : Data) (i : nat) : Prop :=
  forall k col, dget k (cols d) = Some col -> nth i col None = None.

(** Number of rows a mask keeps. *)
Definition count_true (m : list bool) : nat := length (filter (fun b => b) m).

(** The recorded type of column [k] is one of [tl]. *)
Definition type_listed (d : Data) (tl : list ptype) (k : string) : bool :=
  match dget k (types d) with
  | Some (Some p) => existsb (ptype_eqb p) tl
  | _ => false
  end.

(** Candidate number [i] of the search: the base key, then its control keys. *)
Definition candidate (b : string) (i : nat) : string :=
  match i with 0 => b | S _ => control_key b i end.

(** [d'] is [d] with the columns renamed by [f]: nothing lost, nothing merged. *)
Definition renamed_by (f : string -> string) (d d' : Data) : Prop :=
  (forall k1 k2, In k1 (data_keys d) -> In k2 (data_keys d) -> f k1 = f k2 -> k1 = k2) /\
  (forall k, In k (data_keys d') <-> exists k0, In k0 (data_keys d) /\ f k0 = k) /\
  (forall k, In k (data_keys d) -> dget (f k) (cols d') = dget k (cols d) /\
                                   dget (f k) (types d') = dget k (types d)) /\
  n_rows d' = n_rows d.

(** The new name of a column is its standard key, or this key with a number. *)
Definition standard_name (k k' : string) : Prop :=
  exists s j, get_standard_key k = Ok s /\ k' = candidate s j.

Definition date_column (l : list cell) : Prop := forall v, In (Some v) l -> exists z, v = VDate z.
Definition time_column (l : list cell) : Prop := forall v, In (Some v) l -> exists z, v = VTime z.

(** The moment given by a date and a time of day in microseconds; unknown when
    one of them is unknown. *)
Definition moment (date time : cell) : cell :=
  match date, time with
  | Some (VDate day), Some (VTime us) => Some (VDatetime (86400 * 1000000 * day + us))
  | _, _ => None
  end.

(** The operations a user can apply to a [Data] object. *)
Inductive op :=
| OExtend (k : string) (l : list cell)
| OAppend (k : string) (c : cell)
| OUpdate (items : dict uval) (compress : bool)
| OUpdateData (other : Data)
| OFill (len_ : option Z) (keys : option (list string))
| OFilter (tl : list ptype)
| ORename (a b : string)
| ODeleteCol (k : string)
| ODeleteCols (ks : list string)
| ODeleteRows (idx : list Z)
| OStripCols
| OStripRows (fuel : nat)
| OStripAll (fuel : nat)
| OStandard (pf : string -> option Q)
| OMask (m : list bool)
| OSlice (ks : list string).

(** State after the operation; when it raises, the state it leaves behind. *)
Definition run_op (d : Data) (o : op) : Data :=
  match o with
  | OExtend k l => fst (extend d k l)
  | OAppend k c => fst (append d k c)
  | OUpdate i c => fst (update d i c)
  | OUpdateData o => fst (update_data d o)
  | OFill l k => fst (fill d l k)
  | OFilter tl => fst (filter_types d tl)
  | ORename a b => fst (rename d a b)
  | ODeleteCol k => fst (delete_col d k)
  | ODeleteCols ks => fst (delete_cols d ks)
  | ODeleteRows i => delete_rows d i
  | OStripCols => strip_cols d
  | OStripRows f => fst (strip_rows f d)
  | OStripAll f => fst (strip_all f d)
  | OStandard pf => fst (hrosailing_standard_format pf d)
  | OMask m => mask_rows d m
  | OSlice ks => get_slice d ks
  end.


(** The number a value denotes ([pf] reads a string). *)
Definition number_of (pf : string -> option Q) (v : pyval) : option Q :=
  match v with
  | VFloat q | VDecimal q | VNpFloat q => Some q
  | VInt z => Some (inject_Z z)
  | VStr s => pf s
  | _ => None
  end.

(** Columns of these types are converted to floats. *)
Definition convertible_type (t : option ptype) : Prop :=
  t = Some TInt \/ t = Some TStr \/ t = Some TDecimal \/ t = Some TNpFloat.

(** [c'] is the column [c] converted to floats if all its values denote
    numbers, and [c] itself otherwise. *)
Definition converted (pf : string -> option Q) (t : option ptype) (c c' : list cell) : Prop :=
  (convertible_type t /\
   Forall2 (fun x y => match x with
                       | None => y = None
                       | Some v => exists q, number_of pf v = Some q /\ y = Some (VFloat q)
                       end) c c') \/
  ((~ convertible_type t \/ exists v, In (Some v) c /\ number_of pf v = None) /\ c' = c).
