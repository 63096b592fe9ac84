(** * Model of /repo/hrosailing/core/data.py, class [Data] (lines 15-577)

    Simplifications common to the whole file:
    - list objects are values: the sharing of list objects between a [Data]
      object and its caller (extend stores the caller's list, get_slice shares
      the columns) is not part of this model; SharedModel.v adds it and
      SharedProps.v proves when it makes no difference;
    - cell values are the types that occur in sailing data, see [pyval]. *)

From Coq Require Import String Ascii DecimalString.
From Coq Require Import List Bool Arith ZArith QArith Lia.
From Verif Require Import Py Dict.
Import ListNotations.
Open Scope string_scope.
Open Scope list_scope.
Open Scope nat_scope.

(** Values stored in cells (data.py:430-443 looks only at [type(entry)];
    371-427 distinguishes the listed classes).  Simplified: floats and decimals
    are rationals, a date is a day number, times are microseconds. *)
Inductive pyval :=
| VFloat (q : Q) | VInt (z : Z) | VStr (s : string) | VDecimal (q : Q)
| VNpFloat (q : Q) | VDate (day : Z) | VTime (us : Z) | VDatetime (us : Z)
| VOther (n : nat).

(** The class of a value, [type(entry)] in data.py:430-443. *)
Inductive ptype :=
| TFloat | TInt | TStr | TDecimal | TNpFloat | TDate | TTime | TDatetime
| TOther.

Definition vtype (v : pyval) : ptype :=
  match v with
  | VFloat _ => TFloat | VInt _ => TInt | VStr _ => TStr
  | VDecimal _ => TDecimal | VNpFloat _ => TNpFloat | VDate _ => TDate
  | VTime _ => TTime | VDatetime _ => TDatetime | VOther _ => TOther
  end.

Definition ptype_eqb (a b : ptype) : bool :=
  match a, b with
  | TFloat, TFloat | TInt, TInt | TStr, TStr | TDecimal, TDecimal
  | TNpFloat, TNpFloat | TDate, TDate | TTime, TTime
  | TDatetime, TDatetime | TOther, TOther => true
  | _, _ => false
  end.

(** A cell: [None] is Python's None. *)
Definition cell := option pyval.

Definition is_none (c : cell) : bool :=
  match c with None => true | Some _ => false end.

(** The object: data.py:34-37 ([_data], [_types], [_max_len]).
    [_max_len] is an integer since [delete] subtracts from it (line 327). *)
Record Data := mkData {
  cols : dict (list cell);
  types : dict (option ptype);
  max_len : Z
}.

(** data.py:34-37. *)
Definition empty_data : Data := mkData [] [] 0.

(** The state after a call together with its outcome. *)
Definition upd A := (Data * result A)%type.

Definition ubind {A B} (x : upd A) (f : Data -> A -> upd B) : upd B :=
  match x with
  | (d, Ok a) => f d a
  | (d, Raise e) => (d, Raise e)
  end.

(** data.py:39-46 [keys]. *)
Definition data_keys (d : Data) : list string := dkeys (cols d).

(** data.py:60-65 [n_rows]. *)
Definition n_rows (d : Data) : Z := max_len d.

(** data.py:67-72 [n_cols]. *)
Definition n_cols (d : Data) : nat := length (cols d).

(** data.py:429-443 [_get_type]: loop with accumulator [curr_type]. *)
Fixpoint get_type_from (curr : option ptype) (l : list cell) : result (option ptype) :=
  match l with
  | [] => Ok curr
  | None :: r => get_type_from curr r
  | Some v :: r =>
      match curr with
      | None => get_type_from (Some (vtype v)) r
      | Some t => if ptype_eqb (vtype v) t then get_type_from curr r
                  else Raise ValueError
      end
  end.
Definition get_type (l : list cell) : result (option ptype) := get_type_from None l.

(** [max(self._max_len, len(column))], data.py:171 and 177. *)
Definition grow (m : Z) (l : list cell) : Z := Z.max m (Z.of_nat (length l)).

(** data.py:150-177 [extend]. *)
Definition extend (d : Data) (key : string) (data : list cell) : upd unit :=
  match get_type data with
  | Raise e => (d, Raise e)
  | Ok data_type =>
      match dget key (cols d) with
      | Some col =>
          match dget key (types d) with
          | None => (d, Raise KeyError)
          | Some t0 =>
              (* lines 163-164 *)
              let types1 := match t0 with
                            | None => dset key data_type (types d)
                            | Some _ => types d
                            end in
              let t1 := match t0 with None => data_type | Some t => Some t end in
              let d1 := mkData (cols d) types1 (max_len d) in
              (* lines 165-169 *)
              let clash := match data_type, t1 with
                           | None, _ => false
                           | Some a, Some b => negb (ptype_eqb a b)
                           | Some _, None => true
                           end in
              if clash then (d1, Raise ValueError)
              else
                let col' := col ++ data in
                (mkData (dset key col' (cols d)) types1 (grow (max_len d) col'),
                 Ok tt)
          end
      | None =>
          (mkData (dset key data (cols d)) (dset key data_type (types d))
                  (grow (max_len d) data), Ok tt)
      end
  end.

(** data.py:219-234 [append]. *)
Definition append (d : Data) (key : string) (v : cell) : upd unit :=
  extend d key [v].

(** data.py:255-262, body of the loop of [fill] for one key. *)
Definition fill1 (d : Data) (len_ : Z) (key : string) : upd unit :=
  let cols0 := if dmem key (cols d) then cols d else dset key [] (cols d) in
  match dget key cols0 with
  | None => (d, Raise KeyError) (* unreachable *)
  | Some col =>
      let fill_len := Z.to_nat (Z.max 0 (len_ - Z.of_nat (length col))) in
      let col' := col ++ repeat None fill_len in
      let cols1 := dset key col' cols0 in
      match get_type col' with
      | Raise e => (mkData cols1 (types d) (max_len d), Raise e)
      | Ok t => (mkData cols1 (dset key t (types d)) (max_len d), Ok tt)
      end
  end.

(** data.py:236-262 [fill] with both arguments given. *)
Fixpoint fill_keys (d : Data) (len_ : Z) (keys : list string) : upd unit :=
  match keys with
  | [] => (d, Ok tt)
  | k :: r => ubind (fill1 d len_ k) (fun d' _ => fill_keys d' len_ r)
  end.

(** data.py:251-254, the defaults of [fill]. *)
Definition fill (d : Data) (len_ : option Z) (keys : option (list string)) : upd unit :=
  fill_keys d (match len_ with Some l => l | None => max_len d end)
            (match keys with Some k => k | None => data_keys d end).

(** A value of an update dictionary: a list or a single object
    (data.py:213 tests [isinstance(val, list)]). *)
Inductive uval := UList (l : list cell) | UOne (c : cell).

(** data.py:212-216, the loop of [_unsafe_update]. *)
Fixpoint extend_all (d : Data) (items : dict uval) : upd unit :=
  match items with
  | [] => (d, Ok tt)
  | (k, UList l) :: r => ubind (extend d k l) (fun d' _ => extend_all d' r)
  | (k, UOne c) :: r => ubind (append d k c) (fun d' _ => extend_all d' r)
  end.

(** data.py:211-217 [_unsafe_update]. *)
Definition unsafe_update (d : Data) (items : dict uval) : upd unit :=
  ubind (extend_all d items) (fun d' _ => fill d' None None).

(** [self[key][-1] is None] for all keys of the update dictionary, with the
    short circuit of [all] (data.py:205). *)
Fixpoint all_last_none (d : Data) (keys : list string) : result bool :=
  match keys with
  | [] => Ok true
  | k :: r =>
      match dget k (cols d) with
      | None => Raise KeyError
      | Some col => do c <- py_last col;
                    if is_none c then all_last_none d r else Ok false
      end
  end.

(** [self._data[key] = self._data[key][:-1]] for all keys (data.py:206-207). *)
Fixpoint drop_lasts (d : Data) (keys : list string) : Data :=
  match keys with
  | [] => d
  | k :: r =>
      let c := match dget k (cols d) with Some c => c | None => [] end in
      drop_lasts (mkData (dset k (removelast c) (cols d)) (types d) (max_len d)) r
  end.

(** data.py:179-209 [update] with a dictionary argument. *)
Definition update (d : Data) (items : dict uval) (compress : bool) : upd unit :=
  ubind (fill_keys d (max_len d) (dkeys items ++ data_keys d)) (fun d1 _ =>
    if negb compress || (max_len d1 =? 0)%Z then unsafe_update d1 items
    else
      match all_last_none d1 (dkeys items) with
      | Raise e => (d1, Raise e)
      | Ok true => unsafe_update (drop_lasts d1 (dkeys items)) items
      | Ok false => unsafe_update d1 items
      end).

(** data.py:194-196 [update] with a [Data] argument (compress is dropped). *)
Definition update_data (d other : Data) : upd unit :=
  update d (dmap UList (cols other)) false.

(** data.py:445-462 [concatenate]. *)
Fixpoint concat_onto (d : Data) (l : list Data) : upd unit :=
  match l with
  | [] => (d, Ok tt)
  | o :: r => ubind (update_data d o) (fun d' _ => concat_onto d' r)
  end.
Definition concatenate (l : list Data) : result Data :=
  match concat_onto empty_data l with
  | (d, Ok _) => Ok d
  | (_, Raise e) => Raise e
  end.

(** data.py:473-491 [from_dict]. *)
Definition from_dict (items : dict uval) : result Data :=
  match update empty_data items false with
  | (d, Ok _) => Ok d
  | (_, Raise e) => Raise e
  end.

(** data.py:264-275 [filter_types]; a column without recorded type raises. *)
Fixpoint filter_types_keys (d : Data) (keys : list string) (tl : list ptype) : upd unit :=
  match keys with
  | [] => (d, Ok tt)
  | k :: r =>
      match dget k (types d) with
      | None => (d, Raise KeyError)
      | Some t =>
          let keep := match t with
                      | Some p => existsb (ptype_eqb p) tl
                      | None => false
                      end in
          let d' := if keep then d
                    else mkData (ddel k (cols d)) (ddel k (types d)) (max_len d) in
          filter_types_keys d' r tl
      end
  end.
Definition filter_types (d : Data) (tl : list ptype) : upd unit :=
  filter_types_keys d (data_keys d) tl.

(** data.py:302-327 [delete] for one column name. *)
Definition delete_col (d : Data) (key : string) : upd unit :=
  if dmem key (cols d) then
    if dmem key (types d) then
      (mkData (ddel key (cols d)) (ddel key (types d)) (max_len d), Ok tt)
    else (mkData (ddel key (cols d)) (types d) (max_len d), Raise KeyError)
  else (d, Raise KeyError).

(** data.py:319-321 [delete] for a list of column names. *)
Fixpoint delete_cols (d : Data) (keys : list string) : upd unit :=
  match keys with
  | [] => (d, Ok tt)
  | k :: r => ubind (delete_col d k) (fun d' _ => delete_cols d' r)
  end.

(** [[v for i, v in enumerate(value) if i not in key]] (data.py:324). *)
Definition drop_rows (idx : list Z) (l : list cell) : list cell :=
  map snd (filter (fun iv => negb (existsb (Z.eqb (Z.of_nat (fst iv))) idx))
                  (enumerate l)).

(** data.py:315-327 [delete] for a list of row indices (an integer argument is
    the one-element list). *)
Definition delete_rows (d : Data) (idx : list Z) : Data :=
  match idx with
  | [] => d
  | _ => mkData (dmap (drop_rows idx) (cols d)) (types d)
                (max_len d - Z.of_nat (length idx))
  end.

(** data.py:277-300 [rename]. *)
Definition rename (d : Data) (old_key new_key : string) : upd unit :=
  if String.eqb old_key new_key then (d, Ok tt)
  else if smem new_key (data_keys d) then (d, Raise ValueError)
  else
    match dget old_key (cols d) with
    | None => (d, Raise KeyError)
    | Some col =>
        match dget old_key (types d) with
        | None => (mkData (dset new_key col (cols d)) (types d) (max_len d),
                   Raise KeyError)
        | Some t =>
            delete_col (mkData (dset new_key col (cols d))
                               (dset new_key t (types d)) (max_len d)) old_key
        end
    end.

(** Python indexing [l[i]], negative indices count from the end. *)
Definition py_index {A} (l : list A) (i : Z) : result A :=
  let j := if (i <? 0)%Z then (i + Z.of_nat (length l))%Z else i in
  if (j <? 0)%Z then Raise IndexError else py_nth l (Z.to_nat j).

(** Python slicing [l[a:b]] (step 1). *)
Definition clamp_index (n : nat) (i : Z) : nat :=
  let j := if (i <? 0)%Z then (i + Z.of_nat n)%Z else i in
  Z.to_nat (Z.max 0 (Z.min j (Z.of_nat n))).
Definition py_slice {A} (l : list A) (a b : Z) : list A :=
  let n := length l in
  let i := clamp_index n a in
  let j := clamp_index n b in
  firstn (j - i) (skipn i l).

(** [all(value[i] is None for key, value in self._data.items())]
    (data.py:352-355, 357-360). *)
Fixpoint row_all_none (cs : dict (list cell)) (i : Z) : result bool :=
  match cs with
  | [] => Ok true
  | (_, col) :: r => do c <- py_index col i;
                     if is_none c then row_all_none r i else Ok false
  end.

(** The two while loops of data.py:352-361; [step] is 1 or -1. *)
Fixpoint skip_none_rows (fuel : nat) (cs : dict (list cell)) (i step : Z) : result Z :=
  match fuel with
  | O => Raise OutOfFuel
  | S f => do b <- row_all_none cs i;
           if b then skip_none_rows f cs (i + step) step else Ok i
  end.

(** data.py:341-346 [strip("cols")]: the recorded types stay. *)
Definition strip_cols (d : Data) : Data :=
  mkData (filter (fun kv => negb (forallb is_none (snd kv))) (cols d))
         (types d) (max_len d).

(** data.py:347-365 [strip("rows")]: [_max_len] stays. *)
Definition strip_rows (fuel : nat) (d : Data) : upd unit :=
  match skip_none_rows fuel (cols d) 0 1 with
  | Raise e => (d, Raise e)
  | Ok a =>
      match skip_none_rows fuel (cols d) (max_len d - 1) (-1) with
      | Raise e => (d, Raise e)
      | Ok b => (mkData (dmap (fun col => py_slice col a (b + 1)) (cols d))
                        (types d) (max_len d), Ok tt)
      end
  end.

(** data.py:366-368 [strip("all")]. *)
Definition strip_all (fuel : nat) (d : Data) : upd unit :=
  strip_rows fuel (strip_cols d).

(* ------------------------------------------------------------------ *)
(** ** Standard format *)

(** /repo/hrosailing/core/constants.py:18-92 [KEYSYNONYMS]. *)
Definition keysynonyms : dict string := [
  ("wind", "TWS"); ("wind speed", "TWS"); ("true", "TWS");
  ("true wind", "TWS"); ("true wind speed", "TWS"); ("ws", "TWS");
  ("tws", "TWS"); ("wspd", "TWS"); ("apparent wind speed", "AWS");
  ("apparent wind", "AWS"); ("apparent", "AWS"); ("aws", "AWS");
  ("angle", "TWA"); ("wind angle", "TWA"); ("true angle", "TWA");
  ("true wind angle", "TWA"); ("wa", "TWA"); ("twa", "TWA");
  ("apparent wind angle", "AWA"); ("apparent angle", "AWA"); ("awa", "AWA");
  ("speed", "BSP"); ("boat speed", "BSP"); ("boat speed knots", "BSP");
  ("vessel speed", "BSP"); ("vessel speed knots", "BSP"); ("sp", "BSP");
  ("bsp", "BSP"); ("bsps", "BSP"); ("water speed", "BSP");
  ("water speed knots", "BSP"); ("wsp", "BSP");
  ("speed over ground", "SOG"); ("speed over ground knots", "SOG");
  ("og", "SOG"); ("sog", "SOG"); ("spd over grnd", "SOG");
  ("date", "date"); ("datestamp", "date"); ("date stamp", "date");
  ("time", "time"); ("timestamp", "time"); ("time stamp", "time");
  ("datetime", "datetime"); ("date time", "datetime");
  ("lat", "lat"); ("latitude", "lat"); ("lon", "lon"); ("long", "lon");
  ("longitude", "lon"); ("temp", "temp"); ("temperature", "temp");
  ("dewpoint", "dewpoint"); ("dewpt", "dewpoint"); ("dwpt", "dewpoint");
  ("dwpoint", "dewpoint"); ("rel humidity", "humidity");
  ("relative humidity", "humidity"); ("rel hum", "humidity");
  ("relative hum", "humidity"); ("rhum", "humidity"); ("relhum", "humidity");
  ("hum", "humidity"); ("humidity", "humidity"); ("wd", "WD"); ("wdir", "WD");
  ("winddir", "WD"); ("wpgt", "gust"); ("pres", "air pressure");
  ("tsun", "total sunshine")
].

Definition newline : ascii := ascii_of_nat 10.
Definition tab : ascii := ascii_of_nat 9.

(** constants.py:107 [SEPARATORS]. *)
Definition separators : list ascii :=
  [","%char; ";"%char; "_"%char; "-"%char; "+"%char; "&"%char; newline; tab].

(** [str.lower] on ASCII letters (data.py:382). *)
Definition lower_char (c : ascii) : ascii :=
  let n := nat_of_ascii c in
  if (65 <=? n) && (n <=? 90) then ascii_of_nat (n + 32) else c.

(** [lkey.replace(sep, " ")] for all separators (data.py:383-384). *)
Definition sep_to_space (c : ascii) : ascii :=
  if existsb (Ascii.eqb c) separators then " "%char else c.

Fixpoint smap (f : ascii -> ascii) (s : string) : string :=
  match s with
  | EmptyString => EmptyString
  | String c r => String (f c) (smap f r)
  end.

(** White space removed by [str.strip] (ASCII part). *)
Definition is_space (c : ascii) : bool :=
  let n := nat_of_ascii c in
  ((9 <=? n) && (n <=? 13)) || ((28 <=? n) && (n <=? 32)).

Fixpoint lstrip (s : string) : string :=
  match s with
  | String c r => if is_space c then lstrip r else s
  | EmptyString => EmptyString
  end.

Fixpoint rstrip (s : string) : string :=
  match s with
  | String c r =>
      match rstrip r with
      | EmptyString => if is_space c then EmptyString else String c EmptyString
      | r' => String c r'
      end
  | EmptyString => EmptyString
  end.

(** [s.strip()] (data.py:385). *)
Definition strip (s : string) : string := rstrip (lstrip s).

(** [s[-1]] and [s[:-1]] (data.py:387). *)
Fixpoint slast (s : string) : result ascii :=
  match s with
  | EmptyString => Raise IndexError
  | String c EmptyString => Ok c
  | String _ r => slast r
  end.
Fixpoint sinit (s : string) : string :=
  match s with
  | EmptyString => EmptyString
  | String _ EmptyString => EmptyString
  | String c r => String c (sinit r)
  end.

(** data.py:381-393 [get_standard_key]. *)
Definition get_standard_key (key : string) : result string :=
  let lkey := strip (smap sep_to_space (smap lower_char key)) in
  do c <- slast lkey;
  let stripped := if Ascii.eqb c "s"%char then sinit lkey else lkey in
  match dget lkey keysynonyms with
  | Some v => Ok v
  | None =>
      match dget stripped keysynonyms with
      | Some v => Ok v
      | None => Ok key
      end
  end.

(** [f"{i}"] for a non-negative integer. *)
Definition string_of_nat (n : nat) : string :=
  NilEmpty.string_of_uint (Nat.to_uint n).

(** [f"{standard_key}(Control value {i})"] (data.py:403). *)
Definition control_key (base : string) (i : nat) : string :=
  (base ++ "(Control value " ++ string_of_nat i ++ ")")%string.

(** data.py:400-403, the while loop searching a free key. *)
Fixpoint free_key (fuel : nat) (keys : list string) (base cand : string) (i : nat)
  : result string :=
  match fuel with
  | O => Raise OutOfFuel
  | S f => if smem cand keys
           then free_key f keys base (control_key base (S i)) (S i)
           else Ok cand
  end.

(** data.py:395-404, the loop over the columns present at the start. *)
Fixpoint standard_keys_loop (d : Data) (ks : list string) : upd unit :=
  match ks with
  | [] => (d, Ok tt)
  | key :: r =>
      match get_standard_key key with
      | Raise e => (d, Raise e)
      | Ok standard_key =>
          if String.eqb key standard_key then standard_keys_loop d r
          else
            match free_key (S (S (length (data_keys d)))) (data_keys d)
                           standard_key standard_key 0 with
            | Raise e => (d, Raise e)
            | Ok new_key =>
                ubind (rename d key new_key) (fun d' _ => standard_keys_loop d' r)
            end
      end
  end.

(** data.py:408-411 [combine]; other classes than date and time raise. *)
Definition combine_dt (date time : cell) : result cell :=
  match date, time with
  | None, _ | _, None => Ok None
  | Some (VDate day), Some (VTime us) =>
      Ok (Some (VDatetime (day * 86400000000 + us)))
  | _, _ => Raise TypeError
  end.

(** data.py:406-421, aggregation of date and time. *)
Definition aggregate_datetime (d : Data) : upd unit :=
  if dmem "time" (cols d) && dmem "date" (cols d) then
    match dget "date" (cols d), dget "time" (cols d) with
    | Some dates, Some times =>
        match mapM (fun p => combine_dt (fst p) (snd p)) (List.combine dates times) with
        | Raise e => (d, Raise e)
        | Ok dts =>
            ubind (extend d "datetime" dts) (fun d1 _ =>
            ubind (delete_col d1 "date") (fun d2 _ =>
            delete_col d2 "time"))
        end
    | _, _ => (d, Raise KeyError) (* unreachable *)
    end
  else (d, Ok tt).

Section ToFloat.
  (** [float(s)] for a string: [None] when it raises ValueError (builtin of
      Python, an oracle here). *)
  Variable parse_float : string -> option Q.

  (** [float(value)]. *)
  Definition to_float (v : pyval) : option pyval :=
    match v with
    | VFloat q | VDecimal q | VNpFloat q => Some (VFloat q)
    | VInt z => Some (VFloat (inject_Z z))
    | VStr s => option_map VFloat (parse_float s)
    | _ => None
    end.

  (** data.py:580-590 [_try_call_to_float]. *)
  Fixpoint floats_of (l : list cell) : option (list cell) :=
    match l with
    | [] => Some []
    | None :: r => option_map (cons None) (floats_of r)
    | Some v :: r =>
        match to_float v with
        | None => None
        | Some w => option_map (cons (Some w)) (floats_of r)
        end
    end.

  (** data.py:425, the types that are cast. *)
  Definition castable (t : option ptype) : bool :=
    match t with
    | Some TInt | Some TStr | Some TDecimal | Some TNpFloat => true
    | _ => false
    end.

  (** data.py:423-427. *)
  Fixpoint ensure_floats (d : Data) (ks : list string) : upd unit :=
    match ks with
    | [] => (d, Ok tt)
    | k :: r =>
        match dget k (types d), dget k (cols d) with
        | Some t, Some col =>
            let d' :=
              if castable t then
                match floats_of col with
                | Some col' => mkData (dset k col' (cols d))
                                      (dset k (Some TFloat) (types d)) (max_len d)
                | None => d
                end
              else d in
            ensure_floats d' r
        | _, _ => (d, Raise KeyError)
        end
    end.

  (** data.py:370-427 [hrosailing_standard_format]. *)
  Definition hrosailing_standard_format (d : Data) : upd unit :=
    ubind (standard_keys_loop d (data_keys d)) (fun d1 _ =>
    ubind (aggregate_datetime d1) (fun d2 _ =>
    ensure_floats d2 (data_keys d2))).
End ToFloat.

(* ------------------------------------------------------------------ *)
(** ** Reading access *)

(** [max(len(field) for field in data.values())] with the ValueError of the
    empty sequence turned into 0 (data.py:509-512, 530-533). *)
Definition max_col_len (cs : dict (list cell)) : Z :=
  fold_right Z.max 0%Z (map (fun kv => Z.of_nat (length (snd kv))) cs).

(** data.py:493-516 [get_slice] for a list of keys. *)
Definition get_slice (d : Data) (ks : list string) : Data :=
  let cs := filter (fun kv => smem (fst kv) ks) (cols d) in
  mkData cs (filter (fun kv => smem (fst kv) ks) (types d)) (max_col_len cs).

(** data.py:518-536 [_mask_rows]. *)
Definition mask_rows (d : Data) (m : list bool) : Data :=
  let cs := dmap (fun col => mask_list col m) (cols d) in
  mkData cs (types d) (max_col_len cs).

(** data.py:539-540 [data["key"]]. *)
Definition get_col (d : Data) (k : string) : result (list cell) :=
  match dget k (cols d) with Some c => Ok c | None => Raise KeyError end.

(** data.py:541-542 [data[i]]. *)
Definition get_row (d : Data) (i : Z) : result (dict cell) :=
  mapM (fun kv => do c <- py_index (snd kv) i; Ok (fst kv, c)) (cols d).

(** data.py:559-561 [__iter__] and 81-118 [rows] with dictionaries. *)
Definition rows (d : Data) : result (list (dict cell)) :=
  mapM (fun i => get_row d (Z.of_nat i)) (seq 0 (Z.to_nat (max_len d))).

(** data.py:117-135 [get_by_type] (types of all columns are known). *)
Definition get_by_type (d : Data) (t : ptype) : list (string * list cell) :=
  filter (fun kv => match dget (fst kv) (types d) with
                    | Some (Some t') => ptype_eqb t' t
                    | _ => false
                    end) (cols d).
