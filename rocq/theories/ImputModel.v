(** * Model of hrosailing/processing/imputator.py

    Data objects are those of DataModel; time stamps and time differences are integers
    (microseconds). *)

From Coq Require Import String.
From Coq Require Import List Bool Arith ZArith QArith.
From Verif Require Import Py Dict DataModel.
Import ListNotations.
Open Scope string_scope.
Open Scope list_scope.
Open Scope nat_scope.

(** The statistics: [n_removed_cols], [n_removed_rows], [n_filled_fields], [n_rows],
    [n_cols].  imputator.py 27-36. *)
Record imp_stats := mkImpStats {
  is_cols_removed : nat; is_rows_removed : Z; is_filled : nat; is_rows : Z; is_cols : nat }.

(** [RemoveOnlyImputator.impute].  imputator.py 48-66. *)
Definition remove_only (d : Data) : result (Data * imp_stats) :=
  do rs <- rows d;
  let bad := map (fun ir => Z.of_nat (fst ir))
               (filter (fun ir => existsb (fun kv => is_none (snd kv)) (snd ir)) (enumerate rs)) in
  let d' := delete_rows d bad in
  Ok (d', mkImpStats 0 (n_rows d - Z.of_nat (length bad)) 0 (n_rows d') (n_cols d')).

(* ------------------------------------------------------------------ *)

(** Division rounding half to even: [timedelta * float].  Simplified: the factor is the
    exact quotient. *)
Definition round_div (a b : Z) : Z :=
  let q := (a / b)%Z in
  let r := (a mod b)%Z in
  if ((b <? 2 * r) || ((2 * r =? b) && Z.odd q))%Z then (q + 1)%Z else q.

Fixpoint set_nth {A} (l : list A) (i : nat) (x : A) : list A :=
  match l, i with
  | [], _ => []
  | _ :: r, O => x :: r
  | y :: r, S j => y :: set_nth r j x
  end.

Section FillLocal.
  (** The functions of the user; they may return None. *)
  Variable fill_before : string -> pyval -> Q -> cell.
  Variable fill_between : string -> pyval -> pyval -> Q -> cell.
  Variable fill_after : string -> pyval -> Q -> cell.
  Variable max_diff : Z.

  (** The loop [for j in range(last_i + 1, i)].  imputator.py 201-204. *)
  Definition fill_times (out : list (option Z)) (li : nat) (ld : Z) (i : nat) (dt : Z) : list (option Z) :=
    fold_left (fun o j => set_nth o j
                 (Some (ld + round_div (Z.of_nat (j - li) * (dt - ld)) (Z.of_nat (i - li)))%Z))
      (seq (S li) (i - S li)) out.

  (** [_interpolate_datetime].  imputator.py 190-206: [rest] are the entries from index
      [i] on, [out] the column.  A stamp too far from the last one is skipped without
      becoming the last one. *)
  Fixpoint interp_loop (rest : list (option Z)) (i : nat) (last : option (Z * nat)) (out : list (option Z))
    : list (option Z) :=
    match rest with
    | [] => out
    | None :: r => interp_loop r (S i) last out
    | Some dt :: r =>
        match last with
        | None => interp_loop r (S i) (Some (dt, i)) out
        | Some (ld, li) =>
            if (max_diff <? Z.abs (dt - ld))%Z then interp_loop r (S i) last out
            else interp_loop r (S i) (Some (dt, i)) (fill_times out li ld i dt)
        end
    end.
  Definition interp_times (ts : list (option Z)) : list (option Z) := interp_loop ts 0 None ts.

  (** The time stamps.  Simplified: an entry that is no datetime raises here, not at the
      first arithmetic. *)
  Definition time_of (c : cell) : result (option Z) :=
    match c with
    | None => Ok None
    | Some (VDatetime t) => Ok (Some t)
    | Some _ => Raise TypeError
    end.

  (** [_get_start_and_end_idx].  imputator.py 245-263; [idx] are the rows with a value. *)
  Definition opt_max (l : list nat) : option nat :=
    match l with [] => None | x :: r => Some (fold_left Nat.max r x) end.
  Definition opt_min (l : list nat) : option nat :=
    match l with [] => None | x :: r => Some (fold_left Nat.min r x) end.
  Definition start_end (ts : list Z) (i : nat) (idx : list nat) : option nat * option nat :=
    let t j := nth j ts 0%Z in
    (opt_max (filter (fun j => (j <? i) && (t i - t j <? max_diff)%Z) idx),
     opt_min (filter (fun j => (i <? j) && (t j - t i <? max_diff)%Z) idx)).

  (** Indices of the entries which are not None.  imputator.py 219-223. *)
  Definition measured (col : list cell) : list nat :=
    filter (fun i => negb (is_none (nth i col None))) (seq 0 (length col)).

  Definition ratio (a b : Z) : Q := (inject_Z a / inject_Z b)%Q.

  (** [col[i]] for an index of a measured value. *)
  Definition value_at (col : list cell) (i : nat) (f : pyval -> cell) : cell :=
    match nth i col None with Some v => f v | None => None end.

  (** The body of [_apply_fill_functions] for one row: the new entry and whether it was
      filled.  imputator.py 265-305. *)
  Definition fill_entry (key : string) (ts : list Z) (col : list cell) (i : nat) : cell * bool :=
    let t j := nth j ts 0%Z in
    match nth i col None with
    | Some v => (Some v, false)
    | None =>
        match start_end ts i (measured col) with
        | (None, None) => (None, false)
        | (None, Some e) => (value_at col e (fun v => fill_before key v (ratio (t e - t i) max_diff)), true)
        | (Some s, None) => (value_at col s (fun v => fill_after key v (ratio (t i - t s) max_diff)), true)
        | (Some s, Some e) =>
            if (max_diff <? t e - t s)%Z then
              (value_at col s (fun v => fill_after key v (ratio (t i - t s) max_diff)), true)
            else
              let mu := if (t e =? t s)%Z then 1%Q else ratio (t i - t s) (t e - t s) in
              (value_at col s (fun v => value_at col e (fun w => fill_between key v w mu)), true)
        end
    end.

  (** [_apply_fill_functions] for a column.  imputator.py 265-305. *)
  Definition fill_column (key : string) (ts : list Z) (col : list cell) : list (cell * bool) :=
    map (fill_entry key ts col) (seq 0 (length col)).

  Definition somes (l : list (option Z)) : list Z :=
    flat_map (fun o => match o with Some t => [t] | None => [] end) l.

  Definition none_rows (l : list cell) : list Z :=
    map (fun ic => Z.of_nat (fst ic)) (filter (fun ic => is_none (snd ic)) (enumerate l)).

  (** [impute].  imputator.py 144-188 with [_remove_rows] (208-216) and
      [_interpolate_other] (218-243).  Simplified: a column shorter than the others counts
      as None at its end instead of raising IndexError. *)
  Definition fill_local (d : Data) : result (Data * imp_stats) :=
    let d1 := strip_cols d in
    do col <- get_col d1 "datetime";
    do ts <- mapM time_of col;
    let ts1 := interp_times ts in
    let col1 := map (option_map VDatetime) ts1 in
    let d2 := mkData (dset "datetime" col1 (cols d1)) (types d1) (max_len d1) in
    let bad1 := none_rows col1 in
    let d3 := delete_rows d2 bad1 in
    let ts3 := somes ts1 in
    let new := map (fun kc => (fst kc, if String.eqb (fst kc) "datetime" then map (fun c => (c, false)) (snd kc)
                                       else fill_column (fst kc) ts3 (snd kc))) (cols d3) in
    let filled := list_sum (map (fun kc => length (filter snd (snd kc))) new) in
    let cs4 := map (fun kc => (fst kc, map fst (snd kc))) new in
    let d4 := mkData cs4 (types d3) (max_len d3) in
    let bad2 := map Z.of_nat (filter (fun i => existsb (fun kc => is_none (nth i (snd kc) None)) cs4) (seq 0 (length ts3))) in
    let d5 := delete_rows d4 bad2 in
    Ok (d5, mkImpStats (n_cols d - n_cols d1) (Z.of_nat (length bad1 + length bad2)) filled (n_rows d5) (n_cols d5)).
End FillLocal.
