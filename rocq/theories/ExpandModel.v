(** * Model of /repo/hrosailing/pipeline/expander.py *)

From Coq Require Import String.
From Coq Require Import List Bool Arith ZArith QArith.
From Verif Require Import Py Dict DataModel.
Import ListNotations.
Open Scope string_scope.
Open Scope list_scope.
Open Scope nat_scope.

(** expander.py:49-56 [LazyExpander.expand].  The statistics (33-34: row and
    column count of the result) are not modelled in this file. *)
Definition lazy_expand (d : Data) : upd unit := (d, Ok tt).

(** expander.py:69-75, the two values of [exception_handling_mode]. *)
Inductive mode := Delete | Ignore.

(** data.py:107-112 with the keys of expander.py:109: the moment and the
    position in row [i]. *)
Definition moment_position (d : Data) (i : nat) : result (cell * cell * cell) :=
  do ts <- get_col d "datetime"; do t <- py_nth ts i;
  do las <- get_col d "lat"; do la <- py_nth las i;
  do los <- get_col d "lon"; do lo <- py_nth los i;
  Ok (t, la, lo).

(** data.py:445-462 [concatenate] when the list contains dictionaries of single
    values (expander.py:127). *)
Fixpoint concat_dicts (d : Data) (l : list (dict cell)) : upd unit :=
  match l with
  | [] => (d, Ok tt)
  | w :: r => ubind (update d (dmap UOne w) false) (fun d' _ => concat_dicts d' r)
  end.

(** The key of expander.py:132. *)
Definition duplicate_key (k : string) : string := (k ++ "(duplicate)")%string.

(** expander.py:129-133 [_mark_duplicate_keys]. *)
Fixpoint mark_duplicate_keys (w : Data) (keys : list string) (ks : list string) : upd unit :=
  match ks with
  | [] => (w, Ok tt)
  | k :: r =>
      if smem k keys then ubind (rename w k (duplicate_key k)) (fun w' _ => mark_duplicate_keys w' keys r)
      else mark_duplicate_keys w keys r
  end.

Section Expand.
  (** [float(s)], see DataModel. *)
  Variable parse_float : string -> option Q.
  (** [get_weather] of the weather model. *)
  Variable get_weather : cell -> cell -> cell -> result (dict cell).

  (** expander.py:108-119, the loop: the answer of the weather model to each
      row, [None] for a ValueError.  Simplified: the three lists of the code are
      read off this list below. *)
  Fixpoint ask (d : Data) (idxs : list nat) : result (list (nat * option (dict cell))) :=
    match idxs with
    | [] => Ok []
    | i :: r =>
        do p <- moment_position d i;
        let '(t, la, lo) := p in
        do a <- match get_weather t la lo with
                | Ok w => Ok (i, Some w)
                | Raise ValueError => Ok (i, None)
                | Raise e => Raise e
                end;
        do rest <- ask d r; Ok (a :: rest)
    end.

  (** expander.py:115-116, [weather_keys]: those of the first answer. *)
  Fixpoint first_keys (l : list (nat * option (dict cell))) : option (list string) :=
    match l with
    | [] => None
    | (_, Some w) :: _ => Some (dkeys w)
    | (_, None) :: r => first_keys r
    end.

  (** expander.py:120, [none_idxs]. *)
  Definition none_idxs (l : list (nat * option (dict cell))) : list Z :=
    flat_map (fun a => match snd a with None => [Z.of_nat (fst a)] | Some _ => [] end) l.

  (** expander.py:114, 119, 124-125, the list that is concatenated;
      [for key in None] raises TypeError. *)
  Definition weather_list (m : mode) (l : list (nat * option (dict cell))) : result (list (dict cell)) :=
    match m with
    | Delete => Ok (flat_map (fun a => match snd a with None => [] | Some w => [w] end) l)
    | Ignore => mapM (fun a => match snd a with
                               | Some w => Ok w
                               | None => match first_keys l with
                                         | Some ks => Ok (map (fun k => (k, None)) ks)
                                         | None => Raise TypeError
                                         end
                               end) l
    end.

  (** expander.py:88-104 [expand] with 106-127 [_get_weather].  The argument is
      changed in place and returned. *)
  Definition weather_expand (m : mode) (d : Data) : upd unit :=
    match ask d (seq 0 (Z.to_nat (max_len d))) with
    | Raise e => (d, Raise e)
    | Ok answers =>
        let d1 := match m with Delete => delete_rows d (none_idxs answers) | Ignore => d end in
        match weather_list m answers with
        | Raise e => (d1, Raise e)
        | Ok wl =>
            match concat_dicts empty_data wl with
            | (_, Raise e) => (d1, Raise e)
            | (w, Ok _) =>
                match hrosailing_standard_format parse_float w with
                | (_, Raise e) => (d1, Raise e)
                | (w1, Ok _) =>
                    match mark_duplicate_keys w1 (data_keys d1) (data_keys w1) with
                    | (_, Raise e) => (d1, Raise e)
                    | (w2, Ok _) =>
                        ubind (update_data d1 w2) (fun d2 _ => hrosailing_standard_format parse_float d2)
                    end
                end
            end
        end
    end.
End Expand.
