(** * Model of hrosailing/processing/datahandler.py *)

From Coq Require Import String Ascii.
From Coq Require Import List Bool Arith ZArith QArith Qround.
From Verif Require Import Py Dict DataModel.
Import ListNotations.
Open Scope string_scope.
Open Scope list_scope.
Open Scope nat_scope.

(** An update followed by reading off the object. *)
Definition finish (x : upd unit) : result Data :=
  match x with (d, Ok _) => Ok d | (_, Raise e) => Raise e end.

(** The statistics.  datahandler.py 46-54. *)
Definition handler_statistics (d : Data) : Z * nat := (n_rows d, n_cols d).

(* ---- ArrayHandler ---- *)

(** [np.asarray(arr)]: the entries after the conversion.  A one-dimensional array (also
    the one of an empty list) has no [shape[1]].  The conversion of mixed entries to a
    common type by numpy is not modelled. *)
Inductive arr := Arr1 | Arr2 (width : nat) (rows : list (list pyval)).

(** [{key: list(arr[:, i]) for i, key in enumerate(keys)}]: a later key replaces an equal
    earlier one.  datahandler.py 98. *)
Definition columns_of (rows : list (list pyval)) (keys : list string) : dict uval :=
  fold_left (fun d ik => dset (snd ik) (UList (map (fun r => nth_error r (fst ik)) rows)) d)
            (enumerate keys) [].

Section Handlers.
  (** [float(s)] of a string. *)
  Variable parse_float : string -> option Q.

  (** [ArrayHandler.handle] for a tuple.  datahandler.py 89-106.  Data frames of pandas are
      not modelled. *)
  Definition array_handle (a : arr) (keys : list string) : result Data :=
    match a with
    | Arr1 => Raise IndexError
    | Arr2 width rows =>
        if length keys =? width then
          do d <- finish (update empty_data (columns_of rows keys) false);
          finish (hrosailing_standard_format parse_float d)
        else Raise ValueError
    end.

  (* ---- CsvFileHandler ---- *)

  (** [datetime.strptime(entry.strip(), format)]: [None] is ValueError. *)
  Variable strptime : string -> option Z.
  (** [literal_eval]: SyntaxError, ValueError or a value. *)
  Inductive literal := LSyntax | LValue | LOk (c : cell).
  Variable literal_eval : string -> literal.

  (** [_save_eval] of a string.  datahandler.py 174-187. *)
  Definition save_eval (entry : string) : result cell :=
    match strptime entry with
    | Some t => Ok (Some (VDatetime t))
    | None =>
        match literal_eval entry with
        | LSyntax => Raise RuntimeError
        | LValue => Raise ValueError
        | LOk c => Ok c
        end
    end.

  (** One row: [data_dict[keys[i]].append(entry)].  datahandler.py 161-162. *)
  Fixpoint csv_row (keys : list string) (i : nat) (row : list string) (d : dict (list string))
    : result (dict (list string)) :=
    match row with
    | [] => Ok d
    | e :: r =>
        match nth_error keys i with
        | None => Raise IndexError
        | Some k =>
            match dget k d with
            | None => Raise KeyError
            | Some l => csv_row keys (S i) r (dset k (l ++ [e]) d)
            end
        end
    end.
  (** datahandler.py 160-162. *)
  Fixpoint csv_body (keys : list string) (rows : list (list string)) (d : dict (list string))
    : result (dict (list string)) :=
    match rows with [] => Ok d | r :: rs => do d' <- csv_row keys 0 r d; csv_body keys rs d' end.

  (** [CsvFileHandler.handle] without pandas.  datahandler.py 155-172.  [file] is the list of
      rows the csv reader yields. *)
  Definition csv_handle (file : list (list string)) : result Data :=
    match file with
    | [] => Raise StopIteration
    | keys :: rows =>
        do dd <- csv_body keys rows (fold_left (fun d k => dset k [] d) keys []);
        do items <- mapM (fun kv => do l <- mapM save_eval (snd kv); Ok (fst kv, UList l)) dd;
        do d <- from_dict items;
        finish (hrosailing_standard_format parse_float d)
    end.

  (* ---- NMEA ---- *)

  (** [HROSAILING_TO_NMEA].  constants.py 92-102. *)
  Definition hrosailing_to_nmea : dict (list string) :=
    [("TWS", ["Wind speed"; "Reference"]); ("AWS", ["Wind speed"; "Reference"]);
     ("TWA", ["Wind angle"; "Reference"]); ("AWA", ["Wind angle"; "Reference"]);
     ("lat", ["Latitude"]); ("lon", ["Longitude"]); ("SOG", ["Speed Over Ground"]);
     ("date", ["Datestamp"]); ("time", ["Timestamp"])].

  (** [s in line]. *)
  Fixpoint substring_of (s line : string) : bool :=
    String.prefix s line || match line with EmptyString => false | String _ r => substring_of s r end.

  (** The sentence filter.  datahandler.py 243-252. *)
  Definition sentence_filter (wanted unwanted : option (list string)) (line : string) : bool :=
    match wanted, unwanted with
    | Some w, _ => existsb (fun s => substring_of s line) w
    | None, Some u => forallb (fun s => negb (substring_of s line)) u
    | None, None => true
    end.

  (** The attribute filter.  datahandler.py 254-270. *)
  Definition attribute_filter (wanted unwanted : option (list string)) (field : string) : bool :=
    match wanted, unwanted with
    | Some w, _ =>
        existsb (String.eqb field)
          (concat (map (fun k => match dget k hrosailing_to_nmea with Some l => l | None => [k] end) w))
    | None, Some u => forallb (fun a => negb (String.eqb field a)) u
    | None, None => true
    end.

  (** [int(x)] of a float: truncation towards zero. *)
  Definition Qtrunc (q : Q) : Z := if Qle_bool 0 q then Qfloor q else (- Qfloor (- q))%Z.

  (** [_from_nmea_format].  datahandler.py 360-364. *)
  Definition from_nmea_format (v : cell) : result cell :=
    match v with
    | None => Raise TypeError
    | Some v =>
        match to_float parse_float v with
        | Some (VFloat value) =>
            let degrees := Qtrunc (value / 100) in
            let minutes := (value - 100 * inject_Z degrees)%Q in
            Ok (Some (VFloat (inject_Z degrees + minutes / 60)))
        | _ => match v with VStr _ => Raise ValueError | _ => Raise TypeError end
        end
    end.

  (** [int(s)] of a string of decimal digits; the other forms Python accepts (sign, blanks,
      underscores) are not modelled. *)
  Definition digit_value (c : ascii) : option Z :=
    let n := nat_of_ascii c in
    if (48 <=? n) && (n <=? 57) then Some (Z.of_nat (n - 48)) else None.
  Fixpoint digits_value (acc : Z) (s : string) : option Z :=
    match s with
    | EmptyString => Some acc
    | String c r => match digit_value c with Some d => digits_value (10 * acc + d)%Z r | None => None end
    end.
  Definition int_of_string (s : string) : result Z :=
    match s with
    | EmptyString => Raise ValueError
    | _ => match digits_value 0 s with Some z => Ok z | None => Raise ValueError end
    end.

  (** [s.split(".")]. *)
  Fixpoint split_dot (s : string) : list string :=
    match s with
    | EmptyString => [EmptyString]
    | String c r =>
        if Ascii.eqb c "."%char then EmptyString :: split_dot r
        else match split_dot r with
             | h :: t => String c h :: t
             | [] => [String c EmptyString]
             end
    end.

  (** [datetime.time(hour, minute, second, microsecond)] in microseconds. *)
  Definition time_of (h m s us : Z) : result pyval :=
    if ((0 <=? h) && (h <? 24) && (0 <=? m) && (m <? 60) && (0 <=? s) && (s <? 60) && (0 <=? us) && (us <? 1000000))%Z
    then Ok (VTime (((h * 60 + m) * 60 + s) * 1000000 + us)%Z) else Raise ValueError.

  (** [_time_from_nmea_format].  datahandler.py 366-382. *)
  Definition time_from_nmea_format (timestr : string) : result pyval :=
    do hours <- int_of_string (String.substring 0 2 timestr);
    do minutes <- int_of_string (String.substring 2 2 timestr);
    do seconds <- int_of_string (String.substring 4 2 timestr);
    do frac <- py_nth (split_dot timestr) 1;
    do microseconds <- int_of_string frac;
    let '(minutes, seconds) :=
      if (60 <=? seconds)%Z then (minutes + seconds / 60, seconds mod 60)%Z else (minutes, seconds) in
    let '(hours, minutes) :=
      if (60 <=? minutes)%Z then (hours + minutes / 60, minutes mod 60)%Z else (hours, minutes) in
    time_of hours minutes seconds microseconds.

  (** The part of [_postprocess] concerning the wind.  datahandler.py 325-341. *)
  Definition postprocess_wind (p : dict cell) : dict cell :=
    match dget "Wind angle" p, dget "Reference" p, dget "Wind speed" p with
    | Some wa, Some ref, Some ws =>
        let p1 := match ref with
                  | Some (VStr r) =>
                      if String.eqb r "R" then dset "AWS" ws (dset "AWA" wa p)
                      else if String.eqb r "T" then dset "TWS" ws (dset "TWA" wa p) else p
                  | _ => p
                  end in
        ddel "Wind speed" (ddel "Wind angle" (ddel "Reference" p1))
    | _, _, _ => p
    end.
  (** One coordinate.  datahandler.py 342-351. *)
  Definition postprocess_pos (nmea key : string) (p : dict cell) : result (dict cell) :=
    match dget nmea p with
    | Some v => do x <- from_nmea_format v; Ok (ddel nmea (dset key x p))
    | None => Ok p
    end.
  (** datahandler.py 352-357. *)
  Definition postprocess_time (p : dict cell) : result (dict cell) :=
    match dget "Timestamp" p with
    | Some (Some (VStr s)) => do t <- time_from_nmea_format s; Ok (dset "Timestamp" (Some t) p)
    | _ => Ok p
    end.
  (** [_postprocess].  datahandler.py 324-358. *)
  Definition postprocess (p : dict cell) : result (dict cell) :=
    do p1 <- postprocess_pos "Latitude" "lat" (postprocess_wind p);
    do p2 <- postprocess_pos "Longitude" "lon" p1;
    postprocess_time p2.

  (** [pynmea2.parse]: the fields of a sentence with their values. *)
  Variable parse : string -> result (list (string * cell)).

  (** The loop over the sentences.  datahandler.py 297-313.  Of two fields of the same name
      the later one is kept. *)
  Fixpoint nmea_loop (keep : string -> bool) (sentences : list string) (d : Data) : result Data :=
    match sentences with
    | [] => Ok d
    | s :: r =>
        do fields <- parse s;
        let wanted := filter (fun f => keep (fst f)) fields in
        do p <- postprocess (fold_left (fun acc f => dset (fst f) (snd f) acc) wanted []);
        do d' <- finish (update d (dmap UOne p) true);
        nmea_loop keep r d'
    end.

  (** [NMEAFileHandler.handle].  datahandler.py 274-322. *)
  Definition nmea_handle (ws us wa ua : option (list string)) (post : option (list ptype)) (file : list string)
    : result Data :=
    do d <- nmea_loop (attribute_filter wa ua) (filter (sentence_filter ws us) file) empty_data;
    do d1 <- finish (hrosailing_standard_format parse_float d);
    match post with
    | None | Some [] => Ok d1
    | Some tl => finish (filter_types d1 tl)
    end.
End Handlers.
