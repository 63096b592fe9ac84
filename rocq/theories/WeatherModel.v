(** * Model of /repo/hrosailing/models/weather_model.py

    Times are numbers (seconds) wherever the weather is interpolated; calendar
    dates occur in the file format only. *)

From Coq Require Import String Ascii List Bool Arith ZArith.
From Verif Require Import Py Num Dict.
Import ListNotations.
Open Scope string_scope.
Open Scope list_scope.

Section Grid.
  Context {T : Type} `{Num T}.

  (** [bisect_left(a, x)] of the Python standard library:
      [while lo < hi: mid = (lo + hi) // 2; if a[mid] < x: lo = mid + 1 else: hi = mid].
      The interval shrinks in every step, so [length a] steps suffice. *)
  Fixpoint bisect_loop (fuel : nat) (a : list T) (x : T) (lo hi : nat) : nat :=
    match fuel with
    | O => lo
    | S n =>
        if (lo <? hi)%nat then
          let mid := Nat.div (lo + hi) 2 in
          match nth_error a mid with
          | Some v => if nltb v x then bisect_loop n a x (S mid) hi else bisect_loop n a x lo mid
          | None => lo
          end
        else lo
    end.
  Definition bisect_left (a : list T) (x : T) : nat := bisect_loop (length a) a x 0 (length a).

  (** [l.index(x)] of a value that may be missing. *)
  Fixpoint find_index (x : T) (l : list T) : option nat :=
    match l with
    | [] => None
    | y :: r => if neqb y x then Some O else option_map S (find_index x r)
    end.

  (** [lamb * term0 + (1 - lamb) * term1] for arrays of equal length. *)
  Definition affine (lamb : T) (t0 t1 : list T) : list T :=
    map (fun p => (lamb * fst p + (nofZ 1 - lamb) * snd p)%num) (combine t0 t1).

  (** One dimension of the cuboid around the point: the grid values, the
      indices [cuboid[dim]] and their values [cuboid_vals[dim]]
      (weather_model.py:261-279).  [idx - 1] is never -1, since a point right of
      the first grid value has a positive index ([cuboid_index_positive]). *)
  Definition cuboid_dim (gx : list T * T) : result (list T * list nat * list T) :=
    let '(g, x) := gx in
    let idx := bisect_left g x in
    do v <- py_nth g idx;
    let c := if neqb v x then [idx] else [Nat.pred idx; idx] in
    do vals <- mapM (py_nth g) c;
    Ok (g, c, vals).

  Section Recursion.
    (** [get_data]: the weather data at a tuple of grid indices. *)
    Variable get_data : list nat -> result (list T).

    (** weather_model.py:281-311 [recursion].  [completed] are the indices
        found so far, the point and the dimensions are those not yet treated
        (the entries of [data0], [data1] that differ from [point_] belong to
        treated dimensions and are never read again). *)
    Fixpoint recursion (point : list T) (dims : list (list T * list nat * list T))
        (completed : list nat) : result (list T) :=
      match point with
      | [] => get_data completed
      | comp :: rp =>
          match dims with
          | [] => Raise IndexError
          | (g, c, vals) :: rd =>
              match find_index comp vals with
              | Some j => recursion rp rd (completed ++ [j])
              | None =>
                  do idx0 <- py_nth c 0;
                  do idx1 <- py_nth c 1;
                  do val1 <- py_nth g idx1;
                  do val0 <- py_nth g idx0;
                  do lamb <- py_div (comp - val1)%num (val0 - val1)%num;
                  do term0 <- recursion rp rd (completed ++ [idx0]);
                  do term1 <- recursion rp rd (completed ++ [idx1]);
                  Ok (affine lamb term0 term1)
              end
          end
      end.

    (** weather_model.py:249-313 [_recursive_affine_interpolation]. *)
    Definition recursive_affine_interpolation (point : list T) (grid : list (list T)) : result (list T) :=
      do fst_ <- mapM (fun d => py_nth d 0) grid;
      do lst_ <- mapM py_last grid;
      if existsb (fun p => nltb (fst p) (snd p)) (combine point fst_)
         || existsb (fun p => nltb (snd p) (fst p)) (combine point lst_)
      then Raise ValueError
      else
        do dims <- mapM cuboid_dim (combine grid point);
        recursion point dims [].
  End Recursion.

  (** A [GriddedWeatherModel].  weather_model.py:86-91.  The data array has
      four axes, given as nested lists. *)
  Record gridded := mkGridded {
    gw_data : list (list (list (list T)));
    gw_times : list T; gw_lats : list T; gw_lons : list T;
    gw_attrs : list string
  }.

  (** weather_model.py:135-136 [_get_data]: [self._data[i, j, k]].  Only index
      triples are modelled (points are triples). *)
  Definition gw_get_data (data : list (list (list (list T)))) (idxs : list nat) : result (list T) :=
    match idxs with
    | [i; j; k] => do a <- py_nth data i; do b <- py_nth a j; py_nth b k
    | _ => Raise IndexError
    end.

  (** [dict(zip(keys, vals))]. *)
  Definition dict_zip {V} (ks : list string) (vs : list V) : dict V :=
    fold_left (fun d p => dset (fst p) (snd p) d) (combine ks vs) [].

  (** weather_model.py:118-133 [GriddedWeatherModel.get_weather]. *)
  Definition gridded_weather (w : gridded) (point : list T) : result (dict T) :=
    do val <- recursive_affine_interpolation (gw_get_data (gw_data w)) point
                [gw_times w; gw_lats w; gw_lons w];
    Ok (dict_zip (gw_attrs w) val).

  (** ** [MultiWeatherModel] *)

  (** [d.update(e)]. *)
  Definition dupdate {V} (d e : dict V) : dict V := fold_left (fun d p => dset (fst p) (snd p) d) e d.

  (** Weather values of any kind; a model is its [get_weather].
      weather_model.py:482-501 [MultiWeatherModel.get_weather]. *)
  Fixpoint multi_weather {P V} (sensitive : bool) (models : list (P -> result (dict V))) (point : P)
      (weather : dict V) : result (dict V) :=
    match models with
    | [] => Ok weather
    | m :: r =>
        match m point with
        | Ok w => multi_weather sensitive r point (dupdate weather w)
        | Raise e =>
            match e with
            | ValueError | TypeError | KeyError =>
                if sensitive then Raise e else multi_weather sensitive r point weather
            | _ => Raise e
            end
        end
    end.
  Definition multi_get_weather {P V} (sensitive : bool) (models : list (P -> result (dict V))) (point : P) :=
    multi_weather sensitive models point [].

  (** ** [NetCDFWeatherModel] *)

  (** A variable of the dataset: its dimensions as found by [_get_dimensions]
      ([None]: the attempt raises AttributeError) and its values.  How the text
      [str(variable)] is taken apart (weather_model.py:450-456) is not
      modelled. *)
  Record nc_var := mkVar { nv_dims : option (list string); nv_val : list nat -> result T }.

  (** An opened NetCDF file: the coordinate variables, the units of time and
      all variables. *)
  Record nc_file := mkFile {
    nf_lats : list T; nf_lons : list T; nf_times : list T; nf_units : string;
    nf_vars : list (string * nc_var)
  }.

  Record nc_aliases := mkAliases { al_lat : string; al_lon : string; al_time : string }.

  (** [datetime.strptime(s, fmt)] in seconds; [None]: ValueError. *)
  Variable strptime : string -> string -> option T.

  (** Python's [int(x)]: truncation towards zero. *)
  Definition py_int (x : T) : Z := if nltb x (nofZ 0) then Z.opp (nfloor (nopp x)) else nfloor x.

  Definition str_drop (n : nat) (s : string) : string := substring n (String.length s - n) s.

  (** weather_model.py:375-399: unit of time and starting time. *)
  Definition nc_time_unit (units : string) : result (Z * T) :=
    do ud <- (if String.prefix "hours since " units then Ok (3600%Z, str_drop 12 units)
              else if String.prefix "seconds since " units then Ok (1%Z, str_drop 14 units)
              else Raise NotImplementedError);
    let '(step, s) := ud in
    match strptime s "%Y-%m-%d %H:%M" with
    | Some t => Ok (step, t)
    | None =>
        match strptime s "%Y-%m-%d %H:%M:%S" with
        | Some t => Ok (step, t)
        | None => Raise NotImplementedError
        end
    end.

  (** weather_model.py:361-371: the coordinate in ascending order and whether
      it was flipped. *)
  Definition nc_coordinate (l : list T) : result (list T * bool) :=
    do last <- py_last l;
    do first <- py_nth l 0;
    if nltb last first then Ok (rev l, true) else Ok (l, false).

  Record nc_model := mkNc {
    nm_file : nc_file; nm_al : nc_aliases; nm_further : dict nat;
    nm_times : list T; nm_lats : list T; nm_lons : list T;
    nm_lats_flipped : bool; nm_lons_flipped : bool; nm_attrs : list string
  }.

  (** weather_model.py:337-412 [NetCDFWeatherModel.__init__] with netCDF4
      installed and an existing file. *)
  Definition nc_init (f : nc_file) (al : nc_aliases) (further : dict nat) : result nc_model :=
    do la <- nc_coordinate (nf_lats f);
    do lo <- nc_coordinate (nf_lons f);
    do st <- nc_time_unit (nf_units f);
    let '(step, start) := st in
    let times := map (fun p => (start + nofZ (py_int p * step))%num) (nf_times f) in
    let attrs := filter (fun v => negb (existsb (String.eqb v) [al_lat al; al_lon al; al_time al]))
                   (map fst (nf_vars f)) in
    Ok (mkNc f al further times (fst la) (fst lo) (snd la) (snd lo) attrs).

  (** weather_model.py:417-421: the index in the file for an index of the
      grid. *)
  Definition nc_index (flipped : bool) (l : list T) (i : nat) : nat :=
    if flipped then length l - i - 1 else i.

  (** weather_model.py:414-448 [NetCDFWeatherModel._get_data]. *)
  Definition nc_get_data (m : nc_model) (idxs : list nat) : result (list T) :=
    match idxs with
    | [t; i; j] =>
        let i := nc_index (nm_lats_flipped m) (nm_lats m) i in
        let j := nc_index (nm_lons_flipped m) (nm_lons m) j in
        mapM (fun attr =>
          match dget attr (nf_vars (nm_file m)) with
          | None => Raise IndexError
          | Some v =>
              match nv_dims v with
              | None => nv_val v [t; i; j]
              | Some coords =>
                  do new <- mapM (fun c =>
                    if String.eqb c (al_lat (nm_al m)) then Ok i
                    else if String.eqb c (al_lon (nm_al m)) then Ok j
                    else if String.eqb c (al_time (nm_al m)) then Ok t
                    else match dget c (nm_further m) with
                         | Some n => Ok n
                         | None => Raise NotImplementedError
                         end) coords;
                  nv_val v new
              end
          end) (nm_attrs m)
    | _ => Raise IndexError
    end.

  (** [NetCDFWeatherModel.get_weather] (inherited, weather_model.py:118-133). *)
  Definition nc_weather (m : nc_model) (point : list T) : result (dict T) :=
    do val <- recursive_affine_interpolation (nc_get_data m) point [nm_times m; nm_lats m; nm_lons m];
    Ok (dict_zip (nm_attrs m) val).
End Grid.

Arguments gridded T : clear implicits.
Arguments nc_model T : clear implicits.
Arguments nc_file T : clear implicits.
Arguments nc_var T : clear implicits.

(** ** Files *)

(** A naive [datetime] (no time zone).  [pd.Timestamp] is written like it. *)
Record date := mkDate { d_year : nat; d_month : nat; d_day : nat;
                        d_hour : nat; d_min : nat; d_sec : nat; d_micro : nat }.

Definition leap (y : nat) : bool :=
  ((y mod 4 =? 0) && (negb (y mod 100 =? 0) || (y mod 400 =? 0)))%nat.
Definition days_in_month (y m : nat) : nat :=
  match m with
  | 2 => if leap y then 29 else 28
  | 4 | 6 | 9 | 11 => 30
  | _ => 31
  end.

(** What Python's [datetime] constructor accepts. *)
Definition date_ok (d : date) : bool :=
  ((1 <=? d_year d) && (d_year d <? 10 * 1000) && (1 <=? d_month d) && (d_month d <=? 12)
   && (1 <=? d_day d) && (d_day d <=? days_in_month (d_year d) (d_month d))
   && (d_hour d <? 24) && (d_min d <? 60) && (d_sec d <? 60) && (d_micro d <? 1000 * 1000))%nat.

Definition dchar (n : nat) : ascii := ascii_of_nat (48 + n).
Definition show2 (n : nat) : string := String (dchar (n / 10)) (String (dchar (n mod 10)) "").
(** [%Y]: glibc does not pad years below 1000. *)
Definition show_year (n : nat) : string :=
  if (n <? 10)%nat then String (dchar n) ""
  else if (n <? 100)%nat then show2 n
  else if (n <? 1000)%nat then String (dchar (n / 100)) (show2 (n mod 100))
  else String (dchar (n / 1000)) (String (dchar (n / 100 mod 10)) (show2 (n mod 100))).

(** [d.strftime("%d.%m.%Y:%X")] (weather_model.py:241, 243), C locale. *)
Definition strftime (d : date) : string :=
  (show2 (d_day d) ++ "." ++ show2 (d_month d) ++ "." ++ show_year (d_year d) ++ ":"
   ++ show2 (d_hour d) ++ ":" ++ show2 (d_min d) ++ ":" ++ show2 (d_sec d))%string.

Definition dval (c : ascii) : option nat :=
  let n := nat_of_ascii c in
  if ((48 <=? n) && (n <=? 57))%nat then Some (n - 48)%nat else None.

(** One or two digits. *)
Definition read12 (s : string) : option (nat * string) :=
  match s with
  | String a r =>
      match dval a with
      | None => None
      | Some x =>
          match r with
          | String b r' =>
              match dval b with
              | Some y => Some (10 * x + y, r')%nat
              | None => Some (x, r)
              end
          | "" => Some (x, r)
          end
      end
  | "" => None
  end.

(** Four digits. *)
Definition read4 (s : string) : option (nat * string) :=
  match s with
  | String a (String b (String c (String e r))) =>
      match dval a, dval b, dval c, dval e with
      | Some w, Some x, Some y, Some z => Some (1000 * w + 100 * x + 10 * y + z, r)%nat
      | _, _, _, _ => None
      end
  | _ => None
  end.

Definition read_char (c : ascii) (s : string) : option string :=
  match s with String a r => if Ascii.eqb a c then Some r else None | "" => None end.

Definition obind {A B} (o : option A) (f : A -> option B) : option B :=
  match o with Some a => f a | None => None end.
Notation "'od' x <- e ; k" := (obind e (fun x => k)) (at level 200, x pattern, e at level 100, k at level 200).

(** [datetime.strptime(s, "%d.%m.%Y:%X")] (weather_model.py:227), C locale;
    [None] is ValueError.  A blank in front of a one-digit day, which strptime
    also accepts, is not modelled. *)
Definition strptime_file (s : string) : option date :=
  od (d, s) <- read12 s; od s <- read_char "." s;
  od (m, s) <- read12 s; od s <- read_char "." s;
  od (y, s) <- read4 s; od s <- read_char ":" s;
  od (hh, s) <- read12 s; od s <- read_char ":" s;
  od (mm, s) <- read12 s; od s <- read_char ":" s;
  od (ss, s) <- read12 s;
  match s with
  | "" => let r := mkDate y m d hh mm ss 0 in if date_ok r then Some r else None
  | _ => None
  end.

Section File.
  Context {T : Type}.

  (** A value of the time axis: a [datetime] or a number. *)
  Inductive tval := TDate (d : date) | TNum (x : T).

  (** The parts of a model as handed to the constructor. *)
  Record wfile_model := mkWF {
    wf_data : list (list (list (list T)));
    wf_times : list tval; wf_lats : list T; wf_lons : list T; wf_attrs : list string
  }.

  (** JSON values.  That [json.loads(json.dumps(v))] gives [v] back for lists,
      strings and floats is trusted. *)
  Inductive jval := JNum (x : T) | JStr (s : string) | JList (l : list jval).

  (** weather_model.py:201-212 [to_file] with 231-246
      [_GriddedWeatherModelEncoder.default]. *)
  Definition jtime (t : tval) : jval :=
    match t with TDate d => JStr (strftime d) | TNum x => JNum x end.
  Definition jdata (d : list (list (list (list T)))) : jval :=
    JList (map (fun a => JList (map (fun b => JList (map (fun c => JList (map JNum c)) b)) a)) d).
  Definition to_file (w : wfile_model) : jval :=
    JList [jdata (wf_data w); JList (map jtime (wf_times w));
           JList (map JNum (wf_lats w)); JList (map JNum (wf_lons w));
           JList (map JStr (wf_attrs w))].

  Definition jnum (j : jval) : result T := match j with JNum x => Ok x | _ => Raise TypeError end.
  Definition jstr (j : jval) : result string := match j with JStr s => Ok s | _ => Raise TypeError end.
  Definition jlist (j : jval) : result (list jval) := match j with JList l => Ok l | _ => Raise TypeError end.
  Definition jlist_of {A} (f : jval -> result A) (j : jval) : result (list A) :=
    do l <- jlist j; mapM f l.

  (** [datetime.strptime(t, ...)]: TypeError unless [t] is a string. *)
  Definition read_time (j : jval) : result tval :=
    do s <- jstr j;
    match strptime_file s with Some d => Ok (TDate d) | None => Raise ValueError end.

  (** weather_model.py:214-228 [from_file] and 86-91 (the constructor) on the
      parsed file.  Values of other shapes than [to_file] writes are refused
      (Python would build a model of objects). *)
  Definition from_file (j : jval) : result wfile_model :=
    do parts <- jlist j;
    match parts with
    | d :: t :: rest =>
        do times <- jlist_of read_time t;
        match rest with
        | [la; lo; at_] =>
            do data <- jlist_of (jlist_of (jlist_of (jlist_of jnum))) d;
            do lats <- jlist_of jnum la;
            do lons <- jlist_of jnum lo;
            do attrs <- jlist_of jstr at_;
            Ok (mkWF data times lats lons attrs)
        | _ => Raise TypeError
        end
    | _ => Raise ValueError
    end.
End File.
Arguments tval T : clear implicits.
Arguments wfile_model T : clear implicits.
Arguments jval T : clear implicits.
