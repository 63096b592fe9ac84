(** * Model of [GriddedWeatherModel.from_meteostat],
      /repo/hrosailing/models/weather_model.py 138-199 *)

From Coq Require Import String List Bool Arith ZArith Reals.
From Verif Require Import Py Num.
Import ListNotations.
Open Scope list_scope.

Section Meteo.
  (** Time stamps; [pd.to_datetime] of a time stamp is the time stamp. *)
  Context {Time : Type}.

  (** [meteostat.Hourly(meteostat.Point(lat, lon, 0), start_time, end_time).fetch()]:
      the time stamps and the values of the columns [keys] for the hours with data at
      the place.  The modules [meteostat] and [pandas] are installed. *)
  Variable fetch : R -> R -> list (Time * list R).

  (** [np.stack(l, axis=0)] of arrays whose first two extents are [shape]: a ValueError
      unless there is an array and all have the same shape. *)
  Definition stack {A} (shape : A -> nat * nat) (l : list A) : result (list A) :=
    match l with
    | [] => Raise ValueError
    | a :: r =>
        if forallb (fun b => Nat.eqb (fst (shape b)) (fst (shape a)) && Nat.eqb (snd (shape b)) (snd (shape a))) r
        then Ok l else Raise ValueError
    end.

  (** The extents of an array of rows and of a list of such.  All rows have as many
      values as there are keys. *)
  Definition rows_shape (d : list (list R)) : nat * nat := (length d, 0).
  Definition row_shape (d : list (list (list R))) : nat * nat :=
    (length d, match d with [] => 0 | x :: _ => length x end).

  (** The loop over the longitudes for one latitude and the completion with zeros.
      weather_model.py 177-191.  A numpy array is never equal to [[]] (numpy 1.22), an
      array without rows has been replaced by [[]]. *)
  Definition lat_data (nkeys : nat) (lons : list R) (lat : R) : result (list (list (list R))) :=
    let lon_data := map (fun lon => map snd (fetch lat lon)) lons in
    match lon_data with
    | [] => Raise ValueError
    | _ =>
        let max_len := list_max (map (fun d => length d) lon_data) in
        stack rows_shape
          (map (fun d => match d with [] => repeat (repeat 0%R nkeys) max_len | _ => d end) lon_data)
    end.

  (** [np.transpose(data, axes=(2, 0, 1, 3))]: the entry at (t, i, j) is that at
      (i, j, t). *)
  Definition transpose_time (data : list (list (list (list R)))) : list (list (list (list R))) :=
    let n := match data with (x :: _) :: _ => length x | _ => 0 end in
    map (fun t => map (fun lat => map (fun place => nth t place []) lat) data) (seq 0 n).

  (** The data and the times of the model.  weather_model.py 174-199.  The variable
      [times] has the value of the last pass through the loops; without a pass it is
      unbound (a NameError, given as RuntimeError). *)
  Definition from_meteostat (lats lons : list R) (nkeys : nat) : result (list (list (list (list R))) * list Time) :=
    do lat_datas <- mapM (lat_data nkeys lons) lats;
    match rev lats, rev lons with
    | lat :: _, lon :: _ =>
        do data <- stack row_shape lat_datas;
        Ok (transpose_time data, map fst (fetch lat lon))
    | _, _ => Raise RuntimeError
    end.
End Meteo.
