(** * Dates in files of weather models: the text of the time stamps (C71) *)

From Coq Require Import String Ascii List Bool Arith ZArith Reals Lra Lia.
From Verif Require Import Py Num ListX Dict WeatherModel WeatherProps.
Import ListNotations.
Open Scope string_scope.
Open Scope list_scope.
Open Scope nat_scope.

(** ** Specification *)

(** The number written with the digits [s] after those of [acc]; [None] unless [s] has only digits. *)
Fixpoint decimal (acc : nat) (s : string) : option nat :=
  match s with
  | "" => Some acc
  | String c r =>
      let n := nat_of_ascii c in
      if (48 <=? n) && (n <=? 57) then decimal (10 * acc + (n - 48)) r else None
  end.

(** [s] is [n] in the decimal system, with two digits. *)
Definition two_digits (n : nat) (s : string) : Prop := String.length s = 2 /\ decimal 0 s = Some n.
(** [s] is [n] in the decimal system without leading zeros. *)
Definition digits (n : nat) (s : string) : Prop :=
  decimal 0 s = Some n /\ String.length s = (if n <? 10 then 1 else if n <? 100 then 2 else if n <? 1000 then 3 else 4).

(** ** Proofs *)

Lemma decimal_dchar : forall acc n s, n < 10 -> decimal acc (String (dchar n) s) = decimal (10 * acc + n) s.
Proof. intros acc n s L. do 10 (destruct n as [|n]; [reflexivity|]). lia. Qed.

Lemma two_digits_show : forall n, n < 100 -> two_digits n (show2 n).
Proof.
  intros n L. split; [reflexivity|]. unfold show2.
  rewrite !decimal_dchar by (try apply Nat.div_lt_upper_bound; try apply Nat.mod_upper_bound; lia).
  cbn [decimal]. f_equal. pose proof (Nat.div_mod n 10 ltac:(lia)). lia.
Qed.

Lemma digits_show : forall n, n < 10 * 1000 -> digits n (show_year n).
Proof.
  intros n L. unfold digits, show_year, show2. pose proof (Nat.mod_upper_bound n 100 ltac:(lia)) as M.
  pose proof (Nat.div_mod n 100 ltac:(lia)) as D1. pose proof (Nat.div_mod (n mod 100) 10 ltac:(lia)) as D2.
  pose proof (Nat.div_mod (n / 100) 10 ltac:(lia)) as D3. rewrite Nat.div_div in D3 by lia. change (100 * 10) with 1000 in D3.
  pose proof (Nat.mod_upper_bound (n mod 100) 10 ltac:(lia)). pose proof (Nat.mod_upper_bound (n / 100) 10 ltac:(lia)).
  pose proof (Nat.div_mod n 10 ltac:(lia)). pose proof (Nat.mod_upper_bound n 10 ltac:(lia)).
  destruct (Nat.ltb_spec n 10); [rewrite decimal_dchar by auto; split; reflexivity|].
  destruct (Nat.ltb_spec n 100); [|destruct (Nat.ltb_spec n 1000)]; (split; [|reflexivity]).
  - rewrite !decimal_dchar by lia. cbn [decimal]. f_equal. lia.
  - rewrite !decimal_dchar by lia. cbn [decimal]. f_equal. lia.
  - rewrite !decimal_dchar by lia. cbn [decimal]. f_equal. lia.
Qed.

Lemma read4_colon : forall n s, n < 1000 -> read4 (show_year n ++ String ":" s)%string = None.
Proof.
  intros n s L. unfold show_year, show2.
  destruct (Nat.ltb_spec n 10); [|destruct (Nat.ltb_spec n 100); [|destruct (Nat.ltb_spec n 1000); [|lia]]]; cbn [String.append read4].
  - destruct s as [|a [|b r]]; try reflexivity. change (dval ":") with (@None nat). destruct (dval (dchar n)); reflexivity.
  - destruct s as [|a r]; try reflexivity. change (dval ":") with (@None nat). destruct (dval _); [|reflexivity]. destruct (dval _); reflexivity.
  - change (dval ":") with (@None nat). do 3 (destruct (dval _); [|reflexivity]). reflexivity.
Qed.

Lemma mapM_value_error : forall A B (f : A -> result B) l,
  (forall x, In x l -> (exists y, f x = Ok y) \/ f x = Raise ValueError) -> (exists x, In x l /\ f x = Raise ValueError) ->
  mapM f l = Raise ValueError.
Proof.
  induction l as [|a l IH]; intros H [x [I E]]; [destruct I|]. cbn [mapM].
  destruct (H a (or_introl eq_refl)) as [[y Y]|Y]; rewrite Y; [|reflexivity]. cbn [rbind].
  rewrite IH; [reflexivity|intros z Z; apply H; right; auto|]. destruct I as [->|I]; [congruence|]. eauto.
Qed.

(** ** Properties *)

(** C71.  The text of a date: day, month, hour, minute and second with two digits, the year without leading zeros. *)
Theorem file_date_text : forall d, valid_date d -> exists day month year hour minute second,
  strftime d = (day ++ "." ++ month ++ "." ++ year ++ ":" ++ hour ++ ":" ++ minute ++ ":" ++ second)%string /\
  two_digits (d_day d) day /\ two_digits (d_month d) month /\ digits (d_year d) year /\
  two_digits (d_hour d) hour /\ two_digits (d_min d) minute /\ two_digits (d_sec d) second.
Proof.
  intros d V. pose proof V as OK. apply date_ok_iff in OK. unfold date_ok in OK. repeat rewrite andb_true_iff in OK.
  destruct OK as [[[[[[[[[_ A] _] B] _] C] D] E] F] _]. apply Nat.ltb_lt in A, D, E, F. apply Nat.leb_le in B, C.
  pose proof (days_in_month_le (d_year d) (d_month d)) as C'.
  do 6 eexists. split; [reflexivity|]. repeat (split; [first [apply digits_show; lia|apply two_digits_show; lia]|]).
  apply two_digits_show. lia.
Qed.
Print Assumptions file_date_text.

(** C71.  A file with dates, one of them before the year 1000, is written but cannot be read again. *)
Theorem file_early_years : forall T (w : wfile_model T),
  (forall t, In t (wf_times w) -> exists d, t = TDate d /\ valid_date d) ->
  (exists d, In (TDate d) (wf_times w) /\ d_year d < 1000) ->
  from_file (to_file w) = Raise ValueError.
Proof.
  intros T w H [d [I Y]]. unfold from_file, to_file. cbn [jlist rbind]. unfold jlist_of at 1. cbn [jlist rbind].
  rewrite mapM_value_error; [reflexivity| |].
  - intros x X. apply in_map_iff in X. destruct X as [t [<- X]]. destruct (H t X) as [e [-> _]]. cbn [jtime read_time jstr rbind].
    unfold read_time. cbn [jstr rbind]. destruct (strptime_file (strftime e)); eauto.
  - exists (jtime (TDate d)). split; [apply in_map; auto|]. unfold read_time, jtime. cbn [jstr rbind].
    destruct (H _ I) as [e [E V]]. injection E as <-. apply date_ok_iff in V. unfold date_ok in V. repeat rewrite andb_true_iff in V.
    destruct V as [[[[[[[[[_ _] _] B] _] C] _] _] _] _]. apply Nat.leb_le in B, C.
    pose proof (days_in_month_le (d_year d) (d_month d)) as C'.
    assert (strptime_file (strftime d) = None) as ->; [|reflexivity]. unfold strftime, strptime_file.
    rewrite read12_show2 by lia. cbn [obind String.append read_char Ascii.eqb Bool.eqb].
    rewrite read12_show2 by lia. cbn [obind String.append read_char Ascii.eqb Bool.eqb].
    rewrite read4_colon by auto. reflexivity.
Qed.
Print Assumptions file_early_years.

Example file_date_text_meets : valid_date (mkDate 987 2 28 7 5 59 0) /\ strftime (mkDate 987 2 28 7 5 59 0) = "28.02.987:07:05:59".
Proof. split; [apply date_ok_iff; reflexivity|reflexivity]. Qed.
Example file_early_years_meets :
  from_file (to_file (mkWF [[[[10%R]]]] [TDate (mkDate 987 2 28 7 5 59 0)] [50%R] [8%R] ["TWS"])) = Raise ValueError.
Proof.
  apply file_early_years.
  - intros t [<-|[]]. eexists. split; [reflexivity|]. apply date_ok_iff. reflexivity.
  - exists (mkDate 987 2 28 7 5 59 0). split; [left; reflexivity|]. cbn [d_year]. apply Nat.ltb_lt. reflexivity.
Qed.

(** ** Names of the attributes of a NetCDF file (C96) *)

Lemma dset_key : forall {V} k (v : V) d x, In x (map fst (dset k v d)) -> x = k \/ In x (map fst d).
Proof.
  intros V k v d x. induction d as [|[k' v'] r IH]; cbn [dset map fst In].
  - intros [<-|[]]; auto.
  - destruct (String.eqb k' k); cbn [map fst In]; intros [<-|H]; auto. destruct (IH H); auto.
Qed.
Lemma dict_zip_key : forall {V} ks (vs : list V) x, In x (map fst (dict_zip ks vs)) -> In x ks.
Proof.
  intros V ks vs x. unfold dict_zip.
  assert (forall (l : list (string * V)) d, In x (map fst (fold_left (fun d p => dset (fst p) (snd p) d) l d)) -> In x (map fst l) \/ In x (map fst d)) as K.
  { induction l as [|[k v] l IH]; intros d H; cbn [fold_left fst snd] in H; [auto|]. destruct (IH _ H) as [I|I]; [left; right; auto|].
    apply dset_key in I. destruct I as [->|I]; [left; left; auto|auto]. }
  intros H. destruct (K _ _ H) as [I|[]]. apply in_map_iff in I. destruct I as [[k v] [<- I]]. apply in_combine_l in I. exact I.
Qed.

(** The variables of the file, in the order of the file, without those that hold the coordinates of the grid. *)
Inductive attributes_of (lat lon time : string) : list string -> list string -> Prop :=
| no_variable : attributes_of lat lon time [] []
| coordinate : forall v l a, v = lat \/ v = lon \/ v = time -> attributes_of lat lon time l a -> attributes_of lat lon time (v :: l) a
| attribute : forall v l a, v <> lat -> v <> lon -> v <> time -> attributes_of lat lon time l a -> attributes_of lat lon time (v :: l) (v :: a).

(** C96.  The attributes are the variables of the file that are no coordinates, and the weather at a point has no other
    keys. *)
Theorem netcdf_names : forall strptime (f : nc_file R) al further m, nc_init strptime f al further = Ok m ->
  attributes_of (al_lat al) (al_lon al) (al_time al) (map fst (nf_vars f)) (nm_attrs m) /\
  forall point w k x, nc_weather m point = Ok w -> In (k, x) w ->
    In k (map fst (nf_vars f)) /\ k <> al_lat al /\ k <> al_lon al /\ k <> al_time al.
Proof.
  intros strptime f al further m E.
  assert (attributes_of (al_lat al) (al_lon al) (al_time al) (map fst (nf_vars f)) (nm_attrs m)) as A.
  { unfold nc_init in E. destruct (nc_coordinate (nf_lats f)) as [la|]; [|discriminate].
    destruct (nc_coordinate (nf_lons f)) as [lo|]; [|discriminate].
    cbn [rbind] in E. destruct (nc_time_unit strptime (nf_units f)) as [[step start]|]; [|discriminate].
    cbn [rbind] in E. injection E as <-. cbn [nm_attrs]. induction (map fst (nf_vars f)) as [|v l IH]; [constructor|].
    cbn [filter existsb]. destruct (String.eqb_spec v (al_lat al)); [constructor; auto|].
    destruct (String.eqb_spec v (al_lon al)); [constructor; auto|].
    destruct (String.eqb_spec v (al_time al)); [constructor; auto|]. apply attribute; auto. }
  split; [exact A|]. intros point w k x W I. unfold nc_weather in W.
  destruct (recursive_affine_interpolation _ _ _) as [val|]; [|discriminate]. cbn [rbind] in W. injection W as <-.
  apply (in_map fst) in I. apply dict_zip_key in I. cbn [fst] in I. clear - A I.
  induction A as [|v l a C A IH|v l a N1 N2 N3 A IH]; [destruct I| |].
  - destruct (IH I) as [J K]. split; [right; auto|auto].
  - destruct I as [<-|I]; [split; [left; auto|auto]|]. destruct (IH I) as [J K]. split; [right; auto|auto].
Qed.
Print Assumptions netcdf_names.

Example netcdf_names_meets :
  attributes_of "latitude" "longitude" "time" ["time"; "wind"; "latitude"; "depth"; "longitude"] ["wind"; "depth"].
Proof. repeat first [apply no_variable | apply coordinate; [solve [auto]|] | apply attribute; [discriminate|discriminate|discriminate|]]. Qed.

(** C96.  The weather of a NetCDF model is the affine interpolation of the data at the surrounding times, latitudes and
    longitudes, for points each of whose coordinates is no grid value or the first one; [val] are the data read (see
    [netcdf_data]).  Full statement (every point of the grid's range): false, see [gridded_weather_refuted] for the
    inherited method. *)
Theorem netcdf_weather_partial : forall (m : nc_model R) (val : nat -> nat -> nat -> nat -> R) t la lo,
  NoDup (nm_attrs m) -> ascending (nm_times m) -> ascending (nm_lats m) -> ascending (nm_lons m) ->
  (forall i j k, i < length (nm_times m) -> j < length (nm_lats m) -> k < length (nm_lons m) ->
     nc_get_data m [i; j; k] = Ok (map (val i j k) (seq 0 (length (nm_attrs m))))) ->
  in_range (nm_times m) t -> in_range (nm_lats m) la -> in_range (nm_lons m) lo ->
  (In t (nm_times m) -> nth_error (nm_times m) 0 = Some t) ->
  (In la (nm_lats m) -> nth_error (nm_lats m) 0 = Some la) ->
  (In lo (nm_lons m) -> nth_error (nm_lons m) 0 = Some lo) ->
  exists c1 c2 c3 d, neighbours (nm_times m) t c1 /\ neighbours (nm_lats m) la c2 /\ neighbours (nm_lons m) lo c3 /\
    nc_weather m [t; la; lo] = Ok d /\
    forall q attr, nth_error (nm_attrs m) q = Some attr ->
      dget attr d = Some (weighted c1 (fun i => weighted c2 (fun j => weighted c3 (fun k => val i j k q)))).
Proof.
  intros m val t la lo ND S1 S2 S3 V R1 R2 R3 G1 G2 G3.
  assert (forall g x cs, (In x g -> nth_error g 0 = Some x) -> found g x cs -> neighbours g x cs) as K.
  { intros g x cs G [[I ->]|[_ H]]; auto. left. exists 0%nat. auto. }
  assert (forall g x, in_range g x -> g <> []) as NN by (intros g x [a [b [A _]]] ->; discriminate).
  pose proof (NN _ _ R1) as N1. pose proof (NN _ _ R2) as N2. pose proof (NN _ _ R3) as N3.
  destruct (found_exists _ _ S1 R1) as [c1 F1]. destruct (found_exists _ _ S2 R2) as [c2 F2].
  destruct (found_exists _ _ S3 R3) as [c3 F3].
  unfold nc_weather, recursive_affine_interpolation.
  pose proof R1 as R1'. pose proof R2 as R2'. pose proof R3 as R3'.
  apply in_range_ends in R1', R2', R3'.
  destruct R1' as [a1 [b1 [A1 [B1 L1]]]]. destruct R2' as [a2 [b2 [A2 [B2 L2]]]].
  destruct R3' as [a3 [b3 [A3 [B3 L3]]]].
  cbn [mapM rbind]. rewrite A1, A2, A3, B1, B2, B3. cbn [rbind combine existsb fst snd]. rnum.
  rewrite (Rltb_false t a1), (Rltb_false la a2), (Rltb_false lo a3) by lra.
  rewrite (Rltb_false b1 t), (Rltb_false b2 la), (Rltb_false b3 lo) by lra. cbn [orb].
  destruct (cuboid_dim_spec _ _ S1 R1) as [e1 [v1 [E1 _]]].
  destruct (cuboid_dim_spec _ _ S2 R2) as [e2 [v2 [E2 _]]].
  destruct (cuboid_dim_spec _ _ S3 R3) as [e3 [v3 [E3 _]]].
  cbn [combine mapM]. rewrite E1, E2, E3. cbn [rbind].
  exists c1, c2, c3.
  rewrite (recursion_step _ _ _ c1 _ _ _ _ _ (length (nm_attrs m))
    (fun i q => weighted c2 (fun j => weighted c3 (fun k => val i j k q)))); auto.
  - cbn [rbind]. eexists. split; [auto|]. split; [auto|]. split; [auto|]. split; [reflexivity|]. intros q attr Hq.
    rewrite (dict_zip_get _ _ q attr ND Hq). reflexivity.
  - intros i w1 I1.
    rewrite (recursion_step _ _ _ c2 _ _ _ _ _ (length (nm_attrs m))
      (fun j q => weighted c3 (fun k => val i j k q))); auto.
    intros j w2 I2.
    rewrite (recursion_step _ _ _ c3 _ _ _ _ _ (length (nm_attrs m)) (fun k q => val i j k q)); auto.
    intros k w3 I3. cbn [app recursion]. apply V; eapply found_in; eauto.
Qed.
Print Assumptions netcdf_weather_partial.

(** The example file: latitude 45 is half way between 40 and 50, which are stored last and second. *)
Example netcdf_weather_meets : exists m, nc_init (fun _ _ => Some 0%R) (nc_example [0%R; 1%R]) nc_names [] = Ok m /\
  in_range (nm_lats m) 45%R /\ ~ In 45%R (nm_lats m) /\ neighbours (nm_lats m) 45%R [(0, (1/2)%R); (1, (1/2)%R)] /\
  forall i j k, i < 2 -> j < 3 -> k < 2 -> nc_get_data m [i; j; k] =
    Ok (map (fun q => nth q [INR (100 * i + 10 * (2 - j) + k); INR (10 * (2 - j) + k)] 0%R) (seq 0 (length (nm_attrs m)))).
Proof.
  destruct (nc_example_model [0%R; 1%R]) as [m [E [A [B [C [D [F [G [Al H]]]]]]]]]. exists m. split; [exact E|]. rewrite A. split; [|split; [|split]].
  - exists 40%R, 60%R. repeat split; lra.
  - intros [X|[X|[X|[]]]]; lra.
  - right. exists 0, 40%R, 50%R. split; [reflexivity|]. split; [reflexivity|]. split; [lra|].
    replace ((50 - 45) / (50 - 40))%R with (1/2)%R by lra. replace ((45 - 40) / (50 - 40))%R with (1/2)%R by lra. reflexivity.
  - intros i j k Hi Hj Hk. unfold nc_get_data. rewrite A, B, C, D, F, H, Al.
    destruct j as [|[|[|]]]; [| | |lia]; reflexivity.
Qed.

(** C71.  The times of a model read from a file are dates of the calendar, to the second. *)
Theorem file_dates_valid : forall T (j : jval T) w, from_file j = Ok w ->
  forall t, In t (wf_times w) -> exists d, t = TDate d /\ valid_date d /\ d_micro d = 0.
Proof.
  intros T j w E t I. unfold from_file in E. destruct (jlist j) as [parts|]; [|discriminate]. cbn [rbind] in E.
  destruct parts as [|d [|tm rest]]; try discriminate.
  destruct (jlist_of read_time tm) as [times|] eqn:ET; [|discriminate]. cbn [rbind] in E.
  destruct rest as [|la [|lo [|at_ [|]]]]; try discriminate.
  destruct (jlist_of _ d) as [data|]; [|discriminate]. cbn [rbind] in E. destruct (jlist_of jnum la); [|discriminate]. cbn [rbind] in E.
  destruct (jlist_of jnum lo); [|discriminate]. cbn [rbind] in E. destruct (jlist_of jstr at_); [|discriminate]. cbn [rbind] in E.
  injection E as <-. cbn [wf_times] in I. unfold jlist_of in ET. destruct (jlist tm) as [l|]; [|discriminate]. cbn [rbind] in ET.
  assert (exists x, read_time x = Ok t) as [x X].
  { clear - ET I. revert times ET I. induction l as [|x l IH]; intros times ET I; cbn [mapM] in ET; [injection ET as <-; destruct I|].
    destruct (read_time x) as [y|] eqn:Y; [|discriminate]. cbn [rbind] in ET. destruct (mapM read_time l) as [ys|]; [|discriminate].
    injection ET as <-. destruct I as [<-|I]; eauto. }
  unfold read_time in X. destruct (jstr x) as [s|]; [|discriminate]. cbn [rbind] in X.
  destruct (strptime_file s) as [e|] eqn:S; [|discriminate]. injection X as <-. exists e. split; [reflexivity|].
  rewrite <- date_ok_iff. clear - S. unfold strptime_file, obind in S.
  repeat match type of S with
         | match ?a with Some _ => _ | None => None end = _ => destruct a as [?|]; [|discriminate]
         | (let '(_, _) := ?a in _) = _ => destruct a as [? ?]
         end.
  match type of S with match ?a with "" => _ | _ => _ end = _ => destruct a; [|discriminate] end. cbv zeta in S.
  destruct (date_ok _) eqn:OK in S; [|discriminate]. injection S as <-. split; [exact OK|reflexivity].
Qed.
Print Assumptions file_dates_valid.

(** The 30th of February is refused, the 29th is read in a leap year. *)
Example file_dates_valid_meets :
  let file day := JList [JList []; JList [JStr (day ++ ".02.2024:07:05:59")%string]; JList []; JList []; JList []] : jval R in
  from_file (file "30") = Raise ValueError /\ exists w, from_file (file "29") = Ok w /\ wf_times w = [TDate (mkDate 2024 2 29 7 5 59 0)].
Proof. split; [vm_compute; reflexivity|]. eexists. split; [|]; [vm_compute; reflexivity|reflexivity]. Qed.
