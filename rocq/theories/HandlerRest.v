(** * Time stamps of NMEA sentences after the conversion of a sentence, statistics of the handlers (C59, C169) *)

From Coq Require Import String.
From Coq Require Import List Bool Arith ZArith QArith Lia.
From Verif Require Import Py Dict ListX DataModel DataSpec HandlerModel HandlerProps.
Import ListNotations.
Open Scope string_scope.
Open Scope list_scope.
Open Scope nat_scope.

Lemma wind_keeps_time : forall p, dget "Timestamp" (postprocess_wind p) = dget "Timestamp" p.
Proof.
  intros p. unfold postprocess_wind. destruct (dget "Wind angle" p) as [wa|]; [|reflexivity].
  destruct (dget "Reference" p) as [rf|]; [|reflexivity]. destruct (dget "Wind speed" p) as [ws|]; [|reflexivity].
  rewrite !dget_ddel_other by discriminate. destruct rf as [[]|]; try reflexivity.
  destruct (String.eqb s "R"); [|destruct (String.eqb s "T"); [|reflexivity]]; rewrite !dget_dset_other by discriminate; reflexivity.
Qed.
Lemma pos_keeps_time : forall pf nmea key p q, nmea <> "Timestamp" -> key <> "Timestamp" -> postprocess_pos pf nmea key p = Ok q ->
  dget "Timestamp" q = dget "Timestamp" p.
Proof.
  intros pf nmea key p q N K E. unfold postprocess_pos in E. destruct (dget nmea p) as [v|]; [|congruence].
  destruct (from_nmea_format pf v) as [x|]; cbn [rbind] in E; [|discriminate]. injection E as <-.
  rewrite dget_ddel_other, dget_dset_other; auto.
Qed.

(** C59: a time stamp with six digits after the point is replaced by the time it denotes, one that is no text stays. *)
Theorem nmea_timestamp : forall pf (p q : dict cell), postprocess pf p = Ok q ->
  (forall h m s f, h < 100 -> m < 100 -> s < 100 -> length f = 6 -> (forall n, In n f -> n < 10) ->
     dget "Timestamp" p = Some (Some (VStr (nmea_time h m s f))) ->
     exists us, dget "Timestamp" q = Some (Some (VTime us)) /\
       (inject_Z us == 1000000 * inject_Z (Z.of_nat (h * 3600 + m * 60 + s)) + fraction_us f)%Q) /\
  ((forall s, dget "Timestamp" p <> Some (Some (VStr s))) -> dget "Timestamp" q = dget "Timestamp" p).
Proof.
  intros pf p q E. unfold postprocess in E.
  destruct (postprocess_pos pf "Latitude" "lat" (postprocess_wind p)) as [p1|] eqn:E1; cbn [rbind] in E; [|discriminate].
  destruct (postprocess_pos pf "Longitude" "lon" p1) as [p2|] eqn:E2; cbn [rbind] in E; [|discriminate].
  apply pos_keeps_time in E1; [|discriminate|discriminate]. apply pos_keeps_time in E2; [|discriminate|discriminate].
  rewrite wind_keeps_time in E1. rewrite <- E1, <- E2. clear E1 E2. unfold postprocess_time in E. split.
  - intros h m s f Hh Hm Hs HL HD G. rewrite G in E.
    destruct (nmea_time_partial h m s f Hh Hm Hs HL HD) as [A B].
    destruct (Z.lt_ge_cases (Z.of_nat (h * 3600 + m * 60 + s)) 86400) as [L|L].
    + destruct (A L) as [us [T V]]. rewrite T in E. cbn [rbind] in E. injection E as <-. exists us. split; [apply dget_dset_same|exact V].
    + rewrite (B L) in E. discriminate.
  - intros N. destruct (dget "Timestamp" p2) as [[[]|]|] eqn:G; try (injection E as <-; auto; fail). exfalso. eapply N. reflexivity.
Qed.
Print Assumptions nmea_timestamp.

Example nmea_timestamp_meets :
  postprocess (fun _ => None) [("Timestamp", Some (VStr (nmea_time 12 35 19 [5; 0; 0; 0; 0; 0])))] =
  Ok [("Timestamp", Some (VTime 45319500000))].
Proof. reflexivity. Qed.

(** C169: the statistics of a handler are the length of every column and the number of different keys. *)
Theorem handler_counts : forall d n, well_formed d n ->
  (forall k col, dget k (cols d) = Some col -> fst (handler_statistics d) = Z.of_nat (length col)) /\
  fst (handler_statistics d) = Z.of_nat n /\
  exists keys, NoDup keys /\ (forall k, In k keys <-> dget k (cols d) <> None) /\ snd (handler_statistics d) = length keys.
Proof.
  intros d n [[ND _] [R C]]. unfold handler_statistics. cbn [fst snd]. split; [|split; [exact R|]].
  - intros k col H. rewrite (C k col H). exact R.
  - exists (dkeys (cols d)). split; [exact ND|]. split.
    + intros k. rewrite dget_None. split; [tauto|]. intros H. destruct (in_dec string_dec k (dkeys (cols d))); tauto.
    + unfold n_cols, dkeys. rewrite map_length. reflexivity.
Qed.
Print Assumptions handler_counts.

Example handler_counts_meets : exists d, well_formed d 2 /\ handler_statistics d = (2%Z, 2).
Proof.
  exists {| cols := [("TWS", [Some (VFloat 10); None]); ("BSP", [Some (VFloat 5); Some (VFloat 6)])]; types := [("TWS", Some TFloat); ("BSP", Some TFloat)]; max_len := 2%Z |}.
  split; [|reflexivity]. split; [split; [|split]|split; [reflexivity|]].
  - repeat constructor; cbn; intuition discriminate.
  - repeat constructor; cbn; intuition discriminate.
  - intros k col H. cbn [dget cols types] in *. destruct (String.eqb "TWS" k); [|destruct (String.eqb "BSP" k); [|discriminate]];
    injection H as <-; eexists; (split; [reflexivity|]); intros v I; cbn in I; repeat (destruct I as [I|I]; [inversion I; reflexivity|]); destruct I.
  - intros k col H. cbn [dget cols types] in *. destruct (String.eqb "TWS" k); [|destruct (String.eqb "BSP" k); [|discriminate]]; injection H as <-; reflexivity.
Qed.
