(** * Properties of [from_meteostat] *)

From Coq Require Import String List Bool Arith ZArith Reals Lra Lia.
From Verif Require Import Py Num ListX MeteoModel.
Import ListNotations.
Open Scope list_scope.
Open Scope nat_scope.

Section Spec.
  Context {Time : Type}.
  Variable fetch : R -> R -> list (Time * list R).

  (** All places that have data at all have them for the hours [times]. *)
  Definition common_hours (lats lons : list R) (times : list Time) : Prop :=
    forall lat lon, In lat lats -> In lon lons -> fetch lat lon = [] \/ map fst (fetch lat lon) = times.

  (** The values fetched for a place and an hour; zeros for a place without data. *)
  Definition fetched (nkeys : nat) (lat lon : R) (t : nat) : option (list R) :=
    match fetch lat lon with
    | [] => Some (repeat 0%R nkeys)
    | l => option_map snd (nth_error l t)
    end.
End Spec.

Lemma stack_ok : forall A (shape : A -> nat * nat) l s, l <> [] -> (forall a, In a l -> shape a = s) -> stack shape l = Ok l.
Proof.
  intros A shape [|a r] s N E; [congruence|]. cbn [stack].
  assert (F : forallb (fun b => Nat.eqb (fst (shape b)) (fst (shape a)) && Nat.eqb (snd (shape b)) (snd (shape a))) r = true).
  { apply forallb_forall. intros b I. rewrite (E a), (E b) by (cbn; auto). rewrite !Nat.eqb_refl. reflexivity. }
  rewrite F. reflexivity.
Qed.

Lemma list_max_all : forall l n, In n l -> (forall m, In m l -> m = 0 \/ m = n) -> list_max l = n.
Proof.
  intros l n I A. apply Nat.le_antisymm.
  - apply list_max_le. apply Forall_forall. intros m Im. destruct (A m Im); lia.
  - assert (H := proj1 (list_max_le l (list_max l)) (le_n _)). rewrite Forall_forall in H. auto.
Qed.

Lemma nth_repeat_lt : forall A (x d : A) n t, t < n -> nth t (repeat x n) d = x.
Proof. induction n as [|n IH]; intros [|t] L; cbn; auto; try lia. apply IH. lia. Qed.

Section Proof.
  Context {Time : Type}.
  Variable fetch : R -> R -> list (Time * list R).

  Definition place (nkeys n : nat) (lat lon : R) : list (list R) :=
    match fetch lat lon with [] => repeat (repeat 0%R nkeys) n | l => map snd l end.

  Lemma place_length : forall nkeys lats lons times lat lon, common_hours fetch lats lons times ->
    In lat lats -> In lon lons -> length (place nkeys (length times) lat lon) = length times.
  Proof.
    intros nkeys lats lons times lat lon C I1 I2. unfold place. destruct (C lat lon I1 I2) as [E|E].
    - rewrite E. apply repeat_length.
    - rewrite <- E. destruct (fetch lat lon); cbn; rewrite ?map_length; auto.
  Qed.

  Lemma lat_data_ok : forall nkeys lats lons times lat, common_hours fetch lats lons times -> In lat lats ->
    (exists lon, In lon lons /\ fetch lat lon <> []) ->
    lat_data fetch nkeys lons lat = Ok (map (place nkeys (length times) lat) lons).
  Proof.
    intros nkeys lats lons times lat C I (lon & J & NE). unfold lat_data.
    destruct (map (fun lon => map snd (fetch lat lon)) lons) eqn:EM.
    { destruct lons; [destruct J|discriminate]. }
    rewrite <- EM. clear EM.
    assert (M : list_max (map (fun d => length d) (map (fun lon => map snd (fetch lat lon)) lons)) = length times).
    { apply list_max_all.
      - rewrite map_map. apply in_map_iff. exists lon. split; auto. rewrite map_length.
        destruct (C lat lon I J) as [E|E]; [congruence|]. rewrite <- E, map_length. auto.
      - intros m Im. rewrite map_map in Im. apply in_map_iff in Im. destruct Im as (x & <- & Ix). rewrite map_length.
        destruct (C lat x I Ix) as [E|E]; [rewrite E; auto|]. right. rewrite <- E, map_length. auto. }
    rewrite M, map_map.
    assert (P : map (fun x => match map snd (fetch lat x) with
                              | [] => repeat (repeat 0%R nkeys) (length times) | _ => map snd (fetch lat x) end) lons
                = map (place nkeys (length times) lat) lons).
    { apply map_ext. intros x. unfold place. destruct (fetch lat x); reflexivity. }
    replace (map _ lons) with (map (place nkeys (length times) lat) lons).
    apply stack_ok with (s := (length times, 0)).
    - destruct lons; [destruct J|discriminate].
    - intros a Ia. apply in_map_iff in Ia. destruct Ia as (x & <- & Ix). unfold rows_shape.
      rewrite (place_length nkeys lats lons times lat x); auto.
  Qed.

  Lemma from_meteostat_ok : forall nkeys lats lons times, lats <> [] ->
    common_hours fetch lats lons times ->
    (forall lat, In lat lats -> exists lon, In lon lons /\ fetch lat lon <> []) ->
    exists tm, from_meteostat fetch lats lons nkeys =
      Ok (transpose_time (map (fun lat => map (place nkeys (length times) lat) lons) lats), tm) /\
      (forall lats0 lat lons0 lon, lats = lats0 ++ [lat] -> lons = lons0 ++ [lon] -> tm = map fst (fetch lat lon)).
  Proof.
    intros nkeys lats lons times NE C D.
    assert (NL : lons <> []).
    { destruct lats as [|lat r]; [congruence|]. destruct (D lat (or_introl eq_refl)) as (lon & I & _). intros ->. destruct I. }
    unfold from_meteostat.
    rewrite (mapM_Ok_map _ _ _ (fun lat => map (place nkeys (length times) lat) lons)).
    2: { intros lat I. eapply lat_data_ok; eauto. }
    cbn [rbind].
    destruct (exists_last NE) as (lats0 & lat & ->). destruct (exists_last NL) as (lons0 & lon & ->).
    rewrite !rev_app_distr. cbn [rev app].
    rewrite (stack_ok _ _ _ (length (lons0 ++ [lon]), length times)).
    - cbn [rbind]. eexists. split; [reflexivity|]. intros l1 a l2 b E1 E2.
      apply app_inj_tail in E1, E2. destruct E1 as [_ <-], E2 as [_ <-]. reflexivity.
    - intros H. apply (f_equal (fun l => length l)) in H. rewrite map_length, app_length in H. cbn in H. lia.
    - intros a Ia. apply in_map_iff in Ia. destruct Ia as (x & <- & Ix). unfold row_shape. rewrite map_length. f_equal.
      destruct (lons0 ++ [lon]) as [|y l] eqn:E; [destruct lons0; discriminate|]. cbn [map].
      apply (place_length nkeys (lats0 ++ [lat]) (y :: l)); cbn; auto.
  Qed.

  Lemma transpose_nth : forall nkeys lats lons times t i j lat lon, common_hours fetch lats lons times ->
    t < length times -> nth_error lats i = Some lat -> nth_error lons j = Some lon ->
    exists a b, nth_error (transpose_time (map (fun lat => map (place nkeys (length times) lat) lons) lats)) t = Some a /\
      nth_error a i = Some b /\ nth_error b j = Some (nth t (place nkeys (length times) lat lon) []).
  Proof.
    intros nkeys lats lons times t i j lat lon C T Ni Nj. unfold transpose_time.
    assert (L : match map (fun lat => map (place nkeys (length times) lat) lons) lats with
                | (x :: _) :: _ => length x | _ => 0 end = length times).
    { destruct lats as [|l0 lr]; [destruct i; discriminate|]. destruct lons as [|o0 lor]; [destruct j; discriminate|].
      cbn [map]. apply (place_length nkeys (l0 :: lr) (o0 :: lor)); cbn; auto. }
    rewrite L. eexists. eexists. split; [|split].
    - apply map_nth_error. rewrite (nth_error_nth' _ _ t 0) by (rewrite seq_length; auto). rewrite seq_nth by auto. reflexivity.
    - apply map_nth_error. exact (map_nth_error (fun lat => map (place nkeys (length times) lat) lons) _ _ Ni).
    - cbn. apply (map_nth_error (fun p : list (list R) => nth t p [])).
      exact (map_nth_error (place nkeys (length times) lat) _ _ Nj).
  Qed.

  (** C121.  If all places with data have them for the same hours, and the last place has
      data, then the model has those hours and at each hour and place what was fetched,
      with zeros for places without data ([_partial]: weather services have gaps; at every
      latitude some place must have data). *)
  Theorem meteostat_partial : forall nkeys lats0 lat lons0 lon,
    let lats := lats0 ++ [lat] in let lons := lons0 ++ [lon] in
    let times := map fst (fetch lat lon) in
    times <> [] -> common_hours fetch lats lons times ->
    (forall la, In la lats -> exists lo, In lo lons /\ fetch la lo <> []) ->
    exists data, from_meteostat fetch lats lons nkeys = Ok (data, times) /\ length data = length times /\
      forall t i j la lo, t < length times -> nth_error lats i = Some la -> nth_error lons j = Some lo ->
        exists a b v, nth_error data t = Some a /\ nth_error a i = Some b /\ nth_error b j = Some v /\
          fetched fetch nkeys la lo t = Some v.
  Proof.
    intros nkeys lats0 lat lons0 lon lats lons times NT C D.
    destruct (from_meteostat_ok nkeys lats lons times) as (tm & E & TM); auto.
    { unfold lats. destruct lats0; discriminate. }
    rewrite (TM lats0 lat lons0 lon eq_refl eq_refl) in E. eexists. split; [exact E|]. split.
    - unfold transpose_time. rewrite map_length, seq_length. unfold lats, lons in *.
      destruct (lats0 ++ [lat]) as [|l0 lr] eqn:E1; [destruct lats0; discriminate|].
      destruct (lons0 ++ [lon]) as [|o0 lor] eqn:E2; [destruct lons0; discriminate|].
      cbn [map]. apply (place_length nkeys (l0 :: lr) (o0 :: lor)); cbn; auto.
    - intros t i j la lo T Ni Nj. destruct (transpose_nth nkeys lats lons times t i j la lo C T Ni Nj) as (a & b & A & B & V).
      exists a, b. eexists. split; [exact A|]. split; [exact B|]. split; [exact V|]. unfold fetched, place.
      destruct (C la lo (nth_error_In _ _ Ni) (nth_error_In _ _ Nj)) as [H|H].
      + rewrite H. f_equal. symmetry. apply nth_repeat_lt. auto.
      + assert (LT : t < length (map snd (fetch la lo))) by (rewrite map_length; rewrite <- H, map_length in T; auto).
        destruct (fetch la lo) as [|p l] eqn:F; [cbn in LT; lia|].
        rewrite <- (nth_error_nth' _ (map snd (p :: l)) t []) by auto. rewrite nth_error_map. reflexivity.
  Qed.

  (** C121 is false in general.  Two places with different numbers of hours are an
      error. *)
  Theorem meteostat_gap_refuted : forall nkeys lat lon1 lon2 lons,
    fetch lat lon1 <> [] -> fetch lat lon2 <> [] -> length (fetch lat lon1) <> length (fetch lat lon2) ->
    from_meteostat fetch [lat] (lon1 :: lon2 :: lons) nkeys = Raise ValueError.
  Proof.
    intros nkeys lat lon1 lon2 lons N1 N2 D. unfold from_meteostat. cbn [mapM]. unfold lat_data. cbn [map].
    destruct (fetch lat lon1) as [|p1 l1] eqn:E1; [congruence|]. destruct (fetch lat lon2) as [|p2 l2] eqn:E2; [congruence|].
    cbn [map stack]. set (m := list_max _). clearbody m. cbn [forallb rows_shape fst snd].
    assert (X : Nat.eqb (length (snd p2 :: map snd l2)) (length (snd p1 :: map snd l1)) = false).
    { apply Nat.eqb_neq. cbn in *. rewrite !map_length. lia. }
    rewrite X. reflexivity.
  Qed.
End Proof.
Print Assumptions meteostat_partial.
Print Assumptions meteostat_gap_refuted.

(** C121.  Places whose hours differ: the hours of the last place are taken for all.
    The value fetched at longitude 1 for hour 0 is given for hour 1. *)
Definition shifted (lat lon : R) : list (nat * list R) :=
  if Reqb lon 1 then [(0, [10%R]); (1, [11%R])] else [(1, [20%R]); (2, [21%R])].

Theorem meteostat_hours_refuted : exists data, from_meteostat shifted [50%R] [1%R; 2%R] 1 = Ok (data, [1; 2]) /\
  nth_error data 0 = Some [[[10%R]; [20%R]]] /\
  In (1, [11%R]) (shifted 50 1) /\ ~ In (1, [10%R]) (shifted 50 1).
Proof.
  assert (E1 : shifted 50 1 = [(0, [10%R]); (1, [11%R])]) by (unfold shifted; rewrite Reqb_true by lra; auto).
  assert (E2 : shifted 50 2 = [(1, [20%R]); (2, [21%R])]) by (unfold shifted; rewrite Reqb_false by lra; auto).
  unfold from_meteostat. cbn [mapM]. unfold lat_data. cbn [map]. rewrite E1, E2. cbn.
  rewrite E2. eexists. split; [reflexivity|]. split; [reflexivity|]. split; [auto|].
  intros [H|[H|[]]]; inversion H. lra.
Qed.
Print Assumptions meteostat_hours_refuted.

(** C121.  If the last place has no data, the model has data for two hours and no hours. *)
Definition coastal (lat lon : R) : list (nat * list R) :=
  if Reqb lon 1 then [(0, [10%R]); (1, [11%R])] else [].

Theorem meteostat_last_refuted : from_meteostat coastal [50%R] [1%R; 2%R] 1 =
  Ok ([[[[10%R]; [0%R]]]; [[[11%R]; [0%R]]]], []).
Proof.
  assert (E1 : coastal 50 1 = [(0, [10%R]); (1, [11%R])]) by (unfold coastal; rewrite Reqb_true by lra; auto).
  assert (E2 : coastal 50 2 = []) by (unfold coastal; rewrite Reqb_false by lra; auto).
  unfold from_meteostat. cbn [mapM]. unfold lat_data. cbn [map]. rewrite E1, E2. cbn. rewrite E2. reflexivity.
Qed.
Print Assumptions meteostat_last_refuted.

(** In the other order it is as it should be, apart from the zeros. *)
Example meteostat_case : from_meteostat coastal [50%R] [2%R; 1%R] 1 =
  Ok ([[[[0%R]; [10%R]]]; [[[0%R]; [11%R]]]], [0; 1]) /\
  common_hours coastal [50%R] [2%R; 1%R] [0; 1].
Proof.
  assert (E1 : forall la, coastal la 1 = [(0, [10%R]); (1, [11%R])]) by (intros; unfold coastal; rewrite Reqb_true by lra; auto).
  assert (E2 : forall la, coastal la 2 = []) by (intros; unfold coastal; rewrite Reqb_false by lra; auto).
  split.
  - unfold from_meteostat. cbn [mapM]. unfold lat_data. cbn [map]. rewrite E1, E2. cbn. rewrite E1. reflexivity.
  - intros lat lon _ [<-|[<-|[]]]; rewrite ?E1, ?E2; auto.
Qed.
