(** * Properties of the regressors (C61) *)

From Coq Require Import List Bool Arith ZArith Reals Lra Lia.
From Verif Require Import Py Num ModelFunModel ModelFunProps RegrModel.
Import ListNotations.
Open Scope R_scope.

Definition ones (n : nat) : list R := repeat 1 n.

Lemma ones_length : forall n, length (ones n) = n.
Proof. intros. apply repeat_length. Qed.

Lemma ones_snoc : forall n, ones n ++ [1] = ones (S n).
Proof. unfold ones. induction n; simpl; auto. f_equal. auto. Qed.

Lemma a_of_ones : forall n i, (i < n)%nat -> a_of (ones n) i = 1.
Proof. unfold a_of, ones. induction n; intros [|i] H; simpl; try lia; auto. apply IHn. lia. Qed.

(** C61 (partial: model functions that take [*params]): the search finds the smallest number
    of parameters the function accepts. *)
Theorem regressor_start_partial : forall f n, (positional f < 3)%nat ->
  (forall m, (m < n)%nat -> mcall f 0 0 (ones m) = Raise IndexError \/ mcall f 0 0 (ones m) = Raise TypeError) ->
  (exists v, mcall f 0 0 (ones n) = Ok v) ->
  exists fuel, lsq_init fuel f None = Ok (ones n).
Proof.
  intros f n HP HS [v HV]. exists n. unfold lsq_init. rewrite (proj2 (Nat.ltb_lt _ _) HP).
  assert (forall k m, (m + k = n)%nat -> determine_params k f (ones m) = Ok (ones n)) as G.
  { induction k; intros m E.
    - assert (m = n) as -> by lia. cbn [determine_params]. rewrite HV. auto.
    - cbn [determine_params]. destruct (HS m ltac:(lia)) as [-> | ->]; rewrite ones_snoc; apply IHk; lia. }
  apply (G n 0%nat). lia.
Qed.
Print Assumptions regressor_start_partial.

(** C61: the start values of the predefined functions; the functions can be evaluated there. *)
Theorem regressor_start_builtin :
  (exists fuel, lsq_init fuel ws_concave_dt_wa None = Ok (ones 11)) /\
  (exists fuel, lsq_init fuel ws_wa_s_dt None = Ok (ones 14)) /\
  (exists fuel, lsq_init fuel ws_s_dt_wa_gauss None = Ok (ones 10)) /\
  (exists fuel, lsq_init fuel ws_s_wa_gauss_and_square None = Ok (ones 10)) /\
  forall x y, (exists v, mcall ws_concave_dt_wa x y (ones 11) = Ok v) /\ (exists v, mcall ws_wa_s_dt x y (ones 14) = Ok v) /\
    (exists v, mcall ws_s_dt_wa_gauss x y (ones 10) = Ok v) /\ (exists v, mcall ws_s_wa_gauss_and_square x y (ones 10) = Ok v).
Proof.
  assert (forall x y, (exists v, mcall ws_concave_dt_wa x y (ones 11) = Ok v) /\ (exists v, mcall ws_wa_s_dt x y (ones 14) = Ok v) /\
    (exists v, mcall ws_s_dt_wa_gauss x y (ones 10) = Ok v) /\ (exists v, mcall ws_s_wa_gauss_and_square x y (ones 10) = Ok v)) as V.
  { intros x y.
    destruct (model_functions_documented (ones 11) x y) as [H1 _].
    destruct (model_functions_documented (ones 14) x y) as [_ [H2 _]].
    destruct (model_functions_documented (ones 10) x y) as [_ [_ [H3 _]]].
    rewrite ones_length in *. rewrite !a_of_ones in H3 by lia.
    destruct (H3 ltac:(lia) ltac:(lra) ltac:(lra)) as [H4 H5].
    specialize (H1 ltac:(lia)). specialize (H2 ltac:(lia)). eauto 10. }
  destruct (V 0 0) as [V1 [V2 [V3 V4]]].
  split; [|split; [|split; [|split; [|auto]]]]; apply regressor_start_partial; auto; try (cbn; lia);
    intros m Hm; left; destruct (model_functions_too_few (ones m) 0 0) as [T1 [T2 T3]]; rewrite ones_length in *; auto.
  - apply T3; auto. destruct (Nat.ltb_spec m 7); auto. right. rewrite a_of_ones by lia. lra.
  - apply T3; auto. destruct (Nat.ltb_spec m 7); auto. right. rewrite a_of_ones by lia. lra.
Qed.
Print Assumptions regressor_start_builtin.

(** C61, refuted part: for a model function with named parameters two initial values too many
    are used, so that fitting raises TypeError whatever the data; the predefined function
    [ws_times_wa] is one. *)
Theorem regressor_start_refuted :
  (forall solve f data fuel init, (3 <= positional f)%nat -> variadic f = false -> data <> [] ->
     lsq_init fuel f None = Ok init ->
     length init = (positional f - 2 + 2)%nat /\ lsq_fit solve f init data = Raise TypeError) /\
  ((3 <= positional ws_times_wa)%nat /\ variadic ws_times_wa = false /\ mcall ws_times_wa 2 3 [1] = Ok 6).
Proof.
  split.
  - intros solve f data fuel init HP HV HD HI. unfold lsq_init in HI.
    rewrite (proj2 (Nat.ltb_ge _ _) HP) in HI. injection HI as <-. split; [rewrite repeat_length; lia|].
    destruct data as [|r data]; [congruence|]. unfold lsq_fit. cbn [map mapM fst snd].
    assert (forall x y, mcall f x y (repeat 1 (positional f)) = Raise TypeError) as ->; [|reflexivity].
    intros x y. unfold mcall. rewrite repeat_length, HV.
    rewrite (proj2 (Nat.ltb_ge (2 + positional f) (positional f))) by lia.
    rewrite (proj2 (Nat.ltb_lt (positional f) (2 + positional f))) by lia. auto.
  - split; [cbn; lia|]. split; auto. cbn. unfold times. f_equal. lra.
Qed.
Print Assumptions regressor_start_refuted.

(** The orthogonal distance regressor refuses data of another shape and no data. *)
Theorem odr_refuses : forall solve f init width data, (width <> 3%nat \/ data = []) ->
  odr_fit solve f init width data = Raise ValueError.
Proof.
  intros solve f init width data [H| ->]; unfold odr_fit.
  - rewrite (proj2 (Nat.eqb_neq width 3) H). auto.
  - destruct (negb _); auto.
Qed.
Print Assumptions odr_refuses.

(** Both regressors evaluate the model function at the wind speed and wind angle of every row
    before the optimisation gets the winds and boat speeds; the first failure is the outcome. *)
Theorem fit_evaluates : forall solve f init (data : list (R * R * R)),
  ((forall s a b, In (s, a, b) data -> exists v, mcall f s a init = Ok v) ->
   exists winds speeds, length winds = length data /\ length speeds = length data /\
     (forall i s a b, nth_error data i = Some (s, a, b) ->
        nth_error winds i = Some (s, a) /\ nth_error speeds i = Some b) /\
     lsq_fit solve f init data = solve f winds speeds init /\
     (data <> [] -> odr_fit solve f init 3 data = solve f winds speeds init)) /\
  (forall l1 s a b l2 e, data = l1 ++ (s, a, b) :: l2 ->
     (forall s' a' b', In (s', a', b') l1 -> exists v, mcall f s' a' init = Ok v) -> mcall f s a init = Raise e ->
     lsq_fit solve f init data = Raise e /\ odr_fit solve f init 3 data = Raise e).
Proof.
  intros solve f init data.
  set (X := map (fun r : R * R * R => (fst (fst r), snd (fst r))) data).
  split.
  - intros V. exists X, (map snd data). split; [apply map_length|]. split; [apply map_length|]. split.
    { intros i s a b H. unfold X. rewrite !nth_error_map, H. auto. }
    assert (exists l, mapM (fun w => mcall f (fst w) (snd w) init) X = Ok l) as [l E].
    { unfold X. clear X. induction data as [|[[s a] b] data IH]; [eexists; reflexivity|]. cbn [map mapM fst snd].
      destruct (V s a b) as [v Ev]; [left; auto|]. rewrite Ev. cbn [rbind].
      destruct IH as [l El]; [intros s' a' b' H; apply (V s' a' b'); right; auto|]. rewrite El. cbn [rbind]. eauto. }
    split.
    + unfold lsq_fit. fold X. rewrite E. reflexivity.
    + intros NE. unfold odr_fit. cbn [Nat.eqb negb]. destruct data; [contradiction|]. fold X. rewrite E. reflexivity.
  - intros l1 s a b l2 e -> V F.
    assert (mapM (fun w => mcall f (fst w) (snd w) init) X = Raise e) as E.
    { unfold X. clear X. induction l1 as [|[[s' a'] b'] l1 IH]; cbn [app map mapM fst snd].
      - rewrite F. reflexivity.
      - destruct (V s' a' b') as [v Ev]; [left; auto|]. rewrite Ev. cbn [rbind]. rewrite IH; [reflexivity|].
        intros s1 a1 b1 H. apply (V s1 a1 b1). right. auto. }
    split.
    + unfold lsq_fit. fold X. rewrite E. reflexivity.
    + unfold odr_fit. cbn [Nat.eqb negb]. fold X. rewrite E. destruct l1; reflexivity.
Qed.
Print Assumptions fit_evaluates.

(** A function that fails for wind angles below 10. *)
Example fit_evaluates_case : forall solve,
  let f := mkMF 2 true (fun x y _ => if Rltb y 10 then Raise ValueError else Ok (x * y)) in
  lsq_fit solve f [1] [(4, 90, 6); (5, 5, 1)] = Raise ValueError.
Proof. intros solve f. unfold lsq_fit. cbn. rewrite Rltb_false by lra. cbn. rewrite Rltb_true by lra. reflexivity. Qed.

Example regressor_start_meets : lsq_init 0 ws_times_wa None = Ok [1; 1; 1] /\
  (forall solve, lsq_fit solve ws_times_wa [1; 1; 1] [(4, 90, 6)] = Raise TypeError).
Proof. auto. Qed.
