(** * Properties of the model functions (C82, C132) *)

From Coq Require Import List Bool Arith ZArith Reals Lra Lia.
From Verif Require Import Py Num ModelFunModel.
Import ListNotations.
Open Scope R_scope.

(** The documented formulas; [a i] is the parameter a_i. *)
Definition doc_s (a : nat -> R) i x := a (i + 2)%nat / (1 + exp (a i - a (i + 1)%nat * x)).
Definition doc_gauss (a : nat -> R) i y := a i * exp (- ((y - a (i + 1)%nat) * (y - a (i + 1)%nat)) / (2 * a (i + 2)%nat)).

Definition doc_concave (a : nat -> R) x y :=
  a 0%nat + a 1%nat * x - a 2%nat * x ^ 2 + a 3%nat * y + a 5%nat * (y - a 4%nat) ^ 2 + a 6%nat * x * y
  + a 7%nat * (360 - y) + a 9%nat * ((360 - y) - a 8%nat) ^ 2 + a 10%nat * x * (360 - y).
Definition doc_s_dt (a : nat -> R) x y :=
  doc_s a 0 x - a 3%nat * x ^ 2 + doc_s a 4 y - a 7%nat * y ^ 2 + a 8%nat * x * y
  + doc_s a 9 (360 - y) - a 12%nat * (360 - y) ^ 2 + a 13%nat * x * (360 - y).
Definition doc_s_gauss_dt (a : nat -> R) x y :=
  doc_s a 0 x - a 3%nat * x ^ 2 + doc_gauss a 4 y + doc_gauss a 7 (360 - y).
Definition doc_comb (a : nat -> R) x y :=
  doc_s a 0 x - a 3%nat * x ^ 2 + doc_gauss a 4 y + a 7%nat * x * y + doc_gauss a 8 (360 - y) + a 11%nat * x * (360 - y).
Definition doc_s_gauss (a : nat -> R) x y :=
  doc_s a 0 x + doc_gauss a 3 y + doc_gauss a 6 (360 - y).
Definition doc_square (a : nat -> R) x y :=
  (doc_s a 0 x - a 3%nat * x ^ 2 + x * (doc_gauss a 4 y + doc_gauss a 7 (360 - y))) * y * (360 - y).

(* ------------------------------------------------------------------ *)

Definition a_of (params : list R) (i : nat) : R := nth i params 0.

Lemma py_nth_ok : forall (params : list R) i, (i < length params)%nat -> py_nth params i = Ok (a_of params i).
Proof.
  intros params i H. unfold py_nth, a_of. destruct (nth_error params i) as [x|] eqn:E.
  - rewrite (nth_error_nth _ _ 0 E). auto.
  - apply nth_error_None in E. lia.
Qed.

Lemma py_nth_short : forall (params : list R) i, (length params <= i)%nat -> py_nth params i = Raise IndexError.
Proof. intros params i H. unfold py_nth. apply nth_error_None in H. rewrite H. auto. Qed.

Lemma pars_ok : forall params i n, (i + n <= length params)%nat ->
  pars params i n = Ok (map (a_of params) (seq i n)).
Proof.
  intros params i n. revert i. unfold pars. induction n; intros i H; cbn [seq mapM map]; auto.
  rewrite py_nth_ok by lia. cbn [rbind]. rewrite IHn by lia. auto.
Qed.

Lemma pars_short : forall params i n, (length params < i + n)%nat -> (0 < n)%nat -> pars params i n = Raise IndexError.
Proof.
  intros params i n. revert i. unfold pars. induction n; intros i H HN; cbn [seq mapM]; [lia|].
  destruct (Nat.ltb_spec i (length params)).
  - rewrite py_nth_ok by lia. cbn [rbind]. rewrite IHn by lia. auto.
  - rewrite py_nth_short by lia. auto.
Qed.

Lemma gaussian_ok : forall a x i, a (i + 2)%nat <> 0 ->
  gaussian_model x [a i; a (i + 1)%nat; a (i + 2)%nat] false = Ok (doc_gauss a i x).
Proof.
  intros a x i H. unfold gaussian_model. cbn [py_nth nth_error rbind]. unfold np_div. rnum.
  rewrite Reqb_false by auto. cbn [rbind]. unfold doc_gauss. do 3 f_equal. field. auto.
Qed.

Lemma s_shaped_ok : forall a x i,
  s_shaped x [a i; a (i + 1)%nat; a (i + 2)%nat; a (i + 3)%nat] true = Ok (doc_s a i x - a (i + 3)%nat * x ^ 2).
Proof.
  intros a x i. unfold s_shaped. cbn [py_nth nth_error rbind]. unfold doc_s. f_equal. simpl. lra.
Qed.

Lemma mcall_variadic : forall b ws wa params, mcall (mkMF 2 true b) ws wa params = b ws wa params.
Proof.
  intros. unfold mcall. cbn [positional variadic body].
  assert ((2 + length params <? 2)%nat = false) as -> by (apply Nat.ltb_ge; lia).
  rewrite andb_false_r. auto.
Qed.

Ltac rw H := let Q := fresh in pose proof H as Q; cbn [Nat.add] in Q; rewrite Q; clear Q.
Ltac fetch := repeat first [rewrite pars_ok by lia | rewrite py_nth_ok by lia]; cbn [rbind seq map].

Lemma concave_ok : forall p x, concave_function x [p 0%nat; p 1%nat; p 2%nat] true false = Ok (p 0%nat + p 1%nat * x - p 2%nat * x ^ 2).
Proof.
  intros p x. unfold concave_function, polynomial_function. cbn [andb py_nth nth_error rbind Nat.add seq mapM].
  f_equal. rewrite nsum_R. cbn [Rsum]. simpl. lra.
Qed.

(** C82: the model functions compute the documented formulas from the documented number of
    parameters (where no variance is zero). *)
Theorem model_functions_documented : forall params x y, let a := a_of params in
  ((11 <= length params)%nat -> mcall ws_concave_dt_wa x y params = Ok (doc_concave a x y)) /\
  ((14 <= length params)%nat -> mcall ws_wa_s_dt x y params = Ok (doc_s_dt a x y)) /\
  ((10 <= length params)%nat -> a 6%nat <> 0 -> a 9%nat <> 0 ->
     mcall ws_s_dt_wa_gauss x y params = Ok (doc_s_gauss_dt a x y) /\
     mcall ws_s_wa_gauss_and_square x y params = Ok (doc_square a x y)) /\
  ((12 <= length params)%nat -> a 6%nat <> 0 -> a 10%nat <> 0 ->
     mcall ws_s_s_dt_wa_gauss_comb x y params = Ok (doc_comb a x y)).
Proof.
  intros params x y a. split; [|split; [|split]].
  - intros HL. unfold ws_concave_dt_wa. rewrite ?mcall_variadic. fetch. fold a.
    rewrite (concave_ok a). cbn [rbind]. unfold inverted_shifted_parabola. cbn [py_nth nth_error rbind].
    unfold times, doc_concave. f_equal. ring.
  - intros HL. unfold ws_wa_s_dt. rewrite ?mcall_variadic. fetch. fold a.
    rw (s_shaped_ok a x 0). cbn [rbind]. rw (s_shaped_ok a y 4). cbn [rbind].
    rw (s_shaped_ok a (360 - y) 9). cbn [rbind Nat.add]. unfold times, doc_s_dt. f_equal. cbn [Nat.add]. ring.
  - intros HL H6 H9. unfold ws_s_dt_wa_gauss, ws_s_wa_gauss_and_square. rewrite ?mcall_variadic. fetch. fold a.
    rw (s_shaped_ok a x 0). cbn [rbind]. rw (gaussian_ok a y 4 H6). cbn [rbind].
    rw (gaussian_ok a (360 - y) 7 H9). cbn [rbind Nat.add]. split; f_equal; unfold doc_square; ring.
  - intros HL H6 H9. unfold ws_s_s_dt_wa_gauss_comb. rewrite ?mcall_variadic. fetch. fold a.
    rw (s_shaped_ok a x 0). cbn [rbind]. rw (gaussian_ok a y 4 H6). cbn [rbind].
    rw (gaussian_ok a (360 - y) 8 H9). cbn [rbind Nat.add]. f_equal; unfold doc_comb, times; cbn [Nat.add]; ring.
Qed.
Print Assumptions model_functions_documented.

Example model_functions_meets : let params := [1; 1; 1; 1; 1; 1; 1; 1; 1; 1] in
  (10 <= length params)%nat /\ a_of params 6 <> 0 /\ a_of params 9 <> 0.
Proof. cbn. repeat split; try lia; lra. Qed.

(** C82: the default model function of the curve extension vanishes at 0 and 360 degrees and
    exchanging the parameters of the two bells mirrors it. *)
Theorem default_model_zero : forall params x, (10 <= length params)%nat -> a_of params 6 <> 0 -> a_of params 9 <> 0 ->
  mcall ws_s_wa_gauss_and_square x 0 params = Ok 0 /\ mcall ws_s_wa_gauss_and_square x 360 params = Ok 0.
Proof.
  intros params x HL H6 H9.
  destruct (model_functions_documented params x 0) as [_ [_ [H0 _]]].
  destruct (model_functions_documented params x 360) as [_ [_ [H1 _]]].
  rewrite (proj2 (H0 HL H6 H9)), (proj2 (H1 HL H6 H9)). unfold doc_square. split; f_equal; ring.
Qed.
Print Assumptions default_model_zero.

Theorem default_model_mirrored : forall a0 a1 a2 a3 b0 b1 b2 c0 c1 c2 x y, b2 <> 0 -> c2 <> 0 ->
  mcall ws_s_wa_gauss_and_square x (360 - y) [a0; a1; a2; a3; b0; b1; b2; c0; c1; c2] =
  mcall ws_s_wa_gauss_and_square x y [a0; a1; a2; a3; c0; c1; c2; b0; b1; b2].
Proof.
  intros. destruct (model_functions_documented [a0; a1; a2; a3; b0; b1; b2; c0; c1; c2] x (360 - y)) as [_ [_ [H1 _]]].
  destruct (model_functions_documented [a0; a1; a2; a3; c0; c1; c2; b0; b1; b2] x y) as [_ [_ [H2 _]]].
  rewrite (proj2 (H1 ltac:(simpl; lia) H H0)), (proj2 (H2 ltac:(simpl; lia) H0 H)). f_equal.
  unfold doc_square, doc_s, doc_gauss, a_of. cbn [nth Nat.add]. replace (360 - (360 - y)) with y by ring. ring.
Qed.
Print Assumptions default_model_mirrored.

(** C82: with fewer parameters the functions raise IndexError. *)
Theorem model_functions_too_few : forall params x y,
  ((length params < 11)%nat -> mcall ws_concave_dt_wa x y params = Raise IndexError) /\
  ((length params < 14)%nat -> mcall ws_wa_s_dt x y params = Raise IndexError) /\
  ((length params < 10)%nat -> ((length params < 7)%nat \/ a_of params 6 <> 0) ->
     mcall ws_s_dt_wa_gauss x y params = Raise IndexError /\ mcall ws_s_wa_gauss_and_square x y params = Raise IndexError).
Proof.
  intros params x y. split; [|split].
  - intros HL. unfold ws_concave_dt_wa. rewrite ?mcall_variadic.
    destruct (Nat.ltb_spec (length params) 3); [rewrite (pars_short params 0 3) by lia; auto|]. rewrite (pars_ok params 0 3) by lia. cbn [rbind seq map].
    rewrite (concave_ok (a_of params)). cbn [rbind].
    destruct (Nat.ltb_spec (length params) 6); [rewrite (pars_short params 3 3) by lia; auto|]. rewrite (pars_ok params 3 3) by lia. cbn [rbind seq map].
    unfold inverted_shifted_parabola. cbn [py_nth nth_error rbind].
    destruct (Nat.ltb_spec (length params) 7); [rewrite (py_nth_short params 6) by lia; auto|]. rewrite (py_nth_ok params 6) by lia. cbn [rbind].
    destruct (Nat.ltb_spec (length params) 10); [rewrite (pars_short params 7 3) by lia; auto|]. rewrite (pars_ok params 7 3) by lia. cbn [rbind seq map nth_error].
    rewrite (py_nth_short params 10) by lia. auto.
  - intros HL. unfold ws_wa_s_dt. rewrite ?mcall_variadic.
    destruct (Nat.ltb_spec (length params) 4); [rewrite (pars_short params 0 4) by lia; auto|]. rewrite (pars_ok params 0 4) by lia. cbn [rbind seq map].
    rw (s_shaped_ok (a_of params) x 0). cbn [rbind].
    destruct (Nat.ltb_spec (length params) 8); [rewrite (pars_short params 4 4) by lia; auto|]. rewrite (pars_ok params 4 4) by lia. cbn [rbind seq map].
    rw (s_shaped_ok (a_of params) y 4). cbn [rbind].
    destruct (Nat.ltb_spec (length params) 9); [rewrite (py_nth_short params 8) by lia; auto|]. rewrite (py_nth_ok params 8) by lia. cbn [rbind].
    destruct (Nat.ltb_spec (length params) 13); [rewrite (pars_short params 9 4) by lia; auto|]. rewrite (pars_ok params 9 4) by lia. cbn [rbind seq map].
    rw (s_shaped_ok (a_of params) (360 - y) 9). cbn [rbind].
    rewrite py_nth_short by lia. auto.
  - intros HL H6. unfold ws_s_dt_wa_gauss, ws_s_wa_gauss_and_square. rewrite ?mcall_variadic.
    destruct (Nat.ltb_spec (length params) 4); [rewrite (pars_short params 0 4) by lia; auto|]. rewrite (pars_ok params 0 4) by lia. cbn [rbind seq map].
    rw (s_shaped_ok (a_of params) x 0). cbn [rbind].
    destruct (Nat.ltb_spec (length params) 7); [rewrite (pars_short params 4 3) by lia; auto|]. rewrite (pars_ok params 4 3) by lia. cbn [rbind seq map].
    assert (a_of params 6 <> 0) as N6 by (destruct H6; [lia|auto]). rw (gaussian_ok (a_of params) y 4 N6). cbn [rbind].
    rewrite (pars_short params 7 3) by lia. auto.
Qed.
Print Assumptions model_functions_too_few.

(** C82, refuted part: the documentation of [ws_s_wa_gauss] lists nine parameters, with which
    the function raises IndexError; with more it does not compute the documented formula. *)
Theorem ws_s_wa_gauss_refuted :
  (forall params x y, length params = 9%nat -> mcall ws_s_wa_gauss x y params = Raise IndexError \/ mcall ws_s_wa_gauss x y params = Raise NonFinite) /\
  (exists params, length params = 9%nat /\ mcall ws_s_wa_gauss 0 0 params = Raise IndexError) /\
  (exists params v, length params = 11%nat /\ mcall ws_s_wa_gauss 1 0 params = Ok v /\ v <> doc_s_gauss (a_of params) 1 0).
Proof.
  split; [|split].
  - intros params x y HL.
    destruct params as [|p0 [|p1 [|p2 [|p3 [|p4 [|p5 [|p6 [|p7 [|p8 [|]]]]]]]]]]; try discriminate. clear HL.
    unfold mcall, ws_s_wa_gauss. cbn [length positional variadic body Nat.add Nat.ltb Nat.leb negb andb firstn skipn].
    unfold s_shaped, gaussian_model. cbn [py_nth nth_error rbind]. unfold np_div. rnum.
    destruct (Reqb_spec p6 0); cbn [rbind]; auto.
  - exists [1; 1; 1; 1; 1; 1; 1; 1; 1]. split; auto.
    unfold mcall, ws_s_wa_gauss. cbn [length positional variadic body Nat.add Nat.ltb Nat.leb negb andb firstn skipn].
    unfold s_shaped, gaussian_model. cbn [py_nth nth_error rbind]. unfold np_div. rnum.
    rewrite Reqb_false by lra. auto.
  - exists [0; 0; 0; 1; 0; 1; 1; 0; 1; 0; 1]. eexists. split; auto. split.
    + unfold mcall, ws_s_wa_gauss. cbn [length positional variadic body Nat.add Nat.ltb Nat.leb negb andb firstn skipn].
      unfold s_shaped, gaussian_model. cbn [py_nth nth_error rbind]. unfold np_div. rnum.
      rewrite !Reqb_false by lra. cbn [rbind]. reflexivity.
    + unfold doc_s_gauss, doc_s, doc_gauss, a_of. cbn [nth Nat.add]. intros E.
      assert (0 / (1 + exp (0 - 0 * 1)) = 0) as Z0 by (unfold Rdiv; ring). rewrite Z0 in E.
      assert (exp (- (1 / 2) * ((360 - 0 - 0) * (360 - 0 - 0)) / 1) < 1) as E1.
      { apply Rlt_le_trans with (exp 0); [|rewrite exp_0; lra]. apply exp_increasing. replace (- (1 / 2) * ((360 - 0 - 0) * (360 - 0 - 0)) / 1) with (-64800) by field. lra. }
      pose proof (exp_pos (- ((0 - 0) * (0 - 0)) / (2 * 1))) as E2.
      pose proof (exp_pos (- ((360 - 0 - 0) * (360 - 0 - 0)) / (2 * 1))) as E3. lra.
Qed.
Print Assumptions ws_s_wa_gauss_refuted.

(* ------------------------------------------------------------------ *)
(** ** C132: the functions of one variable *)

(** C132: with enough parameters (and a variance that is not zero) the functions of one variable
    have the documented values, for every choice of the switches; without saturation and
    downturn [concave_function] raises ValueError. *)
Theorem functions_of_one_variable : forall params x, let a := a_of params in
  (forall deg, (deg < length params)%nat ->
     polynomial_function x params deg = Ok (sum_f_R0 (fun i => a i * x ^ i) deg)) /\
  ((3 <= length params)%nat ->
     inverted_parabola x params = Ok (a 1%nat + a 2%nat * (x - a 0%nat) ^ 2) /\
     inverted_shifted_parabola x params = Ok (a 0%nat * x + a 2%nat * (x - a 1%nat) ^ 2) /\
     concave_function x params false true = Ok (a 2%nat - a 0%nat * exp (a 1%nat - x)) /\
     concave_function x params true false = Ok (a 0%nat + a 1%nat * x - a 2%nat * x ^ 2) /\
     s_shaped x params false = Ok (a 2%nat / (1 + exp (a 0%nat - a 1%nat * x))) /\
     (a 2%nat <> 0 ->
        gaussian_model x params false = Ok (a 0%nat * exp (- ((x - a 1%nat) ^ 2 / (2 * a 2%nat)))))) /\
  ((4 <= length params)%nat ->
     concave_function x params true true = Ok (a 2%nat - a 0%nat * exp (a 1%nat - x) - a 3%nat * x ^ 2) /\
     s_shaped x params true = Ok (a 2%nat / (1 + exp (a 0%nat - a 1%nat * x)) - a 3%nat * x ^ 2) /\
     (a 2%nat <> 0 ->
        gaussian_model x params true = Ok (a 0%nat * exp (- ((x - a 1%nat) ^ 2 / (2 * a 2%nat))) + a 3%nat))) /\
  ((7 <= length params)%nat -> a 2%nat <> 0 -> a 5%nat <> 0 ->
     gmm_model x params =
       Ok (a 0%nat * exp (- ((x - a 1%nat) ^ 2 / (2 * a 2%nat))) + a 3%nat * exp (- ((x - a 4%nat) ^ 2 / (2 * a 5%nat))) + a 6%nat)) /\
  concave_function x params false false = Raise ValueError.
Proof.
  intros params x a.
  assert (forall p : list R, (3 <= length p)%nat -> a_of p 2 <> 0 ->
    gaussian_model x p false = Ok (a_of p 0 * exp (- ((x - a_of p 1) ^ 2 / (2 * a_of p 2))))) as G.
  { intros p HL H2. unfold gaussian_model. rewrite !py_nth_ok by lia. cbn [rbind]. unfold np_div. rnum.
    rewrite Reqb_false by auto. cbn [rbind]. do 3 f_equal. field. auto. }
  split; [|split; [|split; [|split]]].
  - intros deg HL. unfold polynomial_function.
    rewrite (mapM_Ok_map _ _ _ (fun i => a i * x ^ i)).
    + cbn [rbind]. f_equal. rewrite nsum_R. clear HL. rewrite Nat.add_1_r. induction deg; [cbn; ring|].
      rewrite seq_S, map_app, Rsum_app, IHdeg. cbn [sum_f_R0 map Rsum Nat.add]. ring.
    + intros i Hi. apply in_seq in Hi. rewrite py_nth_ok by lia. reflexivity.
  - intros HL. unfold inverted_parabola, inverted_shifted_parabola, concave_function, s_shaped. cbn [andb].
    rewrite !py_nth_ok by lia. cbn [rbind].
    repeat split; try (f_equal; unfold a; ring).
    + unfold polynomial_function. cbn [Nat.add seq mapM py_nth nth_error rbind]. f_equal. rewrite nsum_R. cbn [Rsum]. unfold a. ring.
    + intros H2. apply G; auto.
  - intros HL. unfold concave_function, s_shaped. cbn [andb]. rewrite !py_nth_ok by lia. cbn [rbind].
    repeat split; try (f_equal; unfold a; ring). intros H2. specialize (G params ltac:(lia) H2).
    unfold gaussian_model in *. rewrite !py_nth_ok in * by lia. cbn [rbind] in *.
    destruct (np_div _ _); [|discriminate]. cbn [rbind] in *. injection G as ->. reflexivity.
  - intros HL H2 H5. unfold gmm_model. rewrite G by (auto; lia). cbn [rbind].
    assert (forall i, a_of (skipn 3 params) i = a (3 + i)%nat) as SK.
    { intros i. unfold a, a_of. destruct params as [|p0 [|p1 [|p2 l]]]; cbn [skipn]; try (cbn in HL; lia). reflexivity. }
    rewrite G by (rewrite ?SK, ?skipn_length; auto; lia). cbn [rbind]. rewrite py_nth_ok by lia. cbn [rbind]. rewrite !SK. reflexivity.
  - reflexivity.
Qed.
Print Assumptions functions_of_one_variable.

(** C132: with fewer parameters they raise IndexError. *)
Theorem functions_too_few : forall params x,
  (forall deg, (length params <= deg)%nat -> polynomial_function x params deg = Raise IndexError) /\
  ((length params < 3)%nat ->
     inverted_parabola x params = Raise IndexError /\ inverted_shifted_parabola x params = Raise IndexError /\
     (forall downturn sat_limit, downturn || sat_limit = true ->
        concave_function x params downturn sat_limit = Raise IndexError) /\
     (forall downturn, s_shaped x params downturn = Raise IndexError) /\
     (forall offset, gaussian_model x params offset = Raise IndexError) /\
     (forall neg, gompertz_model x params neg = Raise IndexError)) /\
  (length params = 3%nat ->
     concave_function x params true true = Raise IndexError /\ s_shaped x params true = Raise IndexError /\
     (a_of params 2 <> 0 -> gaussian_model x params true = Raise IndexError)).
Proof.
  intros params x. split; [|split].
  - intros deg HL. unfold polynomial_function.
    assert (forall n s, (length params < s + n)%nat ->
      mapM (fun i => do p <- py_nth params i; Ok (p * x ^ i)) (seq s n) = Raise IndexError \/ n = 0%nat) as M.
    { induction n; intros s H; [auto|left]. cbn [seq mapM]. destruct (Nat.ltb_spec s (length params)).
      - rewrite py_nth_ok by lia. cbn [rbind]. destruct (IHn (S s) ltac:(lia)) as [->|]; auto. lia.
      - rewrite py_nth_short by lia. auto. }
    destruct (M (deg + 1)%nat 0%nat ltac:(lia)) as [->|]; auto. lia.
  - intros HL. unfold inverted_parabola, inverted_shifted_parabola, concave_function, s_shaped, gaussian_model, gompertz_model.
    destruct params as [|p0 [|p1 [|p2 l]]]; cbn [length] in HL; try lia; cbn [py_nth nth_error rbind];
      repeat split; intros; repeat match goal with b : bool |- _ => destruct b end; try discriminate; reflexivity.
  - intros HL. destruct params as [|p0 [|p1 [|p2 [|]]]]; cbn [length] in HL; try lia.
    unfold concave_function, s_shaped, gaussian_model. cbn [andb py_nth nth_error rbind a_of nth]. repeat split; auto.
    intros H. unfold np_div. rnum. rewrite Reqb_false by auto. reflexivity.
Qed.
Print Assumptions functions_too_few.

(** C132: for [a_0 > 0], [a_1] between 0 and 1 and [a_2 > 0] the Gompertz function grows from
    [a_2 exp(-a_0)] at 0 and stays below [a_2]; with [neg] the sign of [a_1] is changed. *)
Theorem gompertz_grows : forall a0 a1 a2 more x y, 0 < a0 -> 0 < a1 < 1 -> 0 < a2 -> x < y ->
  exists u v, gompertz_model x (a0 :: a1 :: a2 :: more) false = Ok u /\
    gompertz_model y (a0 :: a1 :: a2 :: more) false = Ok v /\ 0 < u < v /\ v < a2 /\
    gompertz_model 0 (a0 :: a1 :: a2 :: more) false = Ok (a2 * exp (- a0)) /\
    gompertz_model x (a0 :: - a1 :: a2 :: more) true = Ok u.
Proof.
  intros a0 a1 a2 more x y H0 H1 H2 HXY. unfold gompertz_model, np_power. cbn [py_nth nth_error rbind].
  rewrite Ropp_involutive, Rltb_true by lra. cbn [rbind]. do 2 eexists. split; [reflexivity|]. split; [reflexivity|].
  assert (ln a1 < 0) as L by (rewrite <- ln_1; apply ln_increasing; lra).
  assert (exp (y * ln a1) < exp (x * ln a1)) as E by (apply exp_increasing; nra).
  pose proof (exp_pos (x * ln a1)) as PX. pose proof (exp_pos (y * ln a1)) as PY.
  assert (exp (- a0 * exp (x * ln a1)) < exp (- a0 * exp (y * ln a1))) as E2 by (apply exp_increasing; nra).
  assert (exp (- a0 * exp (y * ln a1)) < 1) as E3 by (rewrite <- exp_0; apply exp_increasing; nra).
  pose proof (exp_pos (- a0 * exp (x * ln a1))).
  split; [split; nra|]. split; [nra|]. split; [|reflexivity].
  rewrite Rmult_0_l, exp_0, Rmult_1_r. reflexivity.
Qed.
Print Assumptions gompertz_grows.

(** C132: at whole numbers the base may have any sign, and 0^0 is 1. *)
Theorem gompertz_powers : forall a0 a1 a2 more n,
  gompertz_model (INR n) (a0 :: a1 :: a2 :: more) false = Ok (a2 * exp (- a0 * a1 ^ n)) /\
  gompertz_model (INR n) (a0 :: a1 :: a2 :: more) true = Ok (a2 * exp (- a0 * (- a1) ^ n)).
Proof.
  assert (forall b n, np_power b (INR n) = Ok (b ^ n)) as PW.
  { intros b n. assert (forall c, 0 < c -> exp (INR n * ln c) = c ^ n) as EX by (intros c P; exact (Rpower_pow n c P)).
    unfold np_power. destruct (Rltb_spec 0 b) as [P|P]; [rewrite EX by auto; reflexivity|].
    destruct (Reqb_spec b 0) as [->|N].
    - destruct n as [|n].
      + cbn [INR pow]. rewrite Rltb_false by lra. rewrite Reqb_true by auto. reflexivity.
      + rewrite Rltb_true by (apply lt_0_INR; lia). rewrite pow_i by lia. reflexivity.
    - assert (Int_part (INR n) = Z.of_nat n) as IP .
      { rewrite INR_IZR_INZ. pose proof (base_Int_part (IZR (Z.of_nat n))) as [B1 B2].
        assert (Int_part (IZR (Z.of_nat n)) <= Z.of_nat n)%Z by (apply le_IZR; auto).
        assert (Z.of_nat n < Int_part (IZR (Z.of_nat n)) + 1)%Z by (apply lt_IZR; rewrite plus_IZR; lra). lia. }
      rewrite IP, <- INR_IZR_INZ, Reqb_true by auto. f_equal. rewrite EX by lra.
      destruct (Z.even (Z.of_nat n)) eqn:EV.
      + apply Z.even_spec in EV. destruct EV as [k EV]. assert (n = 2 * Z.to_nat k)%nat as -> by lia. rewrite !pow_mult.
        replace (b ^ 2) with ((- b) ^ 2) by ring. ring.
      + assert (Z.odd (Z.of_nat n) = true) as OD by (rewrite <- Z.negb_even, EV; reflexivity). apply Z.odd_spec in OD. destruct OD as [k OD].
        assert (n = S (2 * Z.to_nat k)) as -> by lia. cbn [pow]. rewrite !pow_mult. replace (b ^ 2) with ((- b) ^ 2) by ring. ring. }
  intros a0 a1 a2 more n. unfold gompertz_model. cbn [py_nth nth_error rbind]. rewrite !PW. auto.
Qed.
Print Assumptions gompertz_powers.
Example gompertz_powers_meets : gompertz_model (INR 0) [1; 0; 2] false = Ok (2 * exp (-1)) /\ gompertz_model (INR 3) [1; -1; 2] false = Ok (2 * exp 1).
Proof. destruct (gompertz_powers 1 0 2 [] 0) as [-> _], (gompertz_powers 1 (-1) 2 [] 3) as [-> _]. split; do 3 f_equal; cbn; lra. Qed.

Example functions_of_one_variable_meets : let params := [1; 2; 3; 4; 5; 6; 7] in
  (7 <= length params)%nat /\ a_of params 2 <> 0 /\ a_of params 5 <> 0 /\
  polynomial_function 2 params 2 = Ok 17.
Proof.
  intros params. cbn [length params a_of nth]. repeat split; try lia; try (unfold a_of; cbn; lra).
  rewrite (proj1 (functions_of_one_variable params 2)) by (cbn; lia). f_equal. unfold a_of. cbn. lra.
Qed.
