(** * Properties C01-C06: wind conversion and norms *)

From Coq Require Import List Bool Arith ZArith Reals Lra Lia.
From Verif Require Import Py Num Trig WindModel WindSpec WindProofs.
Import ListNotations.
Open Scope R_scope.

(** C01.  True -> apparent -> true wind gives back speed, angle modulo 360 and
    boat speed, if the wind blows and the apparent wind does not vanish. *)
Theorem true_apparent_true : forall ws wa bsp,
  0 < ws -> along ws wa + bsp <> 0 \/ across ws wa <> 0 ->
  exists aws awa,
    snd (convert_true_wind_to_apparent true (Arr2 3 [[ws; wa; bsp]])) = Ok [(aws, Some awa, bsp)] /\
    snd (convert_apparent_wind_to_true true (Arr2 3 [[aws; awa; bsp]])) =
      Ok [(ws, Some (nmod wa 360), bsp)].
Proof.
  intros ws wa bsp H1 H2.
  destruct (round_trip TO_APPARENT ws wa bsp H1) as [c [a [E1 E2]]].
  { simpl. replace (1 * bsp) with bsp by ring. exact H2. }
  exists c, a. split.
  - unfold convert_true_wind_to_apparent. rewrite convert_wind_ok.
    + simpl. rewrite E1. reflexivity.
    + intros r [<-|[]]. simpl. lra.
  - unfold convert_apparent_wind_to_true. rewrite convert_wind_ok.
    + simpl. simpl in E2. rewrite E2. reflexivity.
    + intros r [<-|[]]. simpl.
      destruct (convert_row_vector TO_APPARENT ws wa bsp c a bsp ltac:(lra) E1). lra.
Qed.
Print Assumptions true_apparent_true.

(** C02.  The same in the other order. *)
Theorem apparent_true_apparent : forall ws wa bsp,
  0 < ws -> along ws wa - bsp <> 0 \/ across ws wa <> 0 ->
  exists tws twa,
    snd (convert_apparent_wind_to_true true (Arr2 3 [[ws; wa; bsp]])) = Ok [(tws, Some twa, bsp)] /\
    snd (convert_true_wind_to_apparent true (Arr2 3 [[tws; twa; bsp]])) =
      Ok [(ws, Some (nmod wa 360), bsp)].
Proof.
  intros ws wa bsp H1 H2.
  destruct (round_trip TO_TRUE ws wa bsp H1) as [c [a [E1 E2]]].
  { simpl. replace (along ws wa + -1 * bsp) with (along ws wa - bsp) by ring. exact H2. }
  exists c, a. split.
  - unfold convert_apparent_wind_to_true. rewrite convert_wind_ok.
    + simpl. rewrite E1. reflexivity.
    + intros r [<-|[]]. simpl. lra.
  - unfold convert_true_wind_to_apparent. rewrite convert_wind_ok.
    + simpl. simpl in E2. rewrite E2. reflexivity.
    + intros r [<-|[]]. simpl.
      destruct (convert_row_vector TO_TRUE ws wa bsp c a bsp ltac:(lra) E1). lra.
Qed.
Print Assumptions apparent_true_apparent.

(** Hypotheses met: wind from abeam, 10 knots, boat speed 5. *)
Example round_trip_example : 0 < 10 /\ (along 10 90 + 5 <> 0 \/ across 10 90 <> 0).
Proof.
  split; [lra|]. left. unfold along. rewrite deg2rad_90, cos_PI2. lra.
Qed.

(** C03.  The converted wind is the vector sum of wind and boat speed. *)
Theorem conversion_is_vector_sum : forall d ws wa bsp cws cwa b,
  0 <= ws -> convert_row d ws wa bsp = (cws, Some cwa, b) ->
  b = bsp /\ 0 < cws /\ 0 <= cwa <= 360 /\
  along cws cwa = along ws wa + match d with TO_TRUE => - bsp | TO_APPARENT => bsp end /\
  across cws cwa = across ws wa /\
  (0 < ws -> cwa < 360).
Proof.
  intros d ws wa bsp cws cwa b H E.
  destruct (convert_row_vector d ws wa bsp cws cwa b H E) as [A [B [C [D [F G]]]]].
  repeat (split; [assumption|]). split; [|split; assumption].
  rewrite D. destruct d; simpl; ring.
Qed.
Print Assumptions conversion_is_vector_sum.

(** C03.  The angle is undefined exactly if the sum vector vanishes. *)
Theorem conversion_undefined_iff : forall d ws wa bsp cws b,
  convert_row d ws wa bsp = (cws, None, b) <->
  cws = 0 /\ b = bsp /\
  along ws wa + match d with TO_TRUE => - bsp | TO_APPARENT => bsp end = 0 /\ across ws wa = 0.
Proof.
  intros. rewrite convert_row_nan.
  replace (dir_value d * bsp) with (match d with TO_TRUE => - bsp | TO_APPARENT => bsp end)
    by (destruct d; simpl; ring).
  reflexivity.
Qed.
Print Assumptions conversion_undefined_iff.

Example conversion_example : forall cws cwa b,
  convert_row TO_APPARENT 4 90 3 = (cws, cwa, b) -> cws = 5 /\ b = 3.
Proof.
  intros cws cwa b H. unfold convert_row in H. inversion H as [[A B C]]. split; auto.
  unfold convert_wind_speed. rewrite nmod_small by lra. rewrite deg2rad_90, cos_PI2.
  apply sqrt_cancel; simpl; lra.
Qed.

(** C03: the closed interval is needed, 360 occurs without wind. *)
Theorem converted_angle_360_refuted : exists d ws wa bsp cws b,
  0 <= ws /\ convert_row d ws wa bsp = (cws, Some 360, b).
Proof.
  exists TO_APPARENT, 0, 270, 3, 3, 3. split; [lra|]. unfold convert_row.
  rewrite nmod_small by lra.
  assert (convert_wind_speed TO_APPARENT 0 (deg2rad 270) 3 = 3) as ->.
  { unfold convert_wind_speed. apply sqrt_cancel; simpl; lra. }
  unfold convert_wind_angle. rewrite Reqb_false by lra. rewrite Rltb_true by lra.
  rewrite clip1_id by (simpl; lra).
  replace ((0 * cos (deg2rad 270) + dir_value TO_APPARENT * 3) / 3) with 1 by (simpl; field).
  rewrite acos_1, rad2deg_0. repeat f_equal. lra.
Qed.
Print Assumptions converted_angle_360_refuted.

(** C04.  Row-wise: each output row depends on its input row only. *)
Theorem conversion_is_rowwise : forall d shared rows,
  (forall r, In r rows -> 0 <= nth 0 r 0) ->
  snd (convert_wind d shared (Arr2 3 rows)) =
  Ok (map (fun r => convert_row d (nth 0 r 0) (nth 1 r 0) (nth 2 r 0)) rows).
Proof. exact convert_wind_ok. Qed.
Print Assumptions conversion_is_rowwise.

(** C04.  The only exception is TypeError, raised exactly for arrays without
    three columns and for negative wind speeds. *)
Theorem conversion_validates : forall d shared wind,
  (forall e, snd (convert_wind d shared wind) = Raise e -> e = TypeError) /\
  ((exists e, snd (convert_wind d shared wind) = Raise e) <->
   ~ (exists rows, wind = Arr2 3 rows /\ forall r, In r rows -> 0 <= nth 0 r 0)).
Proof. exact convert_wind_raises. Qed.
Print Assumptions conversion_validates.

Example validation_example :
  snd (convert_wind TO_TRUE true (Arr2 3 [[1; 2; 3]; [-1; 2; 3]])) = Raise TypeError /\
  snd (convert_wind TO_TRUE true (Arr2 2 [[1; 2]])) = Raise TypeError /\
  snd (convert_wind TO_TRUE true (Arr1 [1; 2; 3])) = Raise TypeError.
Proof.
  split; [|split; reflexivity]. simpl. rewrite (Rltb_false 1 0), (Rltb_true (-1) 0) by lra.
  reflexivity.
Qed.

(** C05 (partial).  The argument is unchanged if it is not a float array, or
    all angles lie in [0,360). *)
Theorem conversion_keeps_argument_partial : forall d shared wind,
  (shared = false \/
   exists rows, wind = Arr2 3 rows /\
     forall r, In r rows -> length r = 3%nat /\ 0 <= nth 1 r 0 < 360) ->
  fst (convert_wind d shared wind) = wind.
Proof. exact convert_wind_array. Qed.
Print Assumptions conversion_keeps_argument_partial.

(** C05 refuted: an angle of 400 in the caller's array becomes 40. *)
Theorem conversion_keeps_argument_refuted : exists rows,
  (forall r, In r rows -> length r = 3%nat /\ 0 <= nth 0 r 0) /\
  fst (convert_wind TO_APPARENT true (Arr2 3 rows)) = Arr2 3 [[10; 40; 5]] /\
  Arr2 3 rows <> Arr2 3 [[10; 40; 5]].
Proof.
  exists [[10; 400; 5]]. split; [|split].
  - intros r [<-|[]]. simpl. split; [reflexivity|lra].
  - simpl. rewrite Rltb_false by lra. simpl.
    rewrite (nmod_unique 400 360 40 1) by lra. reflexivity.
  - intros H. inversion H. lra.
Qed.
Print Assumptions conversion_keeps_argument_refuted.

(** C06.  The value of the scaled norm of a row. *)
Theorem scaled_norm_value :
  (forall vec, scaled_euclidean_norm 2 vec =
     Ok (map (scaled_norm euclidean_norm [1 / 40; 1 / 360]) vec)) /\
  (forall vec, scaled_euclidean_norm 3 vec =
     Ok (map (scaled_norm euclidean_norm [1 / 40; 1 / 360; 1 / 20]) vec)) /\
  (forall x y, scaled_norm euclidean_norm [1 / 40; 1 / 360] [x; y] =
     sqrt ((x / 40) ^ 2 + (y / 360) ^ 2)) /\
  (forall x y z, scaled_norm euclidean_norm [1 / 40; 1 / 360; 1 / 20] [x; y; z] =
     sqrt ((x / 40) ^ 2 + (y / 360) ^ 2 + (z / 20) ^ 2)).
Proof.
  repeat split; intros; unfold scaled_norm, euclidean_norm; f_equal; rewrite nsum_R; simpl; field.
Qed.
Print Assumptions scaled_norm_value.

(** C06.  With nonzero factors the scaled norm satisfies the norm laws. *)
Theorem scaled_norm_is_norm : forall f, (forall x, In x f -> x <> 0) ->
  let n := scaled_norm euclidean_norm f in
  (forall v, 0 <= n v) /\
  (forall v, length v = length f -> n v = 0 -> forall x, In x v -> x = 0) /\
  (forall c v, n (vscale c v) = Rabs c * n v) /\
  (forall u v, length u = length f -> length v = length f -> n (vadd u v) <= n u + n v).
Proof. exact scaled_norm_ok. Qed.
Print Assumptions scaled_norm_is_norm.

Example default_factors_nonzero : forall x, In x [1 / 40; 1 / 360; 1 / 20] -> x <> 0.
Proof. intros x [<-|[<-|[<-|[]]]]; lra. Qed.

(** C06.  Other widths raise NotImplementedError. *)
Theorem scaled_norm_other_widths : forall w vec, (w <> 2 -> w <> 3 ->
  scaled_euclidean_norm w vec = Raise NotImplementedError)%nat.
Proof. intros [|[|[|[|w]]]] vec A B; try reflexivity; lia. Qed.
Print Assumptions scaled_norm_other_widths.
