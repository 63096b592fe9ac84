(** * Properties C77, C78, C101, C107 and C110: [isochrone] and [cost_cruise] *)

From Coq Require Import String List Bool Arith ZArith Reals Lra Lia Psatz Sorted FunctionalExtensionality.
From Verif Require Import Py Num Dict Trig PySort ListX InterpModel GlobeModel GlobeProofs GlobeProps CruiseModel CruiseSpec ConvexProofs ConvexProps CruiseProps.
Import ListNotations.
Open Scope string_scope.
Open Scope list_scope.
Open Scope R_scope.

(** ** The loop *)

Section Loop.
  Variables (dt : R -> R -> result R) (f : R -> R -> R) (T : R) (m : Z).
  Hypothesis DT : forall s t, dt s t = Ok (f s t).
  Hypothesis TP : 0 < T.
  Hypothesis MP : (1 <= m)%Z.

  Lemma euler_step : forall h n, euler f h n + f (INR n * h) (euler f h n) * h = euler f h (S n).
  Proof. intros. cbn [euler]. ring. Qed.

  Lemma INR_step : forall h n, INR n * h + h = INR (S n) * h.
  Proof. intros. rewrite S_INR. ring. Qed.

  Lemma iso_loop_sound : forall fuel h n der r, 0 < h ->
    (n = O \/ exists k, n = S k /\ der = f (INR k * h) (euler f h k) /\ euler f h k < T) ->
    iso_loop fuel dt T m h (INR n * h) (euler f h n) (Z.of_nat n) der = Ok r ->
    exists h' k, 0 < h' /\ (m <= Z.of_nat (S k))%Z /\
      r = (INR (S k) * h', euler f h' (S k), f (INR k * h') (euler f h' k)) /\
      euler f h' k < T <= euler f h' (S k).
  Proof.
    induction fuel as [|fuel IH]; intros h n der r H INV E; cbn [iso_loop] in E.
    - destruct (Rltb_spec (euler f h n) T) as [A|A]; cbn [orb] in E; [discriminate|].
      destruct (Z.ltb_spec (Z.of_nat n) m) as [B|B]; [discriminate|]. injection E as <-.
      destruct INV as [-> | [k [-> [-> K]]]]; [cbn in B; lia|]. exists h, k. repeat split; auto; lra.
    - destruct (Rltb_spec (euler f h n) T) as [A|A]; cbn [orb] in E.
      + rewrite Rleb_false in E by lra. rewrite DT in E. cbn [rbind] in E.
        rewrite euler_step, INR_step in E. replace (Z.of_nat n + 1)%Z with (Z.of_nat (S n)) in E by lia.
        apply IH in E; auto. right. exists n. auto.
      + destruct (Z.ltb_spec (Z.of_nat n) m) as [B|B].
        * rewrite Rleb_true in E by lra.
          assert (n <> O) as NZ by (intros ->; cbn in A; lra).
          assert (0 < h * (IZR (Z.of_nat n) / IZR m)) as H'.
          { apply Rmult_lt_0_compat; auto. apply Rdiv_lt_0_compat; apply IZR_lt; lia. }
          apply (IH _ O der r H'); auto. cbn [INR euler Z.of_nat]. rewrite Rmult_0_l. exact E.
        * injection E as <-. destruct INV as [-> | [k [-> [-> K]]]]; [cbn in B; lia|]. exists h, k. repeat split; auto; lra.
  Qed.

  (** More fuel does not change the outcome. *)
  Lemma iso_loop_fuel : forall fuel fuel' h s t steps der r, (fuel <= fuel')%nat ->
    iso_loop fuel dt T m h s t steps der = Ok r -> iso_loop fuel' dt T m h s t steps der = Ok r.
  Proof.
    induction fuel as [|fuel IH]; intros [|fuel'] h s t steps der r L E; cbn [iso_loop] in *; try lia; auto.
    - destruct (Rltb t T || Z.ltb steps m)%bool; [discriminate|auto].
    - destruct (Rltb t T || Z.ltb steps m)%bool; auto. destruct (Rleb T t).
      + eapply IH; eauto. lia.
      + destruct (dt s t); [|discriminate]. cbn [rbind] in *. eapply IH; eauto. lia.
  Qed.

  Definition ends (h s t : R) (steps : Z) (der : R) : Prop :=
    exists fuel r, iso_loop fuel dt T m h s t steps der = Ok r.

  (** Bounds for the time needed per mile. *)
  Variables (lo hi : R).
  Hypothesis LO : 0 < lo.
  Hypothesis BD : forall s t, lo <= f s t <= hi.

  Lemma hi_pos : 0 < hi. Proof. pose proof (BD 0 0). lra. Qed.

  (** One pass: the loop reaches the time [T]; then it ends, or starts again. *)
  Lemma pass_ends : forall h, 0 < h ->
    (forall steps der, (1 <= steps < m)%Z -> T <= hi * h * IZR steps -> ends (h * (IZR steps / IZR m)) 0 0 0 der) ->
    forall N s t steps der, T - t <= INR N * (lo * h) -> (0 <= steps)%Z -> t <= hi * h * IZR steps ->
    ends h s t steps der.
  Proof.
    intros h H RE. induction N as [|N IH]; intros s t steps der D ST TT.
    - cbn in D. destruct (Z.ltb_spec steps m) as [B|B].
      + assert (1 <= steps)%Z. { destruct (Z.eq_dec steps 0) as [->|]; [|lia]. exfalso. simpl in TT. nra. }
        destruct (RE steps der) as [fuel [r E]]; [lia|lra|]. exists (S fuel), r. cbn [iso_loop].
        rewrite Rltb_false by lra. destruct (Z.ltb_spec steps m); [|lia]. cbn [orb]. rewrite Rleb_true by lra. exact E.
      + exists O, (s, t, der). cbn [iso_loop]. rewrite Rltb_false by lra. destruct (Z.ltb_spec steps m); [lia|]. reflexivity.
    - destruct (Rlt_dec t T) as [L|L].
      + destruct (BD s t) as [B1 B2]. pose proof hi_pos.
        destruct (IH (s + h) (t + f s t * h) (steps + 1)%Z (f s t)) as [fuel [r E]].
        * rewrite S_INR in D. nra.
        * lia.
        * rewrite plus_IZR. nra.
        * exists (S fuel), r. cbn [iso_loop]. rewrite Rltb_true by auto. cbn [orb]. rewrite Rleb_false by lra. rewrite DT. exact E.
      + apply (IH s t steps der); auto. assert (0 <= INR N * (lo * h)) by (apply Rmult_le_pos; [apply pos_INR|nra]). lra.
  Qed.

  Lemma nat_above : forall x, exists N, x <= INR N.
  Proof.
    intros x. exists (Z.to_nat (up x)). destruct (archimed x) as [A _].
    destruct (Z.le_gt_cases 0 (up x)) as [L|L].
    - rewrite INR_IZR_INZ, Z2Nat.id by auto. lra.
    - apply IZR_lt in L. pose proof (pos_INR (Z.to_nat (up x))). simpl in L. lra.
  Qed.

  Lemma start_ends : forall r h, 0 < h -> h * ((IZR m - 1) / IZR m) ^ r * hi * IZR m <= T ->
    forall der, ends h 0 0 0 der.
  Proof.
    assert (1 <= IZR m) as M1 by (apply IZR_le; auto). pose proof hi_pos as HP.
    assert (0 <= (IZR m - 1) / IZR m) as Q0 by (unfold Rdiv; apply Rmult_le_pos; [lra|left; apply Rinv_0_lt_compat; lra]).
    induction r as [|r IH]; intros h H B der.
    - destruct (nat_above (T / (lo * h))) as [N NN].
      apply (pass_ends h H) with (N := N).
      + intros steps d [S1 S2] TT. exfalso. cbn in B. rewrite Rmult_1_r in B.
        apply IZR_lt in S2. assert (hi * h * IZR steps < hi * h * IZR m) by (apply Rmult_lt_compat_l; [nra|lra]). nra.
      + assert (0 < lo * h) by nra. apply (Rmult_le_compat_r (lo * h)) in NN; [|lra].
        replace (T / (lo * h) * (lo * h)) with T in NN by (field; nra). lra.
      + lia.
      + simpl. lra.
    - destruct (nat_above (T / (lo * h))) as [N NN].
      apply (pass_ends h H) with (N := N).
      + intros steps d [S1 S2] TT. apply IH.
        * apply Rmult_lt_0_compat; auto. apply Rdiv_lt_0_compat; [apply IZR_lt; lia|lra].
        * assert (IZR steps / IZR m <= (IZR m - 1) / IZR m) as K.
          { assert (steps <= m - 1)%Z as Z by lia. apply IZR_le in Z. rewrite minus_IZR in Z.
            unfold Rdiv. apply Rmult_le_compat_r; [left; apply Rinv_0_lt_compat; lra|lra]. }
          assert (0 <= ((IZR m - 1) / IZR m) ^ r) as PQ by (apply pow_le; auto).
          apply Rle_trans with (h * ((IZR m - 1) / IZR m) ^ S r * hi * IZR m); auto.
          cbn [pow]. set (q := (IZR m - 1) / IZR m) in *. set (p := q ^ r) in *. set (x := IZR steps / IZR m) in *.
          replace (h * x * p * hi * IZR m) with (x * (h * p * hi * IZR m)) by ring.
          replace (h * (q * p) * hi * IZR m) with (q * (h * p * hi * IZR m)) by ring.
          apply Rmult_le_compat_r; auto. repeat apply Rmult_le_pos; lra.
      + assert (0 < lo * h) by nra. apply (Rmult_le_compat_r (lo * h)) in NN; [|lra].
        replace (T / (lo * h) * (lo * h)) with T in NN by (field; nra). lra.
      + lia.
      + simpl. lra.
  Qed.

  (** The loop terminates. *)
  Lemma loop_ends : forall h der, 0 < h -> ends h 0 0 0 der.
  Proof.
    intros h der H. assert (1 <= IZR m) as M1 by (apply IZR_le; auto). pose proof hi_pos as HP.
    assert (0 <= (IZR m - 1) / IZR m < 1) as Q.
    { split; [unfold Rdiv; apply Rmult_le_pos; [lra|left; apply Rinv_0_lt_compat; lra]|].
      apply (Rmult_lt_reg_r (IZR m)); [lra|]. replace ((IZR m - 1) / IZR m * IZR m) with (IZR m - 1) by (field; lra). lra. }
    assert (0 < h * hi * IZR m) as P by (apply Rmult_lt_0_compat; [nra|lra]).
    destruct (pow_lt_1_zero ((IZR m - 1) / IZR m)) with (y := T / (h * hi * IZR m)) as [r R].
    - rewrite Rabs_right by lra. lra.
    - apply Rdiv_lt_0_compat; auto.
    - specialize (R r (le_n _)). rewrite Rabs_right in R by (apply Rle_ge; apply pow_le; lra).
      apply (start_ends r); auto. apply (Rmult_lt_compat_r (h * hi * IZR m)) in R; auto.
      replace (T / (h * hi * IZR m) * (h * hi * IZR m)) with T in R by (field; repeat split; nra). lra.
  Qed.
End Loop.

(** ** C77: the isochrone *)

(** The point of the map at way [s] from [p0] in compass direction [dir]. *)
Definition way (p0 : vec) (dir s : R) : vec := vadd2 p0 (vscale s (sin (deg2rad dir), cos (deg2rad dir))).

Lemma way_code : forall p0 dir s,
  (fst p0 + s * cos (PI * (1 / 2 - dir / 180)), snd p0 + s * sin (PI * (1 / 2 - dir / 180))) = way p0 dir s.
Proof.
  intros. unfold way, vadd2, vscale. cbn [fst snd].
  replace (PI * (1 / 2 - dir / 180)) with (PI / 2 - deg2rad dir) by (unfold deg2rad; field).
  rewrite cos_shift, sin_shift. reflexivity.
Qed.

Section Isochrone.
  Variables (pd : diagram) (start : R * R) (start_time dir : R) (wm : weather) (T : R) (m : Z)
            (im : option (dict R -> result R)) (p0 : vec) (f : R -> R -> R).
  Hypothesis PROJ : mercator_proj start (fst start) = Ok p0.
  Hypothesis MP : (1 <= m)%Z.
  (** [f s t] is the time per mile at way [s] and time [t]. *)
  Hypothesis SPEED : forall s t, get_inverse_bsp pd (way p0 dir s) dir t (fst start) start_time wm im = Ok (f s t).

  Let dt s t := get_inverse_bsp pd (fst p0 + s * cos (PI * (1 / 2 - dir / 180)), snd p0 + s * sin (PI * (1 / 2 - dir / 180)))
                  dir t (fst start) start_time wm im.

  Lemma dt_f : forall s t, dt s t = Ok (f s t).
  Proof. intros. unfold dt. rewrite way_code. apply SPEED. Qed.

  Lemma isochrone_unfold : forall fuel, isochrone fuel pd start start_time dir wm T m im =
    do r <- iso_loop fuel dt T m (5 * T / IZR m) 0 0 0 0;
    do s' <- np_div (T + snd r * fst (fst r) - snd (fst r)) (snd r);
    Ok (inverse_mercator_proj (way p0 dir s') (fst start), s').
  Proof.
    intros. unfold isochrone. rewrite PROJ. cbn [rbind]. destruct (Z.eqb_spec m 0) as [Z|Z]; [lia|].
    cbn [fst snd]. fold dt. destruct (iso_loop fuel dt T m (5 * T / IZR m) 0 0 0 0) as [[[s t] der]|e]; cbn [rbind fst snd]; auto.
    destruct (np_div (T + der * s - t) der); cbn [rbind]; auto. rewrite way_code. reflexivity.
  Qed.

  Lemma step_pos : 0 < T -> 0 < 5 * T / IZR m.
  Proof. intros. apply Rdiv_lt_0_compat; [lra|apply IZR_lt; lia]. Qed.

  Lemma isochrone_from_loop : forall fuel r, 0 < T -> iso_loop fuel dt T m (5 * T / IZR m) 0 0 0 0 = Ok r ->
    exists s h k, isochrone fuel pd start start_time dir wm T m im = Ok (inverse_mercator_proj (way p0 dir s) (fst start), s) /\
      0 < h /\ (m <= Z.of_nat (S k))%Z /\ INR k * h < s <= INR (S k) * h /\ polygon_time f h k s = T.
  Proof.
    intros fuel r TP E.
    assert (iso_loop fuel dt T m (5 * T / IZR m) (INR 0 * (5 * T / IZR m)) (euler f (5 * T / IZR m) 0) (Z.of_nat 0) 0 = Ok r) as E'.
    { cbn [INR euler Z.of_nat]. rewrite Rmult_0_l. exact E. }
    destruct (iso_loop_sound dt f T m dt_f TP MP fuel _ O 0 r (step_pos TP) (or_introl eq_refl) E') as [h [k [H [K [-> [L U]]]]]].
    set (d := f (INR k * h) (euler f h k)) in *.
    assert (euler f h (S k) = euler f h k + h * d) as ES by reflexivity.
    assert (0 < d) as DP by nra.
    exists (INR k * h + (T - euler f h k) / d), h, k. split; [|split; [|split; [|split]]]; auto.
    - rewrite isochrone_unfold, E. cbn [rbind fst snd]. rewrite np_div_ok by lra. cbn [rbind].
      replace ((T + d * (INR (S k) * h) - euler f h (S k)) / d) with (INR k * h + (T - euler f h k) / d); [reflexivity|].
      rewrite ES, S_INR. field. lra.
    - rewrite S_INR. assert (0 < (T - euler f h k) / d) by (apply Rdiv_lt_0_compat; lra).
      assert ((T - euler f h k) / d <= h); [|lra].
      apply (Rmult_le_reg_r d); auto. replace ((T - euler f h k) / d * d) with (T - euler f h k) by (field; lra). lra.
    - unfold polygon_time. fold d. field. lra.
  Qed.

  (** C77.  Whenever [isochrone] returns, then the total time is positive, and the
      returned way takes exactly the total time, when the travel time is computed
      by Euler's method with at least [min_nodes] steps of equal length; the
      returned position is the point at this way.  (No assumption on the speed.) *)
  Theorem isochrone_time : forall fuel res, isochrone fuel pd start start_time dir wm T m im = Ok res ->
    0 < T /\ exists h k, 0 < h /\ (m <= Z.of_nat (S k))%Z /\ INR k * h < snd res <= INR (S k) * h /\
      polygon_time f h k (snd res) = T /\ fst res = inverse_mercator_proj (way p0 dir (snd res)) (fst start).
  Proof.
    intros fuel res E. destruct (Rlt_dec 0 T) as [TP|TN].
    - split; auto. pose proof E as E0. rewrite isochrone_unfold in E0.
      destruct (iso_loop fuel dt T m (5 * T / IZR m) 0 0 0 0) as [r|] eqn:L; [|discriminate].
      destruct (isochrone_from_loop fuel r TP L) as [s [h [k [EQ [A [B [C D]]]]]]].
      rewrite EQ in E. injection E as <-. exists h, k. cbn [fst snd]. auto.
    - exfalso. rewrite isochrone_unfold in E.
      assert (forall fuel h, iso_loop fuel dt T m h 0 0 0 0 = Raise OutOfFuel) as Z.
      { induction fuel0 as [|n IH]; intros h; cbn [iso_loop]; rewrite Rltb_false by lra; destruct (Z.ltb_spec 0 m); try lia; cbn [orb]; auto.
        rewrite Rleb_true by lra. apply IH. }
      rewrite Z in E. discriminate.
  Qed.

  (** C77.  If the time needed per mile is bounded, from above and from below by a
      positive number, then [isochrone] terminates ([_partial]: without the bounds
      it need not, see below). *)
  Theorem isochrone_terminates_partial : forall lo hi, 0 < T -> 0 < lo -> (forall s t, lo <= f s t <= hi) ->
    exists fuel0 s h k, 0 < h /\ (m <= Z.of_nat (S k))%Z /\ INR k * h < s <= INR (S k) * h /\ polygon_time f h k s = T /\
      forall fuel, (fuel0 <= fuel)%nat ->
      isochrone fuel pd start start_time dir wm T m im = Ok (inverse_mercator_proj (way p0 dir s) (fst start), s).
  Proof.
    intros lo hi TP LO BD.
    destruct (loop_ends dt f T m dt_f TP MP lo hi LO BD (5 * T / IZR m) 0 (step_pos TP)) as [fuel0 [r L]].
    destruct (isochrone_from_loop fuel0 r TP L) as [s [h [k [EQ [A [B [C D]]]]]]].
    exists fuel0, s, h, k. repeat split; auto; try lra. intros fuel F.
    rewrite isochrone_unfold. rewrite (iso_loop_fuel dt T m fuel0 fuel _ _ _ _ _ _ F L).
    rewrite isochrone_unfold, L in EQ. exact EQ.
  Qed.

  Lemma euler_const : forall c h n, (forall s t, f s t = c) -> euler f h n = c * (INR n * h).
  Proof. intros c h n C. induction n as [|n IH]; [cbn; ring|]. cbn [euler]. rewrite IH, C, S_INR. ring. Qed.

  (** C77.  With a constant boat speed [b], the boat sails exactly [b] times the total
      time. *)
  Theorem isochrone_constant : forall b, 0 < T -> 0 < b -> (forall s t, f s t = 1 / b) ->
    exists fuel0, forall fuel, (fuel0 <= fuel)%nat ->
      isochrone fuel pd start start_time dir wm T m im =
      Ok (inverse_mercator_proj (way p0 dir (b * T)) (fst start), b * T).
  Proof.
    intros b TP BP FC. assert (0 < 1 / b) as IB by (apply Rdiv_lt_0_compat; lra).
    destruct (isochrone_terminates_partial (1 / b) (1 / b)) as [fuel0 [s [h [k [H [K [S [PT E]]]]]]]]; auto.
    { intros. rewrite FC. lra. }
    unfold polygon_time in PT. rewrite (euler_const (1 / b)), FC in PT by auto.
    assert (s = b * T) as ->. { rewrite <- PT. field. lra. }
    exists fuel0. exact E.
  Qed.

  (** C77 fails: if the boat makes no way at all, the loop does not end. *)
  Theorem isochrone_no_speed_refuted : (forall s t, f s t = 0) -> 0 < T ->
    forall fuel, isochrone fuel pd start start_time dir wm T m im = Raise OutOfFuel.
  Proof.
    intros F0 TP fuel. rewrite isochrone_unfold.
    assert (forall fuel h s n d, iso_loop fuel dt T m h s 0 n d = Raise OutOfFuel) as Z.
    { induction fuel0 as [|k IH]; intros h s n d; cbn [iso_loop]; rewrite Rltb_true by lra; cbn [orb]; auto.
      rewrite Rleb_false by lra. rewrite dt_f, F0. cbn [rbind]. rewrite Rmult_0_l, Rplus_0_r. apply IH. }
    rewrite Z. reflexivity.
  Qed.

  (** C77 fails: for a total time of 0, the loop does not end. *)
  Theorem isochrone_zero_time_refuted : T = 0 ->
    forall fuel, isochrone fuel pd start start_time dir wm T m im = Raise OutOfFuel.
  Proof.
    intros T0 fuel. destruct (isochrone fuel pd start start_time dir wm T m im) as [res|e] eqn:E.
    - apply isochrone_time in E. lra.
    - rewrite isochrone_unfold in E.
      assert (forall fuel h, iso_loop fuel dt T m h 0 0 0 0 = Raise OutOfFuel) as Z.
      { induction fuel0 as [|n IH]; intros h; cbn [iso_loop]; rewrite Rltb_false by lra; destruct (Z.ltb_spec 0 m); try lia; cbn [orb]; auto.
        rewrite Rleb_true by lra. apply IH. }
      rewrite Z in E. exact (eq_sym E).
  Qed.
End Isochrone.
Print Assumptions isochrone_time.
Print Assumptions isochrone_terminates_partial.
Print Assumptions isochrone_constant.
Print Assumptions isochrone_no_speed_refuted.
Print Assumptions isochrone_zero_time_refuted.

Theorem isochrone_no_nodes : forall fuel pd start start_time dir wm T im p0,
  mercator_proj start (fst start) = Ok p0 ->
  isochrone fuel pd start start_time dir wm T 0 im = Raise ZeroDivisionError.
Proof. intros. unfold isochrone. rewrite H. reflexivity. Qed.
Print Assumptions isochrone_no_nodes.

(** A concrete case: constant wind, a boat that always makes 5 knots, 2 hours north
    from (0, 0). *)
Definition wm_const : weather := fun _ _ _ => Ok [("UGRID", 3); ("VGRID", 4)].

Lemma speed_const : forall b pos hdt t lat st, 0 < b ->
  get_inverse_bsp (mkDiagram (fun _ => Raise ValueError) (fun _ _ => Ok b)) pos hdt t lat st wm_const None = Ok (1 / b).
Proof.
  intros. unfold get_inverse_bsp. destruct (inverse_mercator_proj pos lat). cbn [wm_const dset String.eqb Ascii.eqb Bool.eqb dget].
  destruct (uvgrid_to_tw 3 4 hdt). cbn [pd_call rbind]. rewrite Reqb_false by lra. reflexivity.
Qed.

Lemma proj_origin : mercator_proj (0, 0) 0 = Ok (0, 0).
Proof.
  unfold mercator_proj. cbn [fst snd]. replace (PI * 0 / 180) with 0 by field. unfold np_tan. rewrite cos_0, tan_0, Reqb_false by lra.
  cbn [rbind]. f_equal. f_equal; [ring|]. replace 0 with (sinh 0) at 1 by apply sinh_0. rewrite arcsinh_sinh. ring.
Qed.

Example isochrone_example : exists fuel0, forall fuel, (fuel0 <= fuel)%nat ->
  isochrone fuel (mkDiagram (fun _ => Raise ValueError) (fun _ _ => Ok 5)) (0, 0) 0 0 wm_const 2 100 None =
  Ok (inverse_mercator_proj (way (0, 0) 0 10) 0, 10).
Proof.
  destruct (isochrone_constant (mkDiagram (fun _ => Raise ValueError) (fun _ _ => Ok 5)) (0, 0) 0 0 wm_const 2 100 None (0, 0)
    (fun _ _ => 1 / 5) proj_origin) with (b := 5) as [f F]; auto; try lia; try lra.
  - intros. apply speed_const. lra.
  - exists f. intros fuel L. rewrite F by auto. replace (5 * 2) with 10 by ring. reflexivity.
Qed.

(** ** C110: the direction of an isochrone *)

(** C110 fails: positions are latitude and longitude, and the direction is the
    angle to the north.  Sailing north (direction 0) leaves the latitude
    unchanged, for every boat, weather and time; and sailing east (direction 90)
    changes the latitude and not the longitude. *)
Lemma isochrone_position : forall fuel pd start start_time dir wm T m im p0 res,
  mercator_proj start (fst start) = Ok p0 ->
  isochrone fuel pd start start_time dir wm T m im = Ok res ->
  fst res = inverse_mercator_proj (way p0 dir (snd res)) (fst start).
Proof.
  intros fuel pd start start_time dir wm T m im p0 res P E. unfold isochrone in E. rewrite P in E. cbn [rbind] in E.
  destruct (Z.eqb m 0); [discriminate|]. cbn [fst snd] in E.
  destruct (iso_loop _ _ _ _ _ _ _ _ _) as [[[s t] der]|]; [|discriminate]. cbn [rbind] in E.
  destruct (np_div _ _) as [s'|]; [|discriminate]. cbn [rbind] in E. injection E as <-. cbn [fst snd]. rewrite way_code. reflexivity.
Qed.

Theorem isochrone_north_refuted : forall fuel pd start start_time wm T m im res,
  -90 < snd start < 90 -> isochrone fuel pd start start_time 0 wm T m im = Ok res -> fst (fst res) = fst start.
Proof.
  intros fuel pd start start_time wm T m im res B E.
  destruct (mercator_inverse start (fst start) B) as [p0 [P I]].
  rewrite (isochrone_position _ _ _ _ _ _ _ _ _ _ _ P E). apply (f_equal fst) in I. unfold inverse_mercator_proj in *. cbn [fst] in *.
  unfold way, vadd2, vscale. cbn [fst snd]. rewrite deg2rad_0, sin_0. rewrite Rmult_0_r, Rplus_0_r. exact I.
Qed.
Print Assumptions isochrone_north_refuted.

Theorem isochrone_east_refuted : forall fuel pd start start_time wm T m im res,
  -90 < snd start < 90 -> isochrone fuel pd start start_time 90 wm T m im = Ok res ->
  fst (fst res) = fst start + snd res / 69 /\ snd (fst res) = snd start.
Proof.
  intros fuel pd start start_time wm T m im res B E.
  destruct (mercator_inverse start (fst start) B) as [p0 [P I]].
  rewrite (isochrone_position _ _ _ _ _ _ _ _ _ _ _ P E).
  pose proof (f_equal fst I) as I1. pose proof (f_equal snd I) as I2. unfold inverse_mercator_proj in *. cbn [fst snd] in *.
  unfold way, vadd2, vscale. cbn [fst snd]. rewrite deg2rad_90, sin_PI2, cos_PI2. rewrite Rmult_0_r, Rplus_0_r. split; [|exact I2].
  rewrite <- I1 at 2. field.
Qed.
Print Assumptions isochrone_east_refuted.

Lemma asin_pos : forall z, 0 < z -> z <= 1 -> 0 < asin z.
Proof.
  intros z P L. destruct (Rlt_dec 0 (asin z)) as [|N]; auto. exfalso. pose proof (asin_bound z). pose proof PI_RGT_0.
  assert (0 <= sin (- asin z)) by (apply sin_ge_0; lra). rewrite sin_neg, sin_asin in H1 by lra. lra.
Qed.

(** The example above: 10 miles north of (0, 0) is (0, something positive). *)
Theorem isochrone_north_example_refuted : exists fuel0 y, 0 < y /\ forall fuel, (fuel0 <= fuel)%nat ->
  isochrone fuel (mkDiagram (fun _ => Raise ValueError) (fun _ _ => Ok 5)) (0, 0) 0 0 wm_const 2 100 None = Ok ((0, y), 10).
Proof.
  destruct isochrone_example as [fuel0 F]. exists fuel0, (180 / PI * asin (tanh (10 / 69))). split.
  - pose proof PI_RGT_0. apply Rmult_lt_0_compat; [apply Rdiv_lt_0_compat; lra|].
    pose proof (tanh_bound (10 / 69)) as TB. apply asin_pos; [|lra].
    unfold tanh, sinh, cosh. assert (exp (- (10 / 69)) < exp (10 / 69)) by (apply exp_increasing; lra).
    pose proof (exp_pos (10 / 69)). pose proof (exp_pos (- (10 / 69))). apply Rdiv_lt_0_compat; lra.
  - intros fuel L. rewrite F by auto. unfold inverse_mercator_proj, way, vadd2, vscale. cbn [fst snd].
    rewrite deg2rad_0, sin_0, cos_0. repeat f_equal; field.
Qed.
Print Assumptions isochrone_north_example_refuted.

(** ** C78: the time per mile *)

(** The time per mile without an influence model: the reciprocal of the speed the
    diagram gives for the wind at the place. *)
Theorem inverse_speed : forall pd pos hdt t lat st wm data u v b,
  wm (st + t) (fst (inverse_mercator_proj pos lat)) (snd (inverse_mercator_proj pos lat)) = Ok data ->
  dget "UGRID" data = Some u -> dget "VGRID" data = Some v ->
  pd_call pd (fst (uvgrid_to_tw u v hdt)) (snd (uvgrid_to_tw u v hdt)) = Ok b -> b <> 0 ->
  get_inverse_bsp pd pos hdt t lat st wm None = Ok (1 / b).
Proof.
  intros pd pos hdt t lat st wm data u v b W U V B NZ. unfold get_inverse_bsp.
  destruct (inverse_mercator_proj pos lat) as [la lo]. cbn [fst snd] in W. rewrite W.
  rewrite !dget_dset_other by discriminate. rewrite U, V. destruct (uvgrid_to_tw u v hdt). cbn [fst snd] in B. rewrite B. cbn [rbind].
  rewrite Reqb_false by auto. reflexivity.
Qed.
Print Assumptions inverse_speed.

(** C78.  Of two boats with positive speeds, the slower one needs more time
    ([_partial]: fails for the speed 0). *)
Theorem slower_boat_partial : forall pd pd' pos hdt t lat st wm data u v b b',
  wm (st + t) (fst (inverse_mercator_proj pos lat)) (snd (inverse_mercator_proj pos lat)) = Ok data ->
  dget "UGRID" data = Some u -> dget "VGRID" data = Some v ->
  pd_call pd (fst (uvgrid_to_tw u v hdt)) (snd (uvgrid_to_tw u v hdt)) = Ok b ->
  pd_call pd' (fst (uvgrid_to_tw u v hdt)) (snd (uvgrid_to_tw u v hdt)) = Ok b' ->
  0 < b < b' ->
  exists x x', get_inverse_bsp pd pos hdt t lat st wm None = Ok x /\ get_inverse_bsp pd' pos hdt t lat st wm None = Ok x' /\ x' < x.
Proof.
  intros pd pd' pos hdt t lat st wm data u v b b' W U V B B' L. exists (1 / b), (1 / b').
  rewrite (inverse_speed pd pos hdt t lat st wm data u v b), (inverse_speed pd' pos hdt t lat st wm data u v b') by (auto; lra).
  split; auto. split; auto. unfold Rdiv. rewrite !Rmult_1_l. apply Rinv_lt_contravar; nra.
Qed.
Print Assumptions slower_boat_partial.

(** C78 fails: a boat that makes no way at all needs no time. *)
Theorem no_speed_refuted : forall pos hdt t lat st,
  get_inverse_bsp (mkDiagram (fun _ => Raise ValueError) (fun _ _ => Ok 0)) pos hdt t lat st wm_const None = Ok 0 /\
  forall b, 0 < b -> exists x,
    get_inverse_bsp (mkDiagram (fun _ => Raise ValueError) (fun _ _ => Ok b)) pos hdt t lat st wm_const None = Ok x /\ 0 < x.
Proof.
  intros. split.
  - unfold get_inverse_bsp. destruct (inverse_mercator_proj pos lat). cbn [wm_const dset String.eqb Ascii.eqb Bool.eqb dget].
    destruct (uvgrid_to_tw 3 4 hdt). cbn [pd_call rbind]. rewrite Reqb_true by auto. reflexivity.
  - intros b B. exists (1 / b). split; [apply speed_const; auto|]. apply Rdiv_lt_0_compat; lra.
Qed.
Print Assumptions no_speed_refuted.

(** Outside of the weather model, a fixed value is used; a boat slower than 1/1000
    knots is faster there. *)
Theorem no_weather : forall pd pos hdt t lat st wm im,
  wm (st + t) (fst (inverse_mercator_proj pos lat)) (snd (inverse_mercator_proj pos lat)) = Raise ValueError ->
  get_inverse_bsp pd pos hdt t lat st wm im = Ok 1000.
Proof.
  intros pd pos hdt t lat st wm im W. unfold get_inverse_bsp. destruct (inverse_mercator_proj pos lat). cbn [fst snd] in W. rewrite W. reflexivity.
Qed.
Print Assumptions no_weather.

(** ** C107: the weather that is needed *)

(** C107 fails: the documentation asks for weather models with the keys "TWS" and
    "TWA", but without an influence model "UGRID" and "VGRID" are necessary. *)
Theorem weather_keys_refuted : forall fuel pd start start_time dir wm T m p0,
  mercator_proj start (fst start) = Ok p0 -> 0 < T -> (1 <= m)%Z ->
  (forall t la lo, exists data, wm t la lo = Ok data /\ dget "UGRID" data = None) ->
  isochrone (S fuel) pd start start_time dir wm T m None = Raise KeyError.
Proof.
  intros fuel pd start start_time dir wm T m p0 P TP MP W. unfold isochrone. rewrite P. cbn [rbind].
  destruct (Z.eqb_spec m 0); [lia|]. cbn [iso_loop]. rewrite Rltb_true by auto. cbn [orb]. rewrite Rleb_false by lra.
  match goal with |- context [get_inverse_bsp pd ?q dir 0 (fst start) start_time wm None] =>
    assert (get_inverse_bsp pd q dir 0 (fst start) start_time wm None = Raise KeyError) as E end.
  { unfold get_inverse_bsp. destruct (inverse_mercator_proj _ _) as [la lo].
    destruct (W (start_time + 0) la lo) as [data [D U]]. rewrite D. rewrite dget_dset_other by discriminate. rewrite U. reflexivity. }
  rewrite E. reflexivity.
Qed.
Print Assumptions weather_keys_refuted.

Example weather_keys_example : forall fuel pd, isochrone (S fuel) pd (0, 0) 0 0 (fun _ _ _ => Ok [("TWS", 10); ("TWA", 90)]) 1 100 None = Raise KeyError.
Proof. intros. apply weather_keys_refuted with (p0 := (0, 0)); auto using proj_origin; try lra; try lia. intros. eexists. split; [reflexivity|reflexivity]. Qed.

(** ** C101: the cost of a cruise *)

Lemma trapezoid_scale : forall k xs, trapezoid (map (fun _ : R => k) xs) xs = k * (last xs 0 - hd 0 xs).
Proof.
  intros k xs. induction xs as [|x [|y xs] IH]; [cbn; ring|cbn; ring|].
  change (trapezoid (map (fun _ => k) (x :: y :: xs)) (x :: y :: xs)) with
    ((y - x) * (k + k) / 2 + trapezoid (map (fun _ => k) (y :: xs)) (y :: xs)).
  rewrite IH. change (last (x :: y :: xs) 0) with (last (y :: xs) 0). cbn [hd]. field.
Qed.

Lemma trapezoid_le : forall ys ys' xs, StronglySorted Rle xs -> Forall2 Rle ys ys' ->
  trapezoid ys xs <= trapezoid ys' xs.
Proof.
  intros ys ys' xs S F. revert xs S. induction F as [|a b ys ys' L F IH]; intros xs S; [cbn; lra|].
  destruct F as [|c d ys ys' L' F]; [cbn; lra|]. destruct xs as [|x [|x' xs]]; [cbn; lra|cbn; lra|].
  change (trapezoid (a :: c :: ys) (x :: x' :: xs)) with ((x' - x) * (a + c) / 2 + trapezoid (c :: ys) (x' :: xs)).
  change (trapezoid (b :: d :: ys') (x :: x' :: xs)) with ((x' - x) * (b + d) / 2 + trapezoid (d :: ys') (x' :: xs)).
  inversion S as [|? ? S' G]; subst. specialize (IH (x' :: xs) S'). rewrite Forall_forall in G.
  assert (x <= x') by (apply G; left; auto).
  assert ((x' - x) * (a + c) / 2 <= (x' - x) * (b + d) / 2) by nra. lra.
Qed.

Lemma trapezoid_add : forall ys ys' xs, length ys = length ys' ->
  trapezoid (map (fun p => fst p + snd p) (combine ys ys')) xs = trapezoid ys xs + trapezoid ys' xs.
Proof.
  induction ys as [|a ys IH]; intros [|b ys'] xs L; try discriminate; [cbn; ring|].
  destruct ys as [|c ys]; destruct ys' as [|d ys']; try discriminate; [cbn; ring|].
  destruct xs as [|x [|x' xs]]; [cbn; ring|cbn; ring|].
  specialize (IH (d :: ys') (x' :: xs)). injection L as L.
  change (trapezoid (map (fun p => fst p + snd p) (combine (a :: c :: ys) (b :: d :: ys'))) (x :: x' :: xs)) with
    ((x' - x) * (a + b + (c + d)) / 2 + trapezoid (map (fun p => fst p + snd p) (combine (c :: ys) (d :: ys'))) (x' :: xs)).
  rewrite IH by (cbn; lia).
  change (trapezoid (a :: c :: ys) (x :: x' :: xs)) with ((x' - x) * (a + c) / 2 + trapezoid (c :: ys) (x' :: xs)).
  change (trapezoid (b :: d :: ys') (x :: x' :: xs)) with ((x' - x) * (b + d) / 2 + trapezoid (d :: ys') (x' :: xs)). field.
Qed.

(** The length of the way on the map. *)
Definition map_distance (start end_ : R * R) (l : R) : Prop :=
  exists p q, mercator_proj start ((fst start + fst end_) / 2) = Ok p /\ mercator_proj end_ ((fst start + fst end_) / 2) = Ok q /\
  l = sqrt (vdot (vadd2 q (vscale (-1) p)) (vadd2 q (vscale (-1) p))).

Section Cost.
  Variables (solve : ivp) (pd : diagram) (start end_ : R * R) (start_time : R) (wm : weather) (im : option (dict R -> result R)).
  Hypothesis SOLVE : forall f l r, 0 <= l -> solve f l = Ok r -> solution l r.

  Let cost := cost_cruise solve pd start end_ start_time wm.

  (** The costs split: absolute costs, which do not depend on the density, and the
      integral of the costs at the nodes of the solution. *)
  Lemma cost_split : forall dens cost_abs integrate c, cost (Some dens) cost_abs integrate im = Ok c ->
    exists l sol ps total_t, map_distance start end_ l /\ solution l sol /\ length ps = length (fst sol) /\
      py_last (snd sol) = Ok total_t /\
      (forall integrate', cost None cost_abs integrate' im = Ok (cost_abs total_t l)) /\
      (forall dens' integrate', cost (Some dens') cost_abs integrate' im =
        Ok (cost_abs total_t l +
            integrate' (map (fun tp => let '(lat, long) := inverse_mercator_proj (snd tp) ((fst start + fst end_) / 2) in
                                       dens' (start_time + fst tp) lat long) (combine (snd sol) ps)) (fst sol))).
  Proof.
    intros dens cost_abs integrate c E. unfold cost, cost_cruise in *. set (mp := (fst start + fst end_) / 2) in *.
    destruct (mercator_proj start mp) as [p|] eqn:P; [|discriminate]. cbn [rbind] in *.
    destruct (mercator_proj end_ mp) as [q|] eqn:Q; [|discriminate]. cbn [rbind] in *.
    destruct (right_handing_course start end_) as [hdt|]; [|discriminate]. cbn [rbind] in *.
    match type of E with context [solve ?g ?l] => destruct (solve g l) as [sol|] eqn:S; [|discriminate]; set (len := l) in * end.
    cbn [rbind] in *. destruct (py_last (snd sol)) as [tt|] eqn:LT; [|discriminate]. cbn [rbind] in *.
    match type of E with context [mapM ?g (fst sol)] => destruct (mapM g (fst sol)) as [ps|] eqn:MM; [|discriminate] end.
    cbn [rbind] in *. exists len, sol, ps, tt. split; [|split; [|split; [|split; [|split]]]]; auto.
    - exists p, q. split; auto. split; auto. unfold len, vdot, vadd2, vscale. cbn [fst snd]. f_equal. ring.
    - eapply SOLVE; eauto. apply sqrt_pos.
    - eapply mapM_length; eauto.
  Qed.

  (** C101.  A constant density [k] adds [k] times the length of the way. *)
  Theorem cost_constant_density : forall k cost_abs c, cost (Some (fun _ _ _ => k)) cost_abs trapezoid im = Ok c ->
    exists c0 l, cost None cost_abs trapezoid im = Ok c0 /\ map_distance start end_ l /\ c = c0 + k * l.
  Proof.
    intros k cost_abs c E. destruct (cost_split _ _ _ _ E) as [l [sol [ps [tt [M [[nodes [F [L [_ [LS _]]]]] [LP [_ [A B]]]]]]]]].
    rewrite B in E. injection E as <-. exists (cost_abs tt l), l. split; [apply A|]. split; auto. f_equal.
    match goal with |- context [map ?h (combine (snd sol) ps)] => replace (map h (combine (snd sol) ps)) with (map (fun _ : R => k) (fst sol)) end.
    - rewrite trapezoid_scale, L, F. cbn. ring.
    - assert (length (combine (snd sol) ps) = length (fst sol)) as LC by (rewrite combine_length; lia).
      revert LC. generalize (combine (snd sol) ps) (fst sol). intros u v. revert u.
      induction v as [|x v IH]; intros [|[t p] u] LC; try discriminate; auto. cbn [map snd fst].
      f_equal. apply IH. cbn in LC. lia.
  Qed.

  (** C101.  A larger density gives larger costs. *)
  Theorem cost_monotone : forall dens dens' cost_abs c c', (forall t la lo, dens t la lo <= dens' t la lo) ->
    cost (Some dens) cost_abs trapezoid im = Ok c -> cost (Some dens') cost_abs trapezoid im = Ok c' -> c <= c'.
  Proof.
    intros dens dens' cost_abs c c' D E E'.
    destruct (cost_split _ _ _ _ E) as [l [sol [ps [tt [M [[nodes [F [L [S [LS _]]]]] [LP [_ [A B]]]]]]]]].
    rewrite B in E, E'. injection E as <-. injection E' as <-. apply Rplus_le_compat_l. apply trapezoid_le; auto.
    generalize (combine (snd sol) ps). intros u. induction u as [|[t p] u IH]; cbn [map]; [apply Forall2_nil|apply Forall2_cons; [|apply IH]]. cbn [fst snd].
    unfold inverse_mercator_proj. apply D.
  Qed.

  (** C101.  Densities add up. *)
  Theorem cost_additive : forall dens dens' cost_abs c0 c, cost None cost_abs trapezoid im = Ok c0 ->
    cost (Some dens) cost_abs trapezoid im = Ok c ->
    exists c', cost (Some dens') cost_abs trapezoid im = Ok c' /\
      cost (Some (fun t la lo => dens t la lo + dens' t la lo)) cost_abs trapezoid im = Ok (c + c' - c0).
  Proof.
    intros dens dens' cost_abs c0 c E0 E.
    destruct (cost_split _ _ _ _ E) as [l [sol [ps [tt [M [_ [LP [_ [A B]]]]]]]]].
    rewrite A in E0. injection E0 as <-. rewrite B in E. injection E as <-. eexists. split; [apply B|]. rewrite B. f_equal.
    set (g := fun (d : R -> R -> R -> R) (tp : R * vec) => let '(lat, long) := inverse_mercator_proj (snd tp) ((fst start + fst end_) / 2) in
                d (start_time + fst tp) lat long).
    match goal with |- context [trapezoid ?a (fst sol)] => replace a with
      (map (fun p => fst p + snd p) (combine (map (g dens) (combine (snd sol) ps)) (map (g dens') (combine (snd sol) ps)))) end.
    - rewrite trapezoid_add by (rewrite !map_length; auto).
      match goal with |- _ = _ + ?x + (_ + ?y) - _ => change x with (trapezoid (map (g dens) (combine (snd sol) ps)) (fst sol));
        change y with (trapezoid (map (g dens') (combine (snd sol) ps)) (fst sol)) end. ring.
    - generalize (combine (snd sol) ps). intros u. induction u as [|[t p] u IH]; auto. cbn [map combine fst snd]. rewrite IH. f_equal.
  Qed.

  (** C101.  The costs in full: the solver integrates the inverse boat speed along the straight
      line between the ends on the map, and the density is taken at the times of arrival and the
      positions on this line that belong to the nodes. *)
  Theorem cost_on_line : forall dens cost_abs integrate c, cost (Some dens) cost_abs integrate im = Ok c ->
    let mp := (fst start + fst end_) / 2 in
    exists p q l course sol total_t track,
      mercator_proj start mp = Ok p /\ mercator_proj end_ mp = Ok q /\ right_handing_course start end_ = Ok course /\
      l = sqrt (vdot (vadd2 q (vscale (-1) p)) (vadd2 q (vscale (-1) p))) /\ l <> 0 /\
      let line s := vadd2 p (vscale (s / l) (vadd2 q (vscale (-1) p))) in
      (forall f, (forall s t, f s t = get_inverse_bsp pd (line s) course t mp start_time wm im) -> solve f l = Ok sol) /\
      nth_error (snd sol) (length (snd sol) - 1) = Some total_t /\
      Forall2 (fun s pos => mercator_proj pos mp = Ok (line s) /\ -90 < snd pos < 90) (fst sol) track /\
      c = cost_abs total_t l + integrate (map (fun tp => dens (start_time + fst tp) (fst (snd tp)) (snd (snd tp))) (combine (snd sol) track)) (fst sol).
  Proof.
    intros dens cost_abs integrate c E mp. unfold cost, cost_cruise in E. fold mp in E.
    destruct (mercator_proj start mp) as [p|] eqn:P; [|discriminate]. cbn [rbind] in E.
    destruct (mercator_proj end_ mp) as [q|] eqn:Q; [|discriminate]. cbn [rbind] in E.
    destruct (right_handing_course start end_) as [hdt|]; [|discriminate]. cbn [rbind] in E.
    match type of E with context [solve ?g ?l] => destruct (solve g l) as [sol|] eqn:S; [|discriminate]; set (len := l) in *; set (gg := g) in S end.
    cbn [rbind] in E. destruct (py_last (snd sol)) as [tt|] eqn:LT; [|discriminate]. cbn [rbind] in E.
    match type of E with context [mapM ?g (fst sol)] => destruct (mapM g (fst sol)) as [ps|] eqn:MM; [|discriminate] end.
    cbn [rbind] in E.
    assert (len = sqrt (vdot (vadd2 q (vscale (-1) p)) (vadd2 q (vscale (-1) p)))) as EL.
    { unfold len, vdot, vadd2, vscale. cbn [fst snd]. f_equal. ring. }
    assert (solution len sol) as [nodes [F [_ [_ [LS _]]]]] by (eapply SOLVE; eauto; apply sqrt_pos).
    assert (len <> 0) as NZ.
    { intros Z. rewrite F, Z in MM. cbn [mapM] in MM. unfold np_div in MM. rnum. rewrite Reqb_true in MM by auto. discriminate MM. }
    set (line := fun s => vadd2 p (vscale (s / len) (vadd2 q (vscale (-1) p)))).
    assert (forall s, (do q0 <- np_div s len; Ok (fst p + q0 * (fst q - fst p), snd p + q0 * (snd q - snd p))) = Ok (line s)) as POS.
    { intros s. rewrite np_div_ok by auto. cbn [rbind]. f_equal. unfold line, vadd2, vscale. cbn [fst snd]. f_equal; ring. }
    assert (ps = map line (fst sol)) as EP.
    { clear - MM POS. revert ps MM. induction (fst sol) as [|s l IH]; intros ps MM; cbn [mapM] in MM; [injection MM as <-; reflexivity|].
      rewrite POS in MM. cbn [rbind] in MM. destruct (mapM _ l) as [ps'|] eqn:E; [|discriminate]. cbn [rbind] in MM. injection MM as <-.
      cbn [map]. f_equal. apply IH. reflexivity. }
    exists p, q, len, hdt, sol, tt, (map (fun s => inverse_mercator_proj (line s) mp) (fst sol)).
    split; [auto|]. split; [auto|]. split; [reflexivity|]. split; [exact EL|]. split; [exact NZ|]. intros line0. split; [|split; [|split]].
    - intros f Hf. rewrite <- S. f_equal. apply functional_extensionality. intros s. apply functional_extensionality. intros t.
      rewrite Hf. unfold gg. rewrite POS. reflexivity.
    - clear - LT. unfold py_last in LT. destruct (rev (snd sol)) as [|a l] eqn:E; [discriminate LT|]. injection LT as ->.
      rewrite <- (rev_involutive (snd sol)), E. cbn [rev]. rewrite nth_error_app2; rewrite app_length, rev_length; cbn [length]; [|lia].
      replace (length l + 1 - 1 - length l)%nat with 0%nat by lia. reflexivity.
    - clear. induction (fst sol) as [|s l IH]; cbn [map]; constructor; auto. apply mercator_inverse_back.
    - injection E as <-. f_equal. f_equal. rewrite EP. clear. generalize (snd sol) as ts. induction (fst sol) as [|s l IH]; intros [|t ts]; try reflexivity.
      cbn [map combine fst snd]. apply (f_equal2 cons); [reflexivity|apply IH].
  Qed.
End Cost.
Print Assumptions cost_on_line.
Print Assumptions cost_constant_density.
Print Assumptions cost_monotone.
Print Assumptions cost_additive.

(** C101.  With a constant speed [v], and a solver that is exact for constant
    derivatives, the default costs are the length of the way divided by [v]. *)
Theorem cost_constant_speed : forall (solve : ivp) pd start end_ start_time wm im v l course,
  (forall g c l, 0 <= l -> (forall s t, g s t = Ok c) -> exists r, solve g l = Ok r /\ solution l r /\ snd r = map (fun s => c * s) (fst r)) ->
  map_distance start end_ l -> l <> 0 -> right_handing_course start end_ = Ok course ->
  (forall pos hdt t lat, get_inverse_bsp pd pos hdt t lat start_time wm im = Ok (1 / v)) -> v <> 0 ->
  cost_cruise solve pd start end_ start_time wm None (fun total_t _ => total_t) trapezoid im = Ok (l / v).
Proof.
  intros solve pd start end_ start_time wm im v l course SOLVE [p [q [P [Q L]]]] NZ C SP VZ.
  unfold cost_cruise. rewrite P. cbn [rbind]. rewrite Q. cbn [rbind]. rewrite C. cbn [rbind].
  match goal with |- context [solve ?g ?x] => set (gg := g); replace x with l end.
  2: { rewrite L. unfold vdot, vadd2, vscale. cbn [fst snd]. f_equal. ring. }
  destruct (SOLVE gg (1 / v) l) as [r [E [[nodes [F [LA [_ [LS _]]]]] V]]].
  - rewrite L. apply sqrt_pos.
  - intros s t. unfold gg. match goal with |- context [np_div s ?x] => replace x with l end.
    + rewrite np_div_ok by auto. cbn [rbind]. apply SP.
    + rewrite L. unfold vdot, vadd2, vscale. cbn [fst snd]. f_equal. ring.
  - rewrite E. cbn [rbind]. rewrite V.
    assert (py_last (map (fun s => 1 / v * s) (fst r)) = Ok (1 / v * l)) as ->.
    { rewrite <- LA. assert (fst r <> []) as NE by (rewrite F; discriminate).
      destruct (exists_last NE) as [u [x X]]. rewrite X. rewrite map_app. unfold py_last. rewrite rev_app_distr. cbn [rev app map].
      rewrite last_last. reflexivity. }
    cbn [rbind]. f_equal. field. auto.
Qed.
Print Assumptions cost_constant_speed.

(** A solver with these properties: two nodes, one Euler step. *)
Definition euler1 : ivp := fun g l => do d <- g 0 0; Ok ([0; l], [0; d * l]).

Lemma equator_proj : forall x m, mercator_proj (x, 0) m = Ok (69 * (x - m), 0).
Proof.
  intros x m0. pose proof proj_origin as O. unfold mercator_proj in *. cbn [fst snd] in *.
  destruct (np_tan (PI * 0 / 180)); [|discriminate]. cbn [rbind] in *. injection O as O1 O2. f_equal. f_equal. exact O2.
Qed.

Lemma equator_way : sqrt ((69 * (1 - 1 / 2) - 69 * (0 - 1 / 2)) * (69 * (1 - 1 / 2) - 69 * (0 - 1 / 2)) + (0 - 0) * (0 - 0)) = 69.
Proof. apply sqrt_cancel; [lra|]. field. Qed.

Lemma equator_course : right_handing_course (0, 0) (1, 0) = Ok (PI / 2).
Proof.
  unfold right_handing_course. cbn [fst snd]. rewrite cos_0, sin_0.
  replace (0 - 1) with (- (1)) by ring. rewrite cos_neg. replace (cos 1 * 1 * 1 + 0 * 1) with (cos 1) by ring.
  assert (0 < sin 1) as S1 by (apply sin_gt_0; pose proof pi_bounds; lra).
  pose proof (sin2_cos2 1) as S. unfold Rsqr in S. replace (1 - cos 1 * cos 1) with (sin 1 * sin 1) by lra.
  rewrite Rltb_false by nra. rewrite sqrt_square by lra. rewrite np_div_ok by lra. cbn [rbind].
  replace ((1 * 0 - cos 1 * 1 * 0) / sin 1) with 0 by (field; lra). rewrite np_arccos_ok by lra. rewrite acos_0. reflexivity.
Qed.

Example cost_example : exists l,
  map_distance (0, 0) (1, 0) l /\ l = 69 /\
  (forall g c l, 0 <= l -> (forall s t, g s t = Ok c) -> exists r, euler1 g l = Ok r /\ solution l r /\ snd r = map (fun s => c * s) (fst r)) /\
  cost_cruise euler1 (mkDiagram (fun _ => Raise ValueError) (fun _ _ => Ok 5)) (0, 0) (1, 0) 0 wm_const (Some (fun _ _ _ => 2))
    (fun t _ => t) trapezoid None = Ok (69 / 5 + 2 * 69).
Proof.
  pose proof equator_proj as MP. pose proof equator_way as SQ.
  exists 69. split; [|split; [auto|split]].
  - eexists. eexists. split; [apply MP|]. split; [apply MP|]. cbn [fst snd]. symmetry.
    replace ((0 + 1) / 2) with (1 / 2) by field. rewrite <- SQ at 5. f_equal. unfold vdot, vadd2, vscale. cbn [fst snd]. ring.
  - intros g c l LP G. unfold euler1. rewrite G. cbn [rbind]. eexists. split; [reflexivity|]. cbn [fst snd map]. split.
    + exists [l]. split; [reflexivity|]. split; [reflexivity|]. split; [repeat (constructor; auto)|]. split; reflexivity.
    + f_equal. ring.
  - unfold cost_cruise. cbn [fst snd]. replace ((0 + 1) / 2) with (1 / 2) by field. rewrite !MP. cbn [rbind fst snd]. rewrite SQ.
    rewrite equator_course.
    cbn [rbind]. unfold euler1. rewrite np_div_ok by lra. cbn [rbind]. rewrite speed_const by lra. cbn [rbind snd fst py_last rev app mapM].
    rewrite !np_div_ok by lra. cbn [rbind]. f_equal. unfold inverse_mercator_proj. cbn [combine map fst snd trapezoid]. field.
Qed.

(** ** C111: the heading *)

(** C111 fails: on the way east along the equator, the influence model is told the
    heading pi/2 instead of 90 (here: an influence model that returns the heading as
    the boat speed, so that the costs, the time, show the heading). *)
Theorem cost_heading_refuted :
  cost_cruise euler1 (mkDiagram (fun _ => Raise ValueError) (fun _ _ => Ok 5)) (0, 0) (1, 0) 0 wm_const None
    (fun t _ => t) trapezoid (Some (fun d => match dget "HDT" d with Some h => Ok h | None => Raise KeyError end)) =
  Ok (69 / (PI / 2)) /\ 69 / (PI / 2) <> 69 / 90.
Proof.
  pose proof pi_bounds as PB. split.
  - unfold cost_cruise. cbn [fst snd]. replace ((0 + 1) / 2) with (1 / 2) by field. rewrite !equator_proj. cbn [rbind fst snd]. rewrite equator_way.
    rewrite equator_course. cbn [rbind]. unfold euler1. rewrite np_div_ok by lra. cbn [rbind].
    unfold get_inverse_bsp. destruct (inverse_mercator_proj _ _). cbn [wm_const]. rewrite dget_dset_same. cbn [rbind].
    rewrite Reqb_false by lra. cbn [rbind snd py_last rev app]. f_equal. field. lra.
  - intros E. assert (69 / (PI / 2) * (PI / 2) = 69) as E1 by (field; lra). rewrite E in E1. lra.
Qed.
Print Assumptions cost_heading_refuted.
