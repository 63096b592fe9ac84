(** * Symmetrised point clouds and curves in binary64: model and properties

    [symmetrize] puts a point at [360 - wa] beside every point at [wa].  This file is about the rounding
    of [360 - wa] and [% 360]; numbers as in FloatMod.v (no nan, infinities or sign of zero). *)

From Coq Require Import List Bool Arith ZArith Reals Lra Lia.
From Flocq Require Import Core Sterbenz.
From Verif Require Import Num InterpModel FloatMod FloatUnit FloatSteps.
Import ListNotations.
Open Scope R_scope.

Local Instance valid_exp_m : Valid_exp fexp.
Proof. apply FLT_exp_valid. reflexivity. Qed.

(** [points = points[np.where(points[:, 0] >= 0)]] and [points[:, 1] %= 360] of [__init__].
    _polardiagrampointcloud.py 133-141, as [cloud_new] in CloudModel.v. *)
Definition f_cloud_new (pts : list (pt3 R)) : list (pt3 R) :=
  map (fun p => (pws p, np_mod360 (pwa p), pbs p)) (filter (fun p => Rleb 0 (pws p)) pts).

(** [symmetrize].  _polardiagrampointcloud.py 272-299, as [cloud_symmetrize] in CloudModel.v. *)
Definition f_cloud_symmetrize (cloud : list (pt3 R)) : list (pt3 R) :=
  match cloud with
  | [] => []
  | _ => f_cloud_new (cloud ++ map (fun p => (pws p, f_sub 360 (pwa p), pbs p)) cloud)
  end.

(** What [symmetrize] makes of one wind angle.  _polardiagrampointcloud.py 296 and 139. *)
Definition mirror (a : R) : R := np_mod360 (f_sub 360 a).

(** [__call__] of a curve in degrees on one wind with non-negative speed and [sym_func].
    _polardiagramcurve.py 130-145 and 209-212.  The model function is any function of the winds. *)
Definition f_curve_call (f : R -> R -> R) (ws wa : R) : R := f ws (np_mod360 wa).
Definition f_sym (f : R -> R -> R) (ws wa : R) : R := f_mul (/ 2) (f_add (f ws wa) (f ws (f_sub 360 wa))).

(** ** Specification *)

(** [b] is the mirror image of [a] on the circle, up to an error of 2^-45 degrees. *)
Definition near_mirror (a b : R) : Prop := exists k : Z, Rabs (b - (360 - a + 360 * IZR k)) <= bpow radix2 (-45).

(** [q] is the mirror image of the point [p], up to the rounding of the angle. *)
Definition mirrored (p q : pt3 R) : Prop := pws q = pws p /\ pbs q = pbs p /\ near_mirror (pwa p) (pwa q).

(** ** Proofs *)

Lemma fmod_small : forall x, 0 <= x < 360 -> fmod360 x = x.
Proof.
  intros x B. unfold fmod360. rewrite Ztrunc_floor by (apply Rmult_le_pos; lra).
  rewrite (Zfloor_imp 0) by (cbn; lra). lra.
Qed.
Lemma mod_small : forall x, 0 <= x < 360 -> np_mod360 x = x.
Proof.
  intros x B. unfold np_mod360. rewrite fmod_small by auto. destruct (Reqb_spec x 0) as [->|N]; auto.
  rewrite Rltb_false; auto. lra.
Qed.
Lemma mod_360 : np_mod360 360 = 0.
Proof.
  unfold np_mod360, fmod360. replace (360 / 360) with (IZR 1) by (cbn; lra). rewrite Ztrunc_IZR.
  rewrite Reqb_true by (cbn; lra). reflexivity.
Qed.

Lemma sub_range : forall a, 0 <= a <= 360 -> 0 <= f_sub 360 a <= 360.
Proof.
  intros a B. unfold f_sub. split; [apply rnd_ge; [apply format_0|lra]|apply rnd_le; [apply format_360|lra]].
Qed.
Lemma mirror_range : forall a, 0 <= a <= 360 -> 0 <= mirror a < 360.
Proof.
  intros a B. unfold mirror. pose proof (sub_range a B) as [L U]. destruct (Req_dec (f_sub 360 a) 360) as [->|N].
  - rewrite mod_360. lra.
  - rewrite mod_small; lra.
Qed.
Lemma sub_exact : forall a, binary64 (360 - a) -> f_sub 360 a = 360 - a.
Proof. intros a F. unfold f_sub. apply rnd_exact. auto. Qed.
Lemma sub_far : forall a, binary64 a -> 180 <= a <= 720 -> binary64 (360 - a).
Proof. intros a F B. apply sterbenz; auto with typeclass_instances; [apply FLT_exp_monotone|apply format_360|lra]. Qed.

Lemma mirror_exact : forall a, binary64 a -> 0 <= a < 360 -> binary64 (360 - a) -> mirror (mirror a) = a.
Proof.
  intros a F B FM. unfold mirror at 2. rewrite sub_exact by auto. destruct (Req_dec a 0) as [->|N].
  - replace (360 - 0) with 360 by lra. rewrite mod_360. unfold mirror. rewrite sub_exact by (replace (360 - 0) with 360 by lra; apply format_360).
    replace (360 - 0) with 360 by lra. apply mod_360.
  - rewrite mod_small by lra. unfold mirror. rewrite sub_exact; replace (360 - (360 - a)) with a by lra; auto. apply mod_small. auto.
Qed.

Lemma sub_error : forall a, 0 <= a <= 360 -> Rabs (f_sub 360 a - (360 - a)) <= bpow radix2 (-45).
Proof.
  intros a B. unfold f_sub. set (y := 360 - a). destruct (Req_dec y 0) as [Z|NY].
  { rewrite Z. unfold rnd. rewrite round_0 by auto with typeclass_instances. rewrite Rminus_0_r, Rabs_R0. apply bpow_ge_0. }
  eapply Rle_trans; [apply error_le_half_ulp; auto with typeclass_instances|].
  rewrite ulp_neq_0 by auto. unfold cexp, fexp, FLT_exp.
  assert (mag radix2 y <= 9)%Z as MG.
  { apply mag_le_bpow; auto. rewrite Rabs_pos_eq by (unfold y; lra). cbn. unfold y. lra. }
  replace (bpow radix2 (-45)) with (/ 2 * bpow radix2 (-44)).
  { apply Rmult_le_compat_l; [lra|]. apply bpow_le. lia. }
  change (-44)%Z with (1 + -45)%Z. rewrite bpow_plus. change (bpow radix2 1) with 2. lra.
Qed.
Lemma mirror_near : forall a, 0 <= a <= 360 -> near_mirror a (mirror a).
Proof.
  intros a B. pose proof (sub_error a B) as E. pose proof (sub_range a B) as [L U]. unfold near_mirror, mirror.
  destruct (Req_dec (f_sub 360 a) 360) as [Q|N].
  - rewrite Q in *. rewrite mod_360. exists (-1)%Z. replace (0 - (360 - a + 360 * -1)) with (360 - (360 - a)) by lra. auto.
  - rewrite mod_small by lra. exists 0%Z. replace (360 - a + 360 * 0) with (360 - a) by lra. auto.
Qed.

Lemma mirror_format : forall a, binary64 (mirror a).
Proof. intros a. unfold mirror. apply mod_closed_partial. apply rnd_format. Qed.

(** C150.  A wind angle is found again by mirroring twice exactly if its mirror image needs no rounding. *)
Theorem float_mirror_twice : forall a, binary64 a -> 0 <= a < 360 -> (mirror (mirror a) = a <-> binary64 (360 - a)).
Proof.
  intros a F B. split; [|apply mirror_exact; auto]. intros E. destruct (Rle_or_lt 180 a) as [G|L]; [apply sub_far; auto; lra|].
  assert (180 <= f_sub 360 a <= 360) as [R1 R2].
  { split; [|apply sub_range; lra]. unfold f_sub. apply rnd_ge; [apply (format_int 180); lia|lra]. }
  unfold mirror at 2 in E. destruct (Req_dec (f_sub 360 a) 360) as [Q|N].
  - rewrite Q, mod_360 in E. unfold mirror in E. rewrite sub_exact in E by (replace (360 - 0) with 360 by lra; apply format_360).
    replace (360 - 0) with 360 in E by lra. rewrite mod_360 in E. subst a. replace (360 - 0) with 360 by lra. apply format_360.
  - rewrite (mod_small (f_sub 360 a)) in E by lra. unfold mirror in E.
    rewrite (sub_exact (f_sub 360 a)) in E by (apply sub_far; [apply rnd_format|lra]). rewrite mod_small in E by lra.
    replace (360 - a) with (f_sub 360 a) by lra. apply rnd_format.
Qed.
Print Assumptions float_mirror_twice.

(** C150.  In particular for all angles from 180 on and all whole multiples of 2^-44 degrees. *)
Theorem float_mirror_exact_angles : forall a, binary64 a -> 0 <= a < 360 ->
  180 <= a \/ (exists k, a = IZR k * bpow radix2 (-44)) -> mirror (mirror a) = a /\ (0 < a -> mirror a = 360 - a).
Proof.
  intros a F B C. assert (binary64 (360 - a)) as FM.
  { destruct C as [C|[k ->]]; [apply sub_far; auto; lra|].
    replace (360 - IZR k * bpow radix2 (-44)) with (IZR (360 * 2 ^ 44 - k) * bpow radix2 (-44)).
    2:{ rewrite minus_IZR. replace (IZR (360 * 2 ^ 44)) with (360 * bpow radix2 44) by (cbn; lra).
        rewrite Rmult_minus_distr_r, Rmult_assoc, <- bpow_plus. change (bpow radix2 (44 + -44)) with 1. lra. }
    assert (0 < bpow radix2 (-44)) as P by apply bpow_gt_0.
    assert (0 <= k)%Z as K1. { apply le_IZR. apply Rmult_le_reg_r with (bpow radix2 (-44)); auto. lra. }
    assert (k < 360 * 2 ^ 44)%Z as K2.
    { apply lt_IZR. apply Rmult_lt_reg_r with (bpow radix2 (-44)); auto.
      replace (IZR (360 * 2 ^ 44)) with (360 * bpow radix2 44) by (cbn; lra). rewrite Rmult_assoc, <- bpow_plus. change (bpow radix2 (44 + -44)) with 1. lra. }
    apply multiple_format; [lia|]. rewrite Z.abs_eq by lia. lia. }
  split; [apply mirror_exact; auto|]. intros P. unfold mirror. rewrite sub_exact by auto. apply mod_small. lra.
Qed.
Print Assumptions float_mirror_exact_angles.

Lemma mirror_0 : mirror 0 = 0.
Proof.
  unfold mirror. rewrite sub_exact; replace (360 - 0) with 360 by lra; [apply mod_360|apply format_360].
Qed.
Lemma mirror_thrice : forall a, binary64 a -> 0 <= a < 360 -> mirror (mirror (mirror a)) = mirror a.
Proof.
  intros a F B. apply mirror_exact; [apply mirror_format|apply mirror_range; lra|].
  destruct (Rle_or_lt 180 a) as [G|L].
  - unfold mirror. rewrite sub_exact by (apply sub_far; auto; lra). rewrite mod_small by lra. replace (360 - (360 - a)) with a by lra. auto.
  - destruct (Rle_or_lt 180 (mirror a)) as [G2|L2]; [apply sub_far; [apply mirror_format|pose proof (mirror_range a); lra]|].
    assert (180 <= f_sub 360 a <= 360) as [R1 R2].
    { split; [|apply sub_range; lra]. unfold f_sub. apply rnd_ge; [apply (format_int 180); lia|lra]. }
    unfold mirror in *. destruct (Req_dec (f_sub 360 a) 360) as [Q|N].
    + rewrite Q, mod_360. replace (360 - 0) with 360 by lra. apply format_360.
    + rewrite mod_small in L2 by lra. lra.
Qed.

Lemma mk_ws : forall s a b : R, pws (s, a, b) = s. Proof. reflexivity. Qed.
Lemma mk_wa : forall s a b : R, pwa (s, a, b) = a. Proof. reflexivity. Qed.
Lemma mk_bs : forall s a b : R, pbs (s, a, b) = b. Proof. reflexivity. Qed.
Ltac mk := rewrite ?mk_ws, ?mk_wa, ?mk_bs.

(** A cloud as [f_cloud_new] makes it. *)
Definition cloud_ok (c : list (pt3 R)) : Prop := forall p, In p c -> 0 <= pws p /\ binary64 (pwa p) /\ 0 <= pwa p <= 360.

Lemma cloud_new_ok : forall pts, (forall p, In p pts -> binary64 (pwa p)) -> cloud_ok (f_cloud_new pts).
Proof.
  intros pts F p H. unfold f_cloud_new in H. apply in_map_iff in H. destruct H as [q [<- H]]. apply filter_In in H. destruct H as [I L].
  mk. destruct (Rleb_spec 0 (pws q)); [|discriminate]. split; auto. apply mod_closed_partial. auto.
Qed.

Lemma symmetrize_app : forall c, cloud_ok c -> f_cloud_symmetrize c =
  map (fun p => (pws p, np_mod360 (pwa p), pbs p)) c ++ map (fun p => (pws p, mirror (pwa p), pbs p)) c.
Proof.
  intros c OK. unfold f_cloud_symmetrize. destruct c as [|p0 r0] eqn:EC; auto. rewrite <- EC in *. clear EC p0 r0.
  assert (forall g : pt3 R -> pt3 R, (forall p, pws (g p) = pws p) -> filter (fun p => Rleb 0 (pws p)) (map g c) = map g c) as FI.
  { intros g G. induction c as [|p c IH]; auto. cbn [map filter]. rewrite G. rewrite Rleb_true by (apply (OK p); left; auto).
    f_equal. apply IH. intros q I. apply OK. right. auto. }
  unfold f_cloud_new. rewrite filter_app, map_app. rewrite FI by reflexivity.
  rewrite <- (map_id c) at 1. rewrite FI by reflexivity. rewrite map_id. f_equal. rewrite map_map. reflexivity.
Qed.

(** C150.  The cloud itself: the points with wind speed 0 or more, with their reduced angles (C83). *)
Theorem float_cloud_points : forall pts, (forall p, In p pts -> binary64 (pwa p)) ->
  Forall2 (fun p q => pws q = pws p /\ pbs q = pbs p /\
             forall r, exact_mod (pwa p) r -> Rabs (pwa q - r) <= bpow radix2 (-45) /\ (0 <= pwa p -> pwa q = r))
          (filter (fun p => if Rle_dec 0 (pws p) then true else false) pts) (f_cloud_new pts).
Proof.
  intros pts F. unfold f_cloud_new. induction pts as [|p pts IH]; [constructor|]. cbn [filter].
  assert (Rleb 0 (pws p) = if Rle_dec 0 (pws p) then true else false) as ->.
  { destruct (Rle_dec 0 (pws p)); [apply Rleb_true|apply Rleb_false]; lra. }
  destruct (Rle_dec 0 (pws p)); [|apply IH; intros q I; apply F; right; auto]. cbn [map]. constructor; [|apply IH; intros q I; apply F; right; auto].
  mk. split; auto. split; auto. intros r' E. pose proof (mod_error (pwa p) r' (F p (or_introl eq_refl)) E). tauto.
Qed.
Print Assumptions float_cloud_points.

(** C150.  A symmetrised cloud is the cloud, its angle 360 (which occurs by rounding only, see C83) written as 0,
    followed by the mirror images of its points, rounded. *)
Theorem float_symmetrize_mirrors : forall pts, (forall p, In p pts -> binary64 (pwa p)) ->
  let cloud := f_cloud_new pts in
  exists old new, f_cloud_symmetrize cloud = old ++ new /\
    Forall2 (fun p q => pws q = pws p /\ pbs q = pbs p /\ (pwa q = pwa p \/ (pwa p = 360 /\ pwa q = 0))) cloud old /\
    Forall2 mirrored cloud new /\
    (forall q, In q (f_cloud_symmetrize cloud) -> 0 <= pwa q < 360).
Proof.
  intros pts F cloud. pose proof (cloud_new_ok pts F) as OK. fold cloud in OK. clearbody cloud. clear pts F.
  rewrite symmetrize_app by auto. eexists. eexists. split; [reflexivity|]. split; [|split].
  - induction cloud as [|p c IH]; constructor; [|apply IH; intros q I; apply OK; right; auto].
    mk. split; auto. split; auto.
    destruct (OK p) as [_ [_ [L U]]]; [left; auto|]. destruct (Req_dec (pwa p) 360) as [Q|N].
    + right. split; auto. rewrite Q. apply mod_360.
    + left. apply mod_small. lra.
  - induction cloud as [|p c IH]; constructor; [|apply IH; intros q I; apply OK; right; auto].
    split; [reflexivity|]. split; [reflexivity|]. mk. apply mirror_near. apply (OK p). left. auto.
  - intros q I. apply in_app_or in I. destruct I as [I|I]; apply in_map_iff in I; destruct I as [p [<- I]]; destruct (OK p I) as [_ [_ [L U]]]; mk.
    + destruct (Req_dec (pwa p) 360) as [->|N]; [rewrite mod_360; lra|rewrite mod_small; lra].
    + apply mirror_range. lra.
Qed.
Print Assumptions float_symmetrize_mirrors.

Lemma symmetrize_ok : forall c, cloud_ok c -> cloud_ok (f_cloud_symmetrize c) /\ forall p, In p (f_cloud_symmetrize c) -> pwa p < 360.
Proof.
  intros c OK. rewrite symmetrize_app by auto. split; intros q I; apply in_app_or in I; destruct I as [I|I]; apply in_map_iff in I; destruct I as [p [<- I]];
    destruct (OK p I) as [S [Fp [L U]]].
  - mk. split; auto. apply mod_closed_partial. auto.
  - mk. split; auto. split; [apply mirror_format|]. pose proof (mirror_range (pwa p)). lra.
  - mk. destruct (Req_dec (pwa p) 360) as [->|N]; [rewrite mod_360; lra|rewrite mod_small; lra].
  - mk. pose proof (mirror_range (pwa p)). lra.
Qed.
Lemma symmetrize_In : forall c q, cloud_ok c -> (forall p, In p c -> pwa p < 360) ->
  (In q (f_cloud_symmetrize c) <-> In q c \/ exists p, In p c /\ q = (pws p, mirror (pwa p), pbs p)).
Proof.
  intros c q OK SM. rewrite symmetrize_app by auto. rewrite in_app_iff, !in_map_iff.
  assert (forall p, In p c -> (pws p, np_mod360 (pwa p), pbs p) = p) as ID.
  { intros p I. destruct (OK p I) as [_ [_ [L _]]]. rewrite mod_small by (split; auto). destruct p as [[s a] b]. reflexivity. }
  split.
  - intros [[p [<- I]]|[p [<- I]]]; [left; rewrite ID; auto|right; eauto].
  - intros [I|[p [I ->]]]; [left; exists q; auto|right; eauto].
Qed.

(** C150.  Symmetrising again may add points once more, but from the second time on nothing new appears. *)
Theorem float_symmetrize_settles : forall pts, (forall p, In p pts -> binary64 (pwa p)) ->
  let twice := f_cloud_symmetrize (f_cloud_symmetrize (f_cloud_new pts)) in
  forall q, In q (f_cloud_symmetrize twice) <-> In q twice.
Proof.
  intros pts F. pose proof (cloud_new_ok pts F) as OK. cbn zeta. set (c := f_cloud_new pts) in *. clearbody c. clear pts F.
  destruct (symmetrize_ok c OK) as [OK1 S1]. destruct (symmetrize_ok _ OK1) as [OK2 S2]. intros q.
  rewrite (symmetrize_In _ q OK2 S2). split; [|auto]. intros [I|[p [I ->]]]; auto.
  apply (symmetrize_In _ _ OK1 S1) in I. apply (symmetrize_In _ _ OK1 S1). destruct I as [I|[p0 [I ->]]].
  - right. exists p. auto.
  - mk.
    destruct (OK1 p0 I) as [_ [Fp [L _]]]. pose proof (S1 p0 I) as U.
    (* the point comes from the first cloud or is a mirror image *)
    rewrite symmetrize_app in I by auto. apply in_app_or in I. destruct I as [I|I]; apply in_map_iff in I; destruct I as [r [<- I]];
      destruct (OK r I) as [_ [Fr [Lr Ur]]]; mk.
    + destruct (Req_dec (pwa r) 360) as [Q|N].
      * left. rewrite symmetrize_app by auto. apply in_or_app. left. apply in_map_iff. exists r. split; auto. rewrite Q, mod_360, !mirror_0. reflexivity.
      * right. exists (pws r, mirror (pwa r), pbs r). split; [|rewrite mod_small by lra; reflexivity].
        rewrite symmetrize_app by auto. apply in_or_app. right. apply in_map_iff. exists r. auto.
    + left. rewrite symmetrize_app by auto. apply in_or_app. right. apply in_map_iff. exists r. split; auto.
      destruct (Req_dec (pwa r) 360) as [Q|N].
      * rewrite Q. assert (mirror 360 = 0) as ->; [|rewrite !mirror_0; reflexivity]. unfold mirror. rewrite sub_exact; replace (360 - 360) with 0 by lra; [|apply format_0]. apply mod_small. lra.
      * rewrite mirror_thrice by (auto; lra). reflexivity.
Qed.
Print Assumptions float_symmetrize_settles.

(** The binary64 number written 0.1, and what becomes of it. *)
Definition tenth : R := IZR 3602879701896397 * bpow radix2 (-55).
Lemma tenth_written : tenth = rnd (/ 10).
Proof.
  unfold tenth. symmetry. replace (IZR 3602879701896397 * bpow radix2 (-55)) with (IZR 7205759403792794 * bpow radix2 (-56)) by (small_bpow; lra).
  apply rnd_to; [lia|small_bpow; lra|apply Rabs_def1; small_bpow; lra].
Qed.
Lemma tenth_format : binary64 tenth.
Proof. apply multiple_format; lia. Qed.
Lemma tenth_mirror : mirror tenth = IZR 6331427757385318 * bpow radix2 (-44).
Proof.
  unfold mirror, f_sub, tenth. rewrite (rnd_to _ 6331427757385318 (-44)); [|lia|small_bpow; lra|apply Rabs_def1; small_bpow; lra].
  apply mod_small. small_bpow. lra.
Qed.

(** C150.  Symmetrising twice is not symmetrising once: the point at 0.1 degrees gets the mirror image 359.9 (rounded), and this one
    a bit more than 0.1 (by 0.8 * 2^-45) *)
Theorem float_symmetrize_twice_refuted : exists pts q, (forall p, In p pts -> binary64 (pwa p) /\ 0 < pwa p < 180) /\
  let once := f_cloud_symmetrize (f_cloud_new pts) in
  In q (f_cloud_symmetrize once) /\ ~ In q once /\ pwa q <> tenth /\ Rabs (pwa q - tenth) <= bpow radix2 (-45).
Proof.
  exists [(10, tenth, 2)], (10, 360 - mirror tenth, 2). cbn zeta.
  assert (0 < tenth < 180) as TB by (unfold tenth; small_bpow; lra).
  assert (f_cloud_new [(10, tenth, 2)] = [(10, tenth, 2)]) as EN.
  { unfold f_cloud_new, pws, pwa, pbs. cbn [filter fst snd]. rewrite Rleb_true by lra. cbn [map fst snd]. rewrite mod_small by lra. reflexivity. }
  rewrite EN. assert (cloud_ok [(10, tenth, 2)]) as OK.
  { intros p [<-|[]]. unfold pws, pwa. cbn [fst snd]. split; [lra|]. split; [apply tenth_format|lra]. }
  assert (forall p, In p [(10, tenth, 2)] -> pwa p < 360) as SM by (intros p [<-|[]]; unfold pwa; cbn [fst snd]; lra).
  assert (mirror (mirror tenth) = 360 - mirror tenth) as EM.
  { unfold mirror at 1. rewrite tenth_mirror. rewrite sub_exact; [apply mod_small; small_bpow; lra|].
    apply sub_far; [apply multiple_format; lia|small_bpow; lra]. }
  destruct (symmetrize_ok _ OK) as [OK1 S1]. split; [|split; [|split; [|split]]].
  - intros p [<-|[]]. unfold pwa. cbn [fst snd]. split; [apply tenth_format|lra].
  - apply (symmetrize_In _ _ OK1 S1). right. exists (10, mirror tenth, 2). split.
    + apply (symmetrize_In _ _ OK SM). right. exists (10, tenth, 2). split; [left; auto|reflexivity].
    + unfold pws, pwa, pbs. cbn [fst snd]. rewrite EM. reflexivity.
  - intros I. apply (symmetrize_In _ _ OK SM) in I. destruct I as [[I|[]]|[p [[<-|[]] I]]].
    + assert (tenth = 360 - mirror tenth) as E by congruence. rewrite tenth_mirror in E. revert E. unfold tenth. small_bpow. lra.
    + unfold pws, pwa, pbs in I. cbn [fst snd] in I. assert (360 - mirror tenth = mirror tenth) as E by congruence.
      rewrite tenth_mirror in E. revert E. small_bpow. lra.
  - unfold pwa. cbn [fst snd]. rewrite tenth_mirror. unfold tenth. small_bpow. lra.
  - unfold pwa. cbn [fst snd]. rewrite tenth_mirror. unfold tenth. apply Rabs_le. small_bpow. lra.
Qed.
Print Assumptions float_symmetrize_twice_refuted.

(** C150.  A curve is called at the reduced angle. *)
Theorem float_curve_reduces : forall f s a r, binary64 a -> 0 <= a -> exact_mod a r -> f_curve_call f s a = f s r.
Proof. intros f s a r F P E. unfold f_curve_call. rewrite (proj1 (mod_error a r F E) P). reflexivity. Qed.
Print Assumptions float_curve_reduces.

(** C150.  A symmetrised curve has exactly the same value at both sides if the mirror image of the angle needs no
    rounding. *)
Theorem float_curve_symmetric_partial : forall f s a, binary64 a -> 0 < a < 360 -> binary64 (360 - a) ->
  f_curve_call (f_sym f) s (f_sub 360 a) = f_curve_call (f_sym f) s a.
Proof.
  intros f s a F B FM. unfold f_curve_call. rewrite sub_exact by auto. rewrite !mod_small by lra. unfold f_sym.
  rewrite (sub_exact a) by auto. rewrite (sub_exact (360 - a)); replace (360 - (360 - a)) with a by lra; auto. unfold f_add. rewrite Rplus_comm. reflexivity.
Qed.
Print Assumptions float_curve_symmetric_partial.

(** C150.  Otherwise not: a model function that rises by 3 after the angle 0.1 gives different speeds at 0.1 and 360 - 0.1. *)
Theorem float_curve_symmetric_refuted : exists f s,
  f_curve_call (f_sym f) s (f_sub 360 tenth) <> f_curve_call (f_sym f) s tenth.
Proof.
  exists (fun _ a => if Rleb a tenth then 0 else if Rleb a 180 then 3 else 0), 10.
  assert (0 < tenth < 180) as TB by (unfold tenth; small_bpow; lra).
  pose proof tenth_mirror as TM. unfold mirror in TM.
  assert (f_sub 360 tenth = IZR 6331427757385318 * bpow radix2 (-44)) as TS.
  { unfold f_sub, tenth. apply rnd_to; [lia|small_bpow; lra|apply Rabs_def1; small_bpow; lra]. }
  unfold f_curve_call. rewrite TM. rewrite (mod_small tenth) by lra. unfold f_sym. rewrite TS.
  rewrite (sub_exact (IZR 6331427757385318 * bpow radix2 (-44))) by (apply sub_far; [apply multiple_format; lia|small_bpow; lra]).
  rewrite (Rleb_true tenth tenth) by lra.
  set (big := IZR 6331427757385318 * bpow radix2 (-44)).
  assert (180 < big) as B1 by (unfold big; small_bpow; lra).
  assert (tenth < 360 - big <= 180) as B2 by (unfold tenth, big; small_bpow; lra).
  rewrite (Rleb_false big tenth), (Rleb_false big 180), (Rleb_false (360 - big) tenth), (Rleb_true (360 - big) 180) by lra.
  unfold f_mul, f_add. rewrite !Rplus_0_l. rewrite (rnd_exact 0) by apply format_0. rewrite Rmult_0_r, (rnd_exact 0) by apply format_0.
  rewrite (rnd_exact 3) by (apply (format_int 3); lia). rewrite rnd_exact; [lra|].
  replace (/ 2 * 3) with (IZR 3 * bpow radix2 (-1)) by (cbn; lra). apply multiple_format; lia.
Qed.
Print Assumptions float_curve_symmetric_refuted.

Example float_mirror_meets : binary64 60 /\ binary64 (360 - 60) /\ mirror 60 = 300 /\ mirror (mirror 60) = 60.
Proof.
  assert (binary64 60) as F1 by (apply (format_int 60); lia).
  assert (binary64 (360 - 60)) as F2 by (replace (360 - 60) with 300 by lra; apply (format_int 300); lia).
  split; auto. split; auto. destruct (float_mirror_exact_angles 60 F1 ltac:(lra)) as [E1 E2].
  - right. exists (60 * 2 ^ 44)%Z. replace (IZR (60 * 2 ^ 44)) with (60 * bpow radix2 44) by (cbn; lra).
    rewrite Rmult_assoc, <- bpow_plus. change (bpow radix2 (44 + -44)) with 1. lra.
  - split; auto. rewrite E2; lra.
Qed.
