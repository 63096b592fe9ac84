(** * Gridded weather in binary64: properties

    The model functions of WeatherModel.v run on binary64 numbers ([FNum] of FloatSmooth.v: every
    operation rounds, overflow is left out).  Times are numbers of seconds; Python divides time
    differences with one rounding where three are allowed here. *)

From Coq Require Import String.
From Coq Require Import List Bool Arith ZArith Reals Lra Lia.
From Flocq Require Import Core Relative Plus_error.
From Verif Require Import Py Num ListX Dict WeatherModel WeatherProps FloatMod FloatUnit FloatSteps FloatAverage FloatSmooth.
Import ListNotations.
Open Scope list_scope.
Open Scope R_scope.

(** [GriddedWeatherModel.get_weather] of models/weather_model.py 118-136 and 249-313 in binary64. *)
Definition f_gridded_weather : gridded R -> list R -> result (dict R) := @gridded_weather R FNum.

(** ** Specification *)

(** The error allowed for data of at most [m]: 40 units in the last place. *)
Definition weather_error (m : R) : R := 40 * unit_roundoff * m + 16 * (1 + m) * tiny.

(** All numbers of the model are binary64 numbers, the data are at most [m]. *)
Definition weather64 (w : gridded R) (m : R) : Prop :=
  Forall binary64 (gw_times w) /\ Forall binary64 (gw_lats w) /\ Forall binary64 (gw_lons w) /\
  forall i j k q, binary64 (data_at (gw_data w) i j k q) /\ Rabs (data_at (gw_data w) i j k q) <= m.

(** ** Proofs *)

Lemma u_tiny : unit_roundoff <= / 1000.
Proof. unfold unit_roundoff. apply Rinv_le_contravar; [lra|]. apply (IZR_le 1000). vm_compute. discriminate. Qed.

(** Rounded convex combinations are close to the exact ones. *)
Lemma f_convex_error : forall mu a b M, unit64 mu -> binary64 a -> binary64 b -> Rabs a <= M -> Rabs b <= M ->
  Rabs (f_add (f_mul mu b) (f_mul (f_sub 1 mu) a) - (mu * b + (1 - mu) * a)) <= 4 * unit_roundoff * M + 4 * tiny.
Proof.
  intros mu a b M [FM HM] FA FB Ma Mb. unfold f_add, f_mul, f_sub.
  assert (0 <= M) as M0 by (pose proof (Rabs_pos a); lra).
  pose proof u_bounds as [U0 _]. pose proof u_small as U1. pose proof tiny_pos as T0. set (u := unit_roundoff) in *.
  set (nu := rnd (1 - mu)).
  assert (Rabs (nu - (1 - mu)) <= u * (1 - mu)) as EN.
  { unfold nu. replace (1 - mu) with (1 + - mu) by ring. eapply Rle_trans; [apply sum_err; [apply format_1|apply generic_format_opp; auto]|].
    rewrite Rabs_pos_eq by lra. fold u. lra. }
  assert (0 <= nu <= 1) as HN by (destruct (rnd_unit (1 - mu)) as [_ K]; [lra|exact K]).
  clearbody nu.
  pose proof (rnd_err (mu * b)) as EA. pose proof (rnd_err (nu * a)) as EB. fold u in EA, EB.
  set (pa := rnd (mu * b)) in *. set (pb := rnd (nu * a)) in *.
  assert (binary64 pa) as FPA by apply rnd_format. assert (binary64 pb) as FPB by apply rnd_format.
  pose proof (sum_err pa pb FPA FPB) as ES. fold u in ES. set (r := rnd (pa + pb)) in *. clearbody r pa pb.
  rewrite Rabs_mult, (Rabs_pos_eq mu) in EA by lra. rewrite Rabs_mult, (Rabs_pos_eq nu) in EB by lra.
  assert (Rabs (pa - mu * b) <= u * mu * M + tiny) as EA' by (assert (mu * Rabs b <= mu * M) by nra; nra).
  assert (Rabs (pb - nu * a) <= u * nu * M + tiny) as EB' by (assert (nu * Rabs a <= nu * M) by nra; nra).
  assert (Rabs (nu * a - (1 - mu) * a) <= u * (1 - mu) * M) as EC.
  { replace (nu * a - (1 - mu) * a) with ((nu - (1 - mu)) * a) by ring. rewrite Rabs_mult.
    pose proof (Rabs_pos (nu - (1 - mu))). pose proof (Rabs_pos a).
    apply Rle_trans with ((u * (1 - mu)) * M); [apply Rmult_le_compat; auto|lra]. }
  set (c := mu * b + (1 - mu) * a) in *.
  assert (Rabs c <= M) as MC.
  { unfold c. eapply Rle_trans; [apply Rabs_triang|]. rewrite !Rabs_mult, (Rabs_pos_eq mu), (Rabs_pos_eq (1 - mu)) by lra. nra. }
  assert (nu <= (1 - mu) * (1 + u)) as NU by (apply Rabs_le_inv in EN; lra).
  assert (Rabs (pa + pb - c) <= u * M * (2 + u) + 2 * tiny) as E1.
  { replace (pa + pb - c) with ((pa - mu * b) + (pb - nu * a) + (nu * a - (1 - mu) * a)) by (unfold c; ring).
    eapply Rle_trans; [apply Rabs_triang|]. eapply Rle_trans; [apply Rplus_le_compat_r, Rabs_triang|].
    assert (u * nu * M <= u * M * ((1 - mu) * (1 + u))) by (assert (0 <= u * M) by nra; nra).
    assert (0 <= u * M * mu * u) by (repeat apply Rmult_le_pos; lra).
    nra. }
  assert (Rabs (pa + pb) <= M + (u * M * (2 + u) + 2 * tiny)) as E2.
  { replace (pa + pb) with (c + (pa + pb - c)) by ring. eapply Rle_trans; [apply Rabs_triang|]. lra. }
  replace (r - c) with ((r - (pa + pb)) + (pa + pb - c)) by ring. eapply Rle_trans; [apply Rabs_triang|].
  assert (u * Rabs (pa + pb) <= u * (M + (u * M * (2 + u) + 2 * tiny))) by (apply Rmult_le_compat_l; lra).
  set (m := u * M) in *. assert (0 <= m) by (unfold m; nra).
  replace (u * (M + (m * (2 + u) + 2 * tiny))) with (m + u * (m * (2 + u) + 2 * tiny)) in * by (unfold m; ring).
  assert (m * (2 + u) <= 3 * m) by nra. assert (u * (m * (2 + u) + 2 * tiny) <= / 16 * (3 * m + 2 * tiny)) by nra.
  assert (m * (2 + u) <= m * (2 + / 16)) by nra. replace (4 * u * M) with (4 * m) by (unfold m; ring). lra.
Qed.

Lemma f_sub_nonzero : forall a b, binary64 a -> binary64 b -> a <> b -> f_sub a b <> 0.
Proof.
  intros a b FA FB N. unfold f_sub, rnd. replace (a - b) with (a + - b) by ring.
  assert (Prec_gt_0 53) as PG by reflexivity.
  assert (Valid_exp fexp) as VE by (apply FLT_exp_valid; auto).
  assert (Monotone_exp fexp) as ME by apply FLT_exp_monotone.
  assert (Exp_not_FTZ fexp) as NF by (intros e; unfold fexp, FLT_exp; lia).
  apply round_plus_neq_0; auto with typeclass_instances; [apply generic_format_opp; auto|lra].
Qed.

(** The weight [lamb], computed from negative differences. *)
Lemma f_lamb : forall a x b, binary64 a -> binary64 x -> binary64 b -> a < x < b ->
  unit64 (rnd (f_sub x b / f_sub a b)) /\ Rabs (rnd (f_sub x b / f_sub a b) - (b - x) / (b - a)) <= 4 * unit_roundoff + tiny.
Proof.
  intros a x b FA FX FB L.
  assert (forall p q, f_sub p q = - f_sub q p) as OPP.
  { intros p q. unfold f_sub, rnd. replace (p - q) with (- (q - p)) by ring. apply round_NE_opp. }
  rewrite (OPP x b), (OPP a b). pose proof (f_sub_nonzero b a FB FA ltac:(lra)) as NZ.
  assert (0 <= f_sub b x) as N0 by (apply rnd_nonneg; lra).
  assert (f_sub b x <= f_sub b a) as NL by (apply rnd_mono; lra).
  assert (0 < f_sub b a) as D0 by lra.
  replace (- f_sub b x / - f_sub b a) with (f_sub b x / f_sub b a) by (field; lra).
  assert (Rabs (f_sub b x - (b - x)) <= unit_roundoff * (b - x)) as E1.
  { unfold f_sub. replace (b - x) with (b + - x) by ring. eapply Rle_trans; [apply sum_err; auto; apply generic_format_opp; auto|].
    rewrite Rabs_pos_eq by lra. lra. }
  assert (Rabs (f_sub b a - (b - a)) <= unit_roundoff * (b - a)) as E2.
  { unfold f_sub. replace (b - a) with (b + - a) by ring. eapply Rle_trans; [apply sum_err; auto; apply generic_format_opp; auto|].
    rewrite Rabs_pos_eq by lra. lra. }
  set (n := f_sub b x) in *. set (d := f_sub b a) in *. clearbody n d.
  assert (0 <= n / d <= 1) as [Q0 Q1].
  { split; [apply Rmult_le_pos; [auto|apply Rlt_le, Rinv_0_lt_compat; auto]|].
    apply (Rmult_le_reg_r d); auto. unfold Rdiv. rewrite Rmult_assoc, Rinv_l by lra. lra. }
  split; [apply rnd_unit; auto|].
  pose proof (rnd_err (n / d)) as E3. rewrite (Rabs_pos_eq (n / d)) in E3 by lra.
  pose proof u_bounds as [U0 _]. pose proof u_tiny as U1. pose proof tiny_pos as T0. set (u := unit_roundoff) in *. clearbody u.
  set (l := (b - x) / (b - a)) in *. assert (l * (b - a) = b - x) as EL by (unfold l; field; lra).
  assert (0 <= l <= 1) as L01.
  { split; [apply Rmult_le_pos; [lra|apply Rlt_le, Rinv_0_lt_compat; lra]|].
    apply (Rmult_le_reg_r (b - a)); lra. }
  assert (n / d * d = n) as ED by (field; lra). set (q := n / d) in *. clearbody q l.
  assert (Rabs (q - l) <= 5 / 2 * u) as E4.
  { (* (q - l) d = (n - (b-x)) - l (d - (b-a)) *)
    assert (Rabs ((q - l) * d) <= 2 * u * (b - a)) as K.
    { replace ((q - l) * d) with ((n - (b - x)) + - (l * (d - (b - a)))) by (rewrite <- EL, <- ED; ring).
      eapply Rle_trans; [apply Rabs_triang|]. rewrite Rabs_Ropp, Rabs_mult, (Rabs_pos_eq l) by lra.
      assert (l * Rabs (d - (b - a)) <= 1 * (u * (b - a))) by (apply Rmult_le_compat; try lra; apply Rabs_pos).
      assert (u * (b - x) <= u * (b - a)) by (apply Rmult_le_compat_l; lra). lra. }
    rewrite Rabs_mult, (Rabs_pos_eq d) in K by lra. apply Rabs_le_inv in E2.
    assert ((b - a) * (1 - u) <= d) by lra.
    apply (Rmult_le_reg_r d); auto. eapply Rle_trans; [exact K|].
    assert (5 / 2 * u * ((b - a) * (1 - u)) <= 5 / 2 * u * d) by (apply Rmult_le_compat_l; lra).
    assert (2 * u * (b - a) <= 5 / 2 * u * ((b - a) * (1 - u))); [|lra].
    assert (0 <= u * (b - a)) by nra. nra. }
  replace (rnd q - l) with ((rnd q - q) + (q - l)) by ring. eapply Rle_trans; [apply Rabs_triang|]. nra.
Qed.

(** One interpolation step: the errors of the two terms and of the step itself. *)
Lemma f_step : forall a x b A B A' B' M dl, binary64 a -> binary64 x -> binary64 b -> a < x < b ->
  binary64 A -> binary64 B -> 0 <= dl -> Rabs A' <= M -> Rabs B' <= M -> Rabs (A - A') <= dl -> Rabs (B - B') <= dl ->
  let lamb := rnd (f_sub x b / f_sub a b) in
  Rabs (f_add (f_mul lamb A) (f_mul (f_sub 1 lamb) B) - ((b - x) / (b - a) * A' + (x - a) / (b - a) * B')) <=
  dl * (1 + 4 * unit_roundoff) + 12 * unit_roundoff * M + (4 + 2 * M) * tiny.
Proof.
  intros a x b A B A' B' M dl FA FX FB L HA HB D0 MA MB EA EB lamb.
  destruct (f_lamb a x b FA FX FB L) as [UL EL]. fold lamb in UL, EL.
  assert ((x - a) / (b - a) = 1 - (b - x) / (b - a)) as -> by (field; lra).
  set (l := (b - x) / (b - a)) in *. clearbody l lamb.
  assert (Rabs A <= M + dl) as MA2.
  { replace A with (A' + (A - A')) by ring. eapply Rle_trans; [apply Rabs_triang|]. lra. }
  assert (Rabs B <= M + dl) as MB2.
  { replace B with (B' + (B - B')) by ring. eapply Rle_trans; [apply Rabs_triang|]. lra. }
  pose proof (f_convex_error lamb B A (M + dl) UL HB HA MB2 MA2) as E. destruct UL as [_ UL].
  set (r := f_add _ _) in *. clearbody r.
  replace (r - (l * A' + (1 - l) * B')) with
    ((r - (lamb * A + (1 - lamb) * B)) + (lamb * (A - A') + (1 - lamb) * (B - B')) + (lamb - l) * (A' + - B')) by ring.
  eapply Rle_trans; [apply Rabs_triang|]. eapply Rle_trans; [apply Rplus_le_compat_r, Rabs_triang|].
  assert (Rabs (lamb * (A - A') + (1 - lamb) * (B - B')) <= dl) as E2.
  { eapply Rle_trans; [apply Rabs_triang|]. rewrite !Rabs_mult, (Rabs_pos_eq lamb), (Rabs_pos_eq (1 - lamb)) by lra. nra. }
  assert (Rabs ((lamb - l) * (A' + - B')) <= (4 * unit_roundoff + tiny) * (2 * M)) as E3.
  { rewrite Rabs_mult. apply Rmult_le_compat; try apply Rabs_pos; auto.
    eapply Rle_trans; [apply Rabs_triang|]. rewrite Rabs_Ropp. lra. }
  pose proof u_bounds. pose proof tiny_pos. lra.
Qed.

Definition step_error (M dl : R) : R := dl * (1 + 4 * unit_roundoff) + 12 * unit_roundoff * M + (4 + 2 * M) * tiny.

Lemma step_error_ge : forall M dl, 0 <= M -> 0 <= dl -> dl <= step_error M dl.
Proof.
  intros M dl HM HD. unfold step_error. pose proof u_bounds. pose proof tiny_pos.
  assert (0 <= dl * (4 * unit_roundoff)) by (apply Rmult_le_pos; lra).
  assert (0 <= 12 * unit_roundoff * M) by (apply Rmult_le_pos; lra).
  assert (0 <= (4 + 2 * M) * tiny) by (apply Rmult_le_pos; lra). lra.
Qed.

Lemma three_steps : forall M, 0 <= M -> step_error M (step_error M (step_error M 0)) <= weather_error M.
Proof.
  intros M HM. unfold step_error, weather_error. pose proof u_bounds as [U0 _]. pose proof u_tiny as U1. pose proof tiny_pos as T.
  set (u := unit_roundoff) in *. clearbody u. set (e := 12 * u * M + (4 + 2 * M) * tiny).
  replace (((0 * (1 + 4 * u) + 12 * u * M + (4 + 2 * M) * tiny) * (1 + 4 * u) + 12 * u * M + (4 + 2 * M) * tiny) * (1 + 4 * u) + 12 * u * M + (4 + 2 * M) * tiny)
    with (e * (3 + 12 * u + 16 * (u * u))) by (unfold e; ring).
  assert (0 <= u * M) by nra. assert (0 <= M * tiny) by nra. assert (0 <= e) by (unfold e; nra).
  assert (u * u <= / 1000 * / 1000) by nra. apply Rle_trans with (e * (3 + 1 / 10)); [apply Rmult_le_compat_l; lra|].
  unfold e. lra.
Qed.

(** A step of the recursion, with approximate terms. *)
Lemma f_recursion_step : forall get_data g x cs c vals rp rd done s (F : nat -> nat -> R) M dl,
  ascending g -> in_range g x -> Forall binary64 g -> binary64 x -> 0 <= M -> 0 <= dl ->
  cuboid_dim (g, x) = Ok (g, c, vals) -> found g x cs ->
  (forall i q, Rabs (F i q) <= M) ->
  (forall i w, In (i, w) cs -> exists l, @recursion R FNum get_data rp rd (done ++ [i]) = Ok l /\ length l = s /\
     forall q, (q < s)%nat -> binary64 (nth q l 0) /\ Rabs (nth q l 0 - F i q) <= dl) ->
  exists l, @recursion R FNum get_data (x :: rp) ((g, c, vals) :: rd) done = Ok l /\ length l = s /\
    forall q, (q < s)%nat -> binary64 (nth q l 0) /\ Rabs (nth q l 0 - weighted cs (fun i => F i q)) <= step_error M dl.
Proof.
  intros get_data g x cs c vals rp rd dn s F M dl S RG FG FX M0 D0 E FD BF REC.
  destruct (cuboid_dim_spec g x S RG) as [c' [vals' [E' K]]]. rewrite E in E'.
  injection E' as <- <-. cbn [recursion].
  change (@find_index R FNum x vals) with (@find_index R RNum x vals).
  destruct K as [[I J]|[I [J [i [a [b [-> [A [B L]]]]]]]]]; rewrite J.
  - destruct FD as [[_ ->]|[N _]]; [|contradiction].
    destruct (REC 0%nat 1) as [l [L1 [L2 L3]]]; [left; reflexivity|]. exists l. split; [exact L1|]. split; [exact L2|].
    intros q Hq. destruct (L3 q Hq) as [B1 B2]. split; auto.
    unfold weighted. cbn [map Rsum fst snd]. replace (1 * F 0%nat q + 0) with (F 0%nat q) by ring.
    pose proof (step_error_ge M dl M0 D0). lra.
  - destruct FD as [[N _]|[_ [[k [Hk _]]|[k [a' [b' [A' [B' [L' ->]]]]]]]]].
    + contradiction.
    + exfalso. apply I. eapply nth_error_In; eauto.
    + assert (k = i) as ->.
      { destruct (lt_eq_lt_dec k i) as [[C|C]|C]; auto; exfalso.
        - assert (b' <= a) by (apply (S (Datatypes.S k) i); auto). lra.
        - assert (b <= a') by (apply (S (Datatypes.S i) k); auto). lra. }
      rewrite A in A'. injection A' as <-. rewrite B in B'. injection B' as <-.
      assert (py_nth g i = Ok a) as PA by (unfold py_nth; rewrite A; reflexivity).
      assert (py_nth g (Datatypes.S i) = Ok b) as PB by (unfold py_nth; rewrite B; reflexivity).
      rewrite Forall_forall in FG. assert (binary64 a) as Fa by (apply FG; eapply nth_error_In; eauto).
      assert (binary64 b) as Fb by (apply FG; eapply nth_error_In; eauto).
      change (py_nth [i; Datatypes.S i] 0) with (Ok i).
      change (py_nth [i; Datatypes.S i] 1) with (Ok (Datatypes.S i)).
      cbn [rbind]. rewrite PB, PA. cbn [rbind]. unfold py_div. cbn [neqb nsub nofZ ndiv FNum].
      rewrite (rnd_exact 0) by apply format_0.
      rewrite Reqb_false by (apply f_sub_nonzero; auto; lra). cbn [rbind].
      destruct (REC i ((b - x) / (b - a))) as [l1 [P1 [P2 P3]]]; [left; reflexivity|].
      destruct (REC (Datatypes.S i) ((x - a) / (b - a))) as [l2 [Q1 [Q2 Q3]]]; [right; left; reflexivity|].
      rewrite P1, Q1. cbn [rbind]. eexists. split; [reflexivity|].
      assert (length (combine l1 l2) = s) as LC by (rewrite combine_length; lia).
      split; [unfold affine; rewrite map_length; exact LC|].
      intros q Hq. unfold affine. cbn [nadd nmul nsub nofZ FNum]. rewrite (rnd_exact 1) by apply format_1.
      set (h := fun p : R * R => f_add (f_mul (rnd (f_sub x b / f_sub a b)) (fst p)) (f_mul (f_sub 1 (rnd (f_sub x b / f_sub a b))) (snd p))).
      assert (nth q (map h (combine l1 l2)) 0 = h (nth q l1 0, nth q l2 0)) as ->.
      { rewrite <- combine_nth by lia. rewrite (nth_indep _ 0 (h (0, 0))) by (rewrite map_length; lia). apply map_nth. }
      destruct (P3 q Hq) as [X1 X2]. destruct (Q3 q Hq) as [Y1 Y2].
      split; [apply rnd_format|].
      unfold weighted. cbn [map Rsum fst snd].
      replace ((b - x) / (b - a) * F i q + ((x - a) / (b - a) * F (Datatypes.S i) q + 0))
        with ((b - x) / (b - a) * F i q + (x - a) / (b - a) * F (Datatypes.S i) q) by ring.
      apply (f_step a x b (nth q l1 0) (nth q l2 0)); auto.
Qed.

Lemma weights_bound : forall g x cs, found g x cs -> forall f M, 0 <= M -> (forall i, Rabs (f i) <= M) -> Rabs (weighted cs f) <= M.
Proof.
  intros g x cs FD f M M0 B. assert (forall i, - M <= f i <= M) as B' by (intros i; apply Rabs_le_inv; auto).
  apply Rabs_le. destruct FD as [[_ ->]|[_ N]].
  - unfold weighted. cbn [map Rsum fst snd]. specialize (B' 0%nat). lra.
  - destruct (neighbours_weights g x cs N) as [W1 W2]. apply weighted_bounds; auto.
Qed.

Lemma f_gridded_value : forall w t la lo c1 c2 c3 M, well_shaped w -> 0 <= M -> weather64 w M ->
  binary64 t -> binary64 la -> binary64 lo ->
  in_range (gw_times w) t -> in_range (gw_lats w) la -> in_range (gw_lons w) lo ->
  found (gw_times w) t c1 -> found (gw_lats w) la c2 -> found (gw_lons w) lo c3 ->
  exists d, f_gridded_weather w [t; la; lo] = Ok d /\
    forall q attr, nth_error (gw_attrs w) q = Some attr -> exists v, dget attr d = Some v /\ binary64 v /\
      Rabs (v - trilinear (gw_data w) c1 c2 c3 q) <= weather_error M.
Proof.
  intros w t la lo c1 c2 c3 M W M0 [G1 [G2 [G3 GD]]] Ft Fla Flo R1 R2 R3 F1 F2 F3.
  pose proof W as W'. destruct W' as [N1 [N2 [N3 [S1 [S2 [S3 [ND _]]]]]]].
  unfold f_gridded_weather, gridded_weather, recursive_affine_interpolation.
  pose proof R1 as R1'. pose proof R2 as R2'. pose proof R3 as R3'.
  apply in_range_ends in R1', R2', R3'.
  destruct R1' as [a1 [b1 [A1 [B1 L1]]]]. destruct R2' as [a2 [b2 [A2 [B2 L2]]]].
  destruct R3' as [a3 [b3 [A3 [B3 L3]]]].
  cbn [mapM rbind]. rewrite A1, A2, A3, B1, B2, B3. cbn [rbind combine existsb fst snd nltb FNum].
  rewrite (Rltb_false t a1), (Rltb_false la a2), (Rltb_false lo a3) by lra.
  rewrite (Rltb_false b1 t), (Rltb_false b2 la), (Rltb_false b3 lo) by lra. cbn [orb].
  destruct (cuboid_dim_spec _ _ S1 R1) as [e1 [v1 [E1 _]]].
  destruct (cuboid_dim_spec _ _ S2 R2) as [e2 [v2 [E2 _]]].
  destruct (cuboid_dim_spec _ _ S3 R3) as [e3 [v3 [E3 _]]].
  change (@cuboid_dim R FNum) with (@cuboid_dim R RNum).
  cbn [combine mapM]. rewrite E1, E2, E3. cbn [rbind].
  set (D := gw_data w) in *. set (s := length (gw_attrs w)).
  pose proof (step_error_ge M 0 M0 ltac:(lra)) as P1. pose proof (step_error_ge M _ M0 P1) as P2.
  destruct (f_recursion_step (gw_get_data D) (gw_times w) t c1 e1 v1 [la; lo] [(gw_lats w, e2, v2); (gw_lons w, e3, v3)] [] s
    (fun i q => weighted c2 (fun j => weighted c3 (fun k => data_at D i j k q))) M (step_error M (step_error M 0)))
    as [l [E [LL B]]]; auto; [lra| | |].
  - intros i q. apply (weights_bound _ _ _ F2); auto. intros j. apply (weights_bound _ _ _ F3); auto. intros k. apply GD.
  - intros i w1 I1. apply (f_recursion_step _ _ _ c2 _ _ _ _ _ s (fun j q => weighted c3 (fun k => data_at D i j k q))); auto.
    + intros j q. apply (weights_bound _ _ _ F3); auto. intros k. apply GD.
    + intros j w2 I2. apply (f_recursion_step _ _ _ c3 _ _ _ _ _ s (fun k q => data_at D i j k q)); auto; [lra| |].
      * intros k q. apply GD.
      * intros k w3 I3. exists (map (data_at D i j k) (seq 0 s)). split.
        -- cbn [app recursion]. apply (get_data_at w); auto; eapply found_in; eauto.
        -- split; [rewrite map_length, seq_length; auto|]. intros q Hq.
           rewrite (nth_indep _ 0 (data_at D i j k 0%nat)) by (rewrite map_length, seq_length; auto).
           rewrite map_nth, seq_nth by auto. cbn [Nat.add]. split; [apply GD|].
           rewrite Rminus_eq_0, Rabs_R0. lra.
  - rewrite E. cbn [rbind]. eexists. split; [reflexivity|]. intros q attr Hq.
    assert (q < s)%nat as Lq by (unfold s; apply nth_error_Some; congruence).
    destruct (B q Lq) as [Bq Eq]. exists (nth q l 0).
    assert (l = map (fun i => nth i l 0) (seq 0 (length (gw_attrs w)))) as ML.
    { fold s. rewrite <- LL. clear. apply nth_ext with (d := 0) (d' := nth (length l) l 0); [rewrite map_length, seq_length; auto|].
      intros n Hn. rewrite (map_nth (fun i => nth i l 0)), seq_nth by auto. reflexivity. }
    split; [rewrite ML at 1; apply (dict_zip_get (gw_attrs w) (fun i => nth i l 0) q attr ND Hq)|]. split; auto.
    eapply Rle_trans; [exact Eq|]. apply three_steps. auto.
Qed.

(** ** Properties *)

(** C148.  Each value answered in binary64 differs from the affine interpolation of the surrounding
    grid points by at most 40 units in the last place of the largest value, for points each of whose
    coordinates is no grid value or the first one (for others see [gridded_weather_refuted]). *)
Theorem float_weather_partial : forall w t la lo M, well_shaped w -> 0 <= M -> weather64 w M ->
  binary64 t -> binary64 la -> binary64 lo ->
  in_range (gw_times w) t -> in_range (gw_lats w) la -> in_range (gw_lons w) lo ->
  (In t (gw_times w) -> nth_error (gw_times w) 0 = Some t) ->
  (In la (gw_lats w) -> nth_error (gw_lats w) 0 = Some la) ->
  (In lo (gw_lons w) -> nth_error (gw_lons w) 0 = Some lo) ->
  exists c1 c2 c3 d, neighbours (gw_times w) t c1 /\ neighbours (gw_lats w) la c2 /\
    neighbours (gw_lons w) lo c3 /\ f_gridded_weather w [t; la; lo] = Ok d /\
    forall q attr, nth_error (gw_attrs w) q = Some attr -> exists v, dget attr d = Some v /\ binary64 v /\
      Rabs (v - trilinear (gw_data w) c1 c2 c3 q) <= weather_error M.
Proof.
  intros w t la lo M W M0 WF Ft Fla Flo R1 R2 R3 G1 G2 G3.
  pose proof W as W'. destruct W' as [N1 [N2 [N3 [S1 [S2 [S3 [ND _]]]]]]].
  assert (forall g x cs, (In x g -> nth_error g 0 = Some x) -> found g x cs -> neighbours g x cs) as K.
  { intros g x cs G [[I ->]|[_ H]]; auto. left. exists 0%nat. auto. }
  destruct (found_exists _ _ S1 R1) as [c1 F1]. destruct (found_exists _ _ S2 R2) as [c2 F2].
  destruct (found_exists _ _ S3 R3) as [c3 F3].
  destruct (f_gridded_value w t la lo c1 c2 c3 M W M0 WF Ft Fla Flo R1 R2 R3 F1 F2 F3) as [d [E D]].
  exists c1, c2, c3, d. auto 10.
Qed.
Print Assumptions float_weather_partial.

(** C148.  At grid points nothing is rounded. *)
Theorem float_weather_grid_point : forall w t la lo, well_shaped w ->
  In t (gw_times w) -> In la (gw_lats w) -> In lo (gw_lons w) ->
  f_gridded_weather w [t; la; lo] = gridded_weather w [t; la; lo].
Proof.
  intros w t la lo W I1 I2 I3. pose proof W as W'. destruct W' as [N1 [N2 [N3 [S1 [S2 [S3 [ND _]]]]]]].
  assert (forall g x, ascending g -> In x g -> in_range g x) as IR.
  { intros g x S I. apply In_nth_error in I. destruct I as [n Hn]. assert (n < length g)%nat as L by (apply nth_error_Some; congruence).
    destruct (nth_error g 0) as [a|] eqn:A; [|apply nth_error_None in A; lia].
    destruct (nth_error g (length g - 1)) as [b|] eqn:B; [|apply nth_error_None in B; lia].
    exists a, b. split; auto. split; auto. split; [apply (S 0%nat n); auto; lia|apply (S n (length g - 1)%nat); auto; lia]. }
  pose proof (IR _ _ S1 I1) as R1. pose proof (IR _ _ S2 I2) as R2. pose proof (IR _ _ S3 I3) as R3.
  unfold f_gridded_weather, gridded_weather, recursive_affine_interpolation.
  change (@cuboid_dim R FNum) with (@cuboid_dim R RNum). change (@nltb R FNum) with (@nltb R RNum).
  destruct (mapM (fun d => py_nth d 0) [gw_times w; gw_lats w; gw_lons w]) as [f|e]; [|reflexivity].
  destruct (mapM py_last [gw_times w; gw_lats w; gw_lons w]) as [l|e]; [|reflexivity]. cbn [rbind].
  destruct (existsb _ _ || existsb _ _); [reflexivity|].
  destruct (cuboid_dim_spec _ _ S1 R1) as [e1 [v1 [E1 K1]]].
  destruct (cuboid_dim_spec _ _ S2 R2) as [e2 [v2 [E2 K2]]].
  destruct (cuboid_dim_spec _ _ S3 R3) as [e3 [v3 [E3 K3]]].
  cbn [combine mapM]. rewrite E1, E2, E3. cbn [rbind recursion].
  change (@find_index R FNum) with (@find_index R RNum).
  destruct K1 as [[_ ->]|[C _]]; [|contradiction]. destruct K2 as [[_ ->]|[C _]]; [|contradiction].
  destruct K3 as [[_ ->]|[C _]]; [|contradiction]. reflexivity.
Qed.
Print Assumptions float_weather_grid_point.

(** Wind of 6.1 knots at two times. *)
Definition steady : gridded R := mkGridded [[[[speed_61]]]; [[[speed_61]]]] [0; 10] [50] [8] ["TWS"%string].

Lemma steady_shape : well_shaped steady.
Proof.
  unfold well_shaped, steady. cbn [gw_times gw_lats gw_lons gw_attrs gw_data].
  repeat (split; [discriminate|]). split; [apply ascending_sorted2; lra|].
  split; [apply ascending1|]. split; [apply ascending1|].
  split; [constructor; [intros []|constructor]|]. split; [reflexivity|].
  intros a Ha. destruct Ha as [<-|[<-|[]]]; (split; [reflexivity|]);
  intros b Hb; destruct Hb as [<-|[]]; (split; [reflexivity|]);
  intros c Hc; destruct Hc as [<-|[]]; reflexivity.
Qed.

(** C148, refuted part: wind that is 6.1 knots everywhere is more in between. *)
Theorem float_weather_range_refuted : exists d, well_shaped steady /\
  f_gridded_weather steady [9; 50; 8] = Ok d /\ dget "TWS"%string d = Some (speed_61 + bpow radix2 (-50)).
Proof.
  eexists. split; [exact steady_shape|].
  assert (forall z, (Z.abs z < 2 ^ 53)%Z -> rnd (IZR z) = IZR z) as RZ by (intros z Hz; apply rnd_exact, format_int; auto).
  unfold f_gridded_weather, gridded_weather, recursive_affine_interpolation, steady.
  cbn [gw_data gw_times gw_lats gw_lons gw_attrs mapM py_nth nth_error rbind py_last rev app combine existsb fst snd nltb FNum orb].
  rewrite (Rltb_false 9 0), (Rltb_false 50 50), (Rltb_false 8 8), (Rltb_false 10 9) by lra. cbn [orb].
  change (@cuboid_dim R FNum) with (@cuboid_dim R RNum).
  assert (cuboid_dim ([0; 10], 9) = Ok ([0; 10], [0%nat; 1%nat], [0; 10])) as ->.
  { unfold cuboid_dim, bisect_left. cbn [length bisect_loop Nat.ltb Nat.leb Nat.add Nat.div Nat.divmod fst snd nth_error]. rnum.
    rewrite (Rltb_false 10 9) by lra. cbn [bisect_loop Nat.ltb Nat.leb Nat.add Nat.div Nat.divmod fst snd nth_error]. rnum.
    rewrite (Rltb_true 0 9) by lra. cbn [py_nth nth_error rbind]. rnum. rewrite (Reqb_false 10 9) by lra. reflexivity. }
  assert (forall a, cuboid_dim ([a], a) = Ok ([a], [0%nat], [a])) as C1.
  { intros a. unfold cuboid_dim, bisect_left. cbn [length bisect_loop Nat.ltb Nat.leb Nat.add Nat.div Nat.divmod fst snd nth_error]. rnum.
    rewrite (Rltb_false a a) by lra. cbn [py_nth nth_error rbind]. rnum. rewrite Reqb_refl. reflexivity. }
  rewrite !C1. cbn [rbind recursion find_index neqb FNum option_map].
  rewrite (Reqb_false 0 9), (Reqb_false 10 9), !Reqb_refl by lra.
  cbn [option_map py_nth nth_error rbind app gw_get_data]. unfold py_div. cbn [neqb nsub nofZ ndiv FNum].
  rewrite (RZ 0%Z) by reflexivity.
  assert (f_sub 9 10 = -1 /\ f_sub 0 10 = -10) as [-> ->].
  { unfold f_sub. split; [replace (9 - 10) with (-1) by lra; apply (RZ (-1)%Z); reflexivity|replace (0 - 10) with (-10) by lra; apply (RZ (-10)%Z); reflexivity]. }
  rewrite (Reqb_false (-10) 0) by lra. cbn [rbind].
  split; [reflexivity|]. unfold affine, dict_zip. cbn [combine map fold_left fst snd dset dget nadd nmul nsub nofZ FNum].
  rewrite String.eqb_refl. f_equal. rewrite (RZ 1%Z) by reflexivity. replace (-1 / -10) with (1 / 10) by lra.
  apply combination_61.
Qed.
Print Assumptions float_weather_range_refuted.

(** ** Examples *)
Example float_weather_ex : weather64 steady 7 /\ well_shaped steady /\ in_range (gw_times steady) 9 /\ ~ In 9 (gw_times steady).
Proof.
  split.
  - unfold weather64, steady. cbn [gw_times gw_lats gw_lons gw_data].
    split; [repeat constructor; [apply format_0|apply (format_int 10); reflexivity]|].
    split; [repeat constructor; apply (format_int 50); reflexivity|]. split; [repeat constructor; apply (format_int 8); reflexivity|].
    assert (binary64 speed_61 /\ Rabs speed_61 <= 7) as [A B].
    { split; [apply multiple_format; [lia|reflexivity]|]. unfold speed_61. small_bpow. rewrite Rabs_pos_eq; lra. }
    assert (binary64 0 /\ Rabs 0 <= 7) as [C D] by (split; [apply format_0|rewrite Rabs_R0; lra]).
    intros i j k q. unfold data_at.
    destruct i as [|[|i]]; destruct j as [|j]; destruct k as [|k]; destruct q as [|q]; cbn [nth];
      repeat match goal with |- context [nth ?x []] => destruct x; cbn [nth] end; auto;
      try (destruct i; cbn [nth]); auto; try (destruct j; cbn [nth]); auto; try (destruct k; cbn [nth]); auto; try (destruct q; cbn [nth]); auto.
  - split; [exact steady_shape|]. split; [exists 0, 10; repeat split; lra|]. intros [E|[E|[]]]; lra.
Qed.
