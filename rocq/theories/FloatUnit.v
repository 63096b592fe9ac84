(** * Truth values, weights and colours in binary64: model and properties

    All other files but FloatMod.v compute with exact real numbers.  This one is
    about values that have to stay between 0 and 1 although every operation rounds:
    matplotlib refuses colour channels outside of that interval, and filters and
    fuzzy statements are documented for it.  Numbers are those of FloatMod.v (binary64
    without nan, infinities and the sign of zero).  An overflow is possible only in
    the difference of the largest and the smallest value of a gradient and is left
    out. *)

From Coq Require Import List Bool Arith ZArith Reals Lra Lia.
From Flocq Require Import Core Plus_error.
From Verif Require Import Py Num ListX FloatMod.
Import ListNotations.
Open Scope R_scope.

(** ** Model *)

(** The operations of numpy on binary64 numbers: the exact result is rounded. *)
Definition f_add (x y : R) : R := rnd (x + y).
Definition f_sub (x y : R) : R := rnd (x - y).
Definition f_mul (x y : R) : R := rnd (x * y).
Definition f_div (x y : R) : result R := if Reqb y 0 then Raise NonFinite else Ok (rnd (x / y)).

(** [_get_gradient_coefficients].  plotting/projections.py 736-744. *)
Definition f_coefficients (gradient : list R) : result (list R) :=
  match gradient with
  | [] => Raise ValueError
  | g :: r =>
      let mn := fold_left Rmin r g in
      let mx := fold_left Rmax r g in
      mapM (fun x => f_div (f_sub x mn) (f_sub mx mn)) gradient
  end.

(** [(1 - coeff) * min_color + coeff * max_color], one channel.  plotting/projections.py 751-753. *)
Definition f_mix (coeff c1 c2 : R) : R := f_add (f_mul (f_sub 1 coeff) c1) (f_mul coeff c2).

(** [_determine_color_gradient] for colours that [to_rgb] has turned into channels.
    plotting/projections.py 728-733, 747-753. *)
Definition f_color_gradient (c1 c2 : list R) (gradient : list R) : result (list (list R)) :=
  do coeffs <- f_coefficients gradient;
  Ok (map (fun c => map (fun ab => f_mix c (fst ab) (snd ab)) (combine c1 c2)) coeffs).

(** [_normalize(weights, np.max)].  processing/weigher.py 333-339. *)
Definition f_normalize (w : list R) : result (list R) :=
  match w with
  | [] => Ok []
  | x :: r =>
      let mx := fold_left Rmax r x in
      if Reqb mx 0 then Ok w else mapM (fun y => f_div y mx) w
  end.

(** [1 - _normalize(weights, np.max)] of the CylindricMeanWeigher.  processing/weigher.py 302. *)
Definition f_mean_weights (w : list R) : result (list R) :=
  do z <- f_normalize w;
  Ok (map (f_sub 1) z).

(** The value of [1 / (1 + np.exp(...))] for the value [e] of the exponential function.
    processing/weigher.py 730-731. *)
Definition f_sigmoid (e : R) : result R := f_div 1 (f_add 1 e).

(** Fuzzy statements and their truth: [FuzzyBool.fuzzy_and], [fuzzy_or], [fuzzy_not].  Atoms are
    the values of the truth functions they are made of.  processing/weigher.py 648-704. *)
Inductive fstmt :=
| FAtom (truth : R)
| FAnd (a b : fstmt)
| FOr (a b : fstmt)
| FNot (a : fstmt).

Fixpoint f_truth (s : fstmt) : R :=
  match s with
  | FAtom t => t
  | FAnd a b => Rmin (f_truth a) (f_truth b)
  | FOr a b => Rmax (f_truth a) (f_truth b)
  | FNot a => f_sub 1 (f_truth a)
  end.

(** ** Specification *)

(** A binary64 number between 0 and 1. *)
Definition unit64 (x : R) : Prop := binary64 x /\ 0 <= x <= 1.

Fixpoint atoms (P : R -> Prop) (s : fstmt) : Prop :=
  match s with
  | FAtom t => P t
  | FAnd a b | FOr a b => atoms P a /\ atoms P b
  | FNot a => atoms P a
  end.

(** ** Rounding *)

Local Instance valid_exp' : Valid_exp fexp.
Proof. apply FLT_exp_valid. reflexivity. Qed.

Local Instance not_ftz : Exp_not_FTZ fexp.
Proof. intros e. unfold fexp, FLT_exp. lia. Qed.

Lemma format_1 : binary64 1.
Proof. replace 1 with (IZR 1 * bpow radix2 0) by (cbn; lra). apply multiple_format; [lia|reflexivity]. Qed.

Lemma rnd_format : forall x, binary64 (rnd x).
Proof. intros x. apply generic_format_round; auto with typeclass_instances. Qed.

Lemma rnd_exact : forall x, binary64 x -> rnd x = x.
Proof. intros x F. apply round_generic; auto with typeclass_instances. Qed.

Lemma rnd_mono : forall x y, x <= y -> rnd x <= rnd y.
Proof. intros x y L. apply round_le; auto with typeclass_instances. Qed.

Lemma rnd_ge : forall x y, binary64 x -> x <= y -> x <= rnd y.
Proof. intros x y F L. apply round_ge_generic; auto with typeclass_instances. Qed.

Lemma rnd_le : forall x y, binary64 y -> x <= y -> rnd x <= y.
Proof. intros x y F L. apply round_le_generic; auto with typeclass_instances. Qed.

Lemma rnd_unit : forall x, 0 <= x <= 1 -> unit64 (rnd x).
Proof. intros x H. split; [apply rnd_format|]. split; [apply rnd_ge; [apply format_0|lra]|apply rnd_le; [apply format_1|lra]]. Qed.

Lemma complement_error : forall c, unit64 c -> rnd (1 - c) <= 1 - c + bpow radix2 (-54).
Proof.
  intros c [F H]. assert (0 < bpow radix2 (-54)) by apply bpow_gt_0.
  destruct (Req_dec c 0) as [->|C0].
  { rewrite Rminus_0_r, rnd_exact by apply format_1. lra. }
  destruct (Req_dec (1 - c) 0) as [E|N].
  { rewrite E, rnd_exact by apply format_0. lra. }
  assert (Rabs (rnd (1 - c) - (1 - c)) <= / 2 * ulp radix2 fexp (1 - c)) as E by (apply error_le_half_ulp; auto with typeclass_instances).
  rewrite ulp_neq_0 in E by auto. unfold cexp, fexp, FLT_exp in E.
  assert (mag radix2 (1 - c) <= 0)%Z as M.
  { apply mag_le_bpow; auto. rewrite Rabs_pos_eq by lra. cbn. lra. }
  assert (bpow radix2 (Z.max (mag radix2 (1 - c) - 53) (-1074)) <= bpow radix2 (-53)) as B by (apply bpow_le; lia).
  assert (bpow radix2 (-53) = 2 * bpow radix2 (-54)) as D by (change (-53)%Z with (1 + -54)%Z; rewrite bpow_plus; reflexivity).
  apply Rabs_le_inv in E. lra.
Qed.

Lemma rnd_above_1 : forall x, x <= 1 + bpow radix2 (-54) -> rnd x <= 1.
Proof.
  intros x L. apply Rle_trans with (rnd (1 + bpow radix2 (-54))); [apply rnd_mono; auto|].
  apply round_N_le_midp; auto with typeclass_instances; [apply format_1|].
  rewrite succ_eq_pos by lra. rewrite ulp_neq_0 by lra. unfold cexp, fexp, FLT_exp.
  rewrite (mag_unique_pos radix2 1 1) by (cbn; lra). change (Z.max (1 - 53) (-1074)) with (-52)%Z.
  assert (bpow radix2 (-52) = 4 * bpow radix2 (-54)) as D by (change (-52)%Z with (2 + -54)%Z; rewrite bpow_plus; cbn; ring).
  pose proof (bpow_gt_0 radix2 (-54)). lra.
Qed.

Lemma f_mix_unit : forall c a b, unit64 c -> unit64 a -> unit64 b -> unit64 (f_mix c a b).
Proof.
  intros c a b Hc [Fa Ha] [Fb Hb]. destruct (rnd_unit (1 - c)) as [F1 H1]; [destruct Hc; lra|].
  pose proof (complement_error c Hc) as E. destruct Hc as [Fc Hc].
  assert (0 <= f_mul (f_sub 1 c) a <= f_sub 1 c) as P.
  { unfold f_mul, f_sub in *. split; [apply rnd_ge; [apply format_0|nra]|apply rnd_le; [auto|nra]]. }
  assert (0 <= f_mul c b <= c) as Q.
  { unfold f_mul. split; [apply rnd_ge; [apply format_0|nra]|apply rnd_le; [auto|nra]]. }
  unfold f_mix, f_add. split; [apply rnd_format|]. split; [apply rnd_ge; [apply format_0|lra]|].
  apply rnd_above_1. unfold f_sub in *. lra.
Qed.

(** ** Smallest and largest values *)

Lemma fold_min_spec : forall r g, (forall x, In x (g :: r) -> fold_left Rmin r g <= x) /\ In (fold_left Rmin r g) (g :: r).
Proof.
  induction r as [|y r IH]; intros g; cbn [fold_left].
  - split; [intros x [<-|[]]; lra|left; auto].
  - destruct (IH (Rmin g y)) as [A B]. split.
    + intros x [<-|[<-|I]]; [| |apply A; right; auto]; apply Rle_trans with (Rmin g y); try (apply A; left; auto); [apply Rmin_l|apply Rmin_r].
    + destruct B as [B|B]; [|right; right; auto]. rewrite <- B. unfold Rmin. destruct (Rle_dec g y); [left; auto|right; left; auto].
Qed.

Lemma fold_max_spec : forall r g, (forall x, In x (g :: r) -> x <= fold_left Rmax r g) /\ In (fold_left Rmax r g) (g :: r).
Proof.
  induction r as [|y r IH]; intros g; cbn [fold_left].
  - split; [intros x [<-|[]]; lra|left; auto].
  - destruct (IH (Rmax g y)) as [A B]. split.
    + intros x [<-|[<-|I]]; [| |apply A; right; auto]; apply Rle_trans with (Rmax g y); try (apply A; left; auto); [apply Rmax_l|apply Rmax_r].
    + destruct B as [B|B]; [|right; right; auto]. rewrite <- B. unfold Rmax. destruct (Rle_dec g y); [right; left; auto|left; auto].
Qed.

(** ** Gradients *)

(** C128: for binary64 numbers that are not all equal the coefficients are binary64 numbers in [0,1],
    in the order of the numbers, 0 for the smallest and 1 for the largest. *)
Theorem float_gradient_coefficients : forall gradient,
  (forall x, In x gradient -> binary64 x) -> (exists x y, In x gradient /\ In y gradient /\ x <> y) ->
  exists coeffs, f_coefficients gradient = Ok coeffs /\ length coeffs = length gradient /\
    forall i x c, nth_error gradient i = Some x -> nth_error coeffs i = Some c ->
      unit64 c /\
      ((forall y, In y gradient -> x <= y) -> c = 0) /\
      ((forall y, In y gradient -> y <= x) -> c = 1) /\
      (forall j y d, nth_error gradient j = Some y -> nth_error coeffs j = Some d -> x <= y -> c <= d).
Proof.
  intros gradient F [a [b [Ia [Ib N]]]]. destruct gradient as [|g r]; [destruct Ia|].
  destruct (fold_min_spec r g) as [MN1 MN2]. destruct (fold_max_spec r g) as [MX1 MX2].
  unfold f_coefficients. set (mn := fold_left Rmin r g) in *. set (mx := fold_left Rmax r g) in *.
  set (l := g :: r) in *.
  assert (mn < mx) as L.
  { destruct (Rlt_dec mn mx) as [|C]; auto. exfalso. apply N.
    pose proof (MN1 a Ia). pose proof (MN1 b Ib). pose proof (MX1 a Ia). pose proof (MX1 b Ib). lra. }
  assert (f_sub mx mn <> 0) as NZ.
  { unfold f_sub, Rminus. apply round_plus_neq_0; auto with typeclass_instances; [apply F; auto| |lra].
    apply generic_format_opp. apply F; auto. }
  assert (0 <= f_sub mx mn) as P0 by (apply rnd_ge; [apply format_0|lra]).
  set (d := f_sub mx mn) in *.
  exists (map (fun x => rnd (f_sub x mn / d)) l). split.
  { apply mapM_Ok_map. intros x _. unfold f_div. rewrite Reqb_false by auto. reflexivity. }
  split; [apply map_length|].
  intros i x c Hx Hc. rewrite nth_error_map, Hx in Hc. injection Hc as <-.
  assert (In x l) as Ix by (eapply nth_error_In; eauto).
  assert (0 <= f_sub x mn <= d) as B.
  { pose proof (MN1 x Ix). pose proof (MX1 x Ix). split; [apply rnd_ge; [apply format_0|lra]|apply rnd_mono; lra]. }
  assert (0 < d) as DP by lra.
  split; [|split; [|split]].
  - apply rnd_unit. split; [apply Rmult_le_pos; [lra|apply Rlt_le, Rinv_0_lt_compat; auto]|].
    apply Rmult_le_reg_r with d; auto. unfold Rdiv. rewrite Rmult_assoc, Rinv_l, Rmult_1_l, Rmult_1_r by lra. lra.
  - intros S. assert (x = mn) as -> by (apply Rle_antisym; [apply S; auto|apply MN1; auto]).
    unfold f_sub at 1. rewrite Rminus_eq_0, (rnd_exact 0) by apply format_0. unfold Rdiv. rewrite Rmult_0_l. apply rnd_exact, format_0.
  - intros S. assert (x = mx) as -> by (apply Rle_antisym; [apply MX1; auto|apply S; auto]).
    fold d. unfold Rdiv. rewrite Rinv_r by lra. apply rnd_exact, format_1.
  - intros j y e Hy He L1. rewrite nth_error_map, Hy in He. injection He as <-.
    apply rnd_mono. apply Rmult_le_compat_r; [apply Rlt_le, Rinv_0_lt_compat; auto|]. apply rnd_mono. lra.
Qed.
Print Assumptions float_gradient_coefficients.

(** C128: the colours of a gradient are valid colours; the smallest value has the first colour and the
    largest one the second, exactly. *)
Theorem float_gradient_colors : forall gradient c1 c2,
  (forall x, In x gradient -> binary64 x) -> (exists x y, In x gradient /\ In y gradient /\ x <> y) ->
  length c1 = length c2 -> (forall a, In a c1 \/ In a c2 -> unit64 a) ->
  exists colors, f_color_gradient c1 c2 gradient = Ok colors /\ length colors = length gradient /\
    forall i x color, nth_error gradient i = Some x -> nth_error colors i = Some color ->
      length color = length c1 /\ (forall a, In a color -> unit64 a) /\
      ((forall y, In y gradient -> x <= y) -> color = c1) /\
      ((forall y, In y gradient -> y <= x) -> color = c2).
Proof.
  intros gradient c1 c2 F D LC U. destruct (float_gradient_coefficients gradient F D) as [cs [E [LN H]]].
  unfold f_color_gradient. rewrite E. cbn [rbind]. eexists. split; [reflexivity|]. split; [rewrite map_length; auto|].
  intros i x color Hx Hc. rewrite nth_error_map in Hc. destruct (nth_error cs i) as [c|] eqn:Ec; [|discriminate].
  injection Hc as <-. destruct (H i x c Hx Ec) as [UC [ZR [ON _]]].
  split; [rewrite map_length, combine_length; lia|]. split; [|split].
  - intros a Ha. apply in_map_iff in Ha. destruct Ha as [[u v] [<- I]].
    apply f_mix_unit; auto; apply U; [left; apply in_combine_l in I|right; apply in_combine_r in I]; auto.
  - intros S. rewrite (ZR S). clear -LC U. revert c2 LC U. induction c1 as [|a c1 IH]; intros [|b c2] LC U; try discriminate; auto.
    cbn [combine map fst snd]. f_equal.
    + destruct (U a) as [Fa _]; [left; left; auto|]. unfold f_mix, f_sub, f_mul, f_add.
      rewrite Rminus_0_r, (rnd_exact 1), Rmult_1_l, (rnd_exact a), Rmult_0_l, (rnd_exact 0), Rplus_0_r by (auto using format_1, format_0).
      apply rnd_exact; auto.
    + apply IH; [auto|]. intros e [I|I]; apply U; [left|right]; right; auto.
  - intros S. rewrite (ON S). clear -LC U. revert c2 LC U. induction c1 as [|a c1 IH]; intros [|b c2] LC U; try discriminate; auto.
    cbn [combine map fst snd]. f_equal.
    + destruct (U b) as [Fb _]; [right; left; auto|]. unfold f_mix, f_sub, f_mul, f_add.
      rewrite Rminus_eq_0, (rnd_exact 0), Rmult_0_l, (rnd_exact 0), Rmult_1_l, (rnd_exact b), Rplus_0_l by (auto using format_1, format_0).
      apply rnd_exact; auto.
    + apply IH; [auto|]. intros e [I|I]; apply U; [left|right]; right; auto.
Qed.
Print Assumptions float_gradient_colors.

Lemma format_int : forall k, (Z.abs k < 2 ^ 53)%Z -> binary64 (IZR k).
Proof. intros k K. replace (IZR k) with (IZR k * bpow radix2 0) by (cbn; lra). apply multiple_format; [lia|auto]. Qed.

Example float_gradient_meets : (forall x, In x [6; 10; 14] -> binary64 x) /\ f_coefficients [6; 10; 14] = Ok [0; / 2; 1].
Proof.
  assert (forall x, In x [6; 10; 14] -> binary64 x) as F by (intros x [<-|[<-|[<-|[]]]]; apply format_int; reflexivity).
  split; auto. unfold f_coefficients. cbn [fold_left].
  assert (Rmin (Rmin 6 10) 14 = 6) as -> by (unfold Rmin; repeat destruct Rle_dec; lra).
  assert (Rmax (Rmax 6 10) 14 = 14) as -> by (unfold Rmax; repeat destruct Rle_dec; lra).
  unfold f_sub. replace (6 - 6) with 0 by lra. replace (10 - 6) with 4 by lra. replace (14 - 6) with 8 by lra.
  cbn [mapM rbind]. unfold f_div. replace (6 - 6) with 0 by lra. replace (10 - 6) with 4 by lra. replace (14 - 6) with 8 by lra.
  rewrite (rnd_exact 8), (rnd_exact 4), (rnd_exact 0) by (apply format_int; reflexivity). rewrite Reqb_false by lra. cbn [rbind].
  replace (0 / 8) with 0 by lra. replace (4 / 8) with (/ 2) by lra. replace (8 / 8) with 1 by lra.
  rewrite (rnd_exact 0), (rnd_exact 1) by (apply format_int; reflexivity).
  rewrite (rnd_exact (/ 2)); [reflexivity|]. replace (/ 2) with (IZR 1 * bpow radix2 (-1)) by (cbn; lra). apply multiple_format; [lia|reflexivity].
Qed.

(** ** Weights *)

(** C129: normalised weights are binary64 numbers in [0,1] in the order of the given ones; the largest
    weight becomes 1 unless all are 0. *)
Theorem float_normalize : forall w, (forall x, In x w -> binary64 x /\ 0 <= x) ->
  exists z, f_normalize w = Ok z /\ length z = length w /\
    forall i x c, nth_error w i = Some x -> nth_error z i = Some c ->
      unit64 c /\
      ((forall y, In y w -> y <= x) -> 0 < x -> c = 1) /\
      (x = 0 -> c = 0) /\
      (forall j y d, nth_error w j = Some y -> nth_error z j = Some d -> x <= y -> c <= d).
Proof.
  intros w F. destruct w as [|g r]; [exists []; split; auto; split; auto; intros [|i]; discriminate|].
  destruct (fold_max_spec r g) as [MX1 MX2]. unfold f_normalize. set (mx := fold_left Rmax r g) in *. set (l := g :: r) in *.
  destruct (Reqb_spec mx 0) as [Z|NZ].
  - exists l. split; auto. split; auto. intros i x c Hx Hc. rewrite Hx in Hc. injection Hc as <-.
    assert (In x l) as Ix by (eapply nth_error_In; eauto). destruct (F x Ix) as [Fx Px]. pose proof (MX1 x Ix).
    split; [split; auto; lra|]. split; [intros; lra|]. split; [auto|]. intros j y d Hy Hd L. rewrite Hy in Hd. injection Hd as <-. auto.
  - destruct (F mx MX2) as [_ P]. assert (0 < mx) as MP by lra.
    exists (map (fun y => rnd (y / mx)) l). split.
    { apply mapM_Ok_map. intros y _. unfold f_div. rewrite Reqb_false by auto. reflexivity. }
    split; [apply map_length|]. intros i x c Hx Hc. rewrite nth_error_map, Hx in Hc. injection Hc as <-.
    assert (In x l) as Ix by (eapply nth_error_In; eauto). destruct (F x Ix) as [Fx Px].
    split; [|split; [|split]].
    + apply rnd_unit. split; [apply Rmult_le_pos; [lra|apply Rlt_le, Rinv_0_lt_compat; auto]|].
      apply Rmult_le_reg_r with mx; auto. unfold Rdiv. rewrite Rmult_assoc, Rinv_l, Rmult_1_l, Rmult_1_r by lra. auto.
    + intros S _. assert (x = mx) as -> by (apply Rle_antisym; [apply MX1; auto|apply S; auto]).
      unfold Rdiv. rewrite Rinv_r by lra. apply rnd_exact, format_1.
    + intros ->. unfold Rdiv. rewrite Rmult_0_l. apply rnd_exact, format_0.
    + intros j y d Hy Hd L. rewrite nth_error_map, Hy in Hd. injection Hd as <-. apply rnd_mono.
      apply Rmult_le_compat_r; [apply Rlt_le, Rinv_0_lt_compat; auto|auto].
Qed.
Print Assumptions float_normalize.

(** C129: the weights of the mean weigher are binary64 numbers in [0,1], and a point with a larger
    deviation never has a larger weight. *)
Theorem float_mean_weights : forall w, (forall x, In x w -> binary64 x /\ 0 <= x) ->
  exists z, f_mean_weights w = Ok z /\ length z = length w /\
    forall i x c, nth_error w i = Some x -> nth_error z i = Some c ->
      unit64 c /\
      ((forall y, In y w -> y <= x) -> 0 < x -> c = 0) /\
      (x = 0 -> c = 1) /\
      (forall j y d, nth_error w j = Some y -> nth_error z j = Some d -> x <= y -> d <= c).
Proof.
  intros w F. destruct (float_normalize w F) as [z [E [LN H]]]. unfold f_mean_weights. rewrite E. cbn [rbind].
  exists (map (f_sub 1) z). split; auto. split; [rewrite map_length; auto|].
  intros i x c Hx Hc. rewrite nth_error_map in Hc. destruct (nth_error z i) as [v|] eqn:Ev; [|discriminate]. injection Hc as <-.
  destruct (H i x v Hx Ev) as [[Fv Hv] [ON [ZR MO]]]. unfold f_sub.
  split; [apply rnd_unit; lra|]. split; [|split].
  - intros S P. rewrite (ON S P), Rminus_eq_0. apply rnd_exact, format_0.
  - intros Z. rewrite (ZR Z), Rminus_0_r. apply rnd_exact, format_1.
  - intros j y d Hy Hd L. rewrite nth_error_map in Hd. destruct (nth_error z j) as [u|] eqn:Eu; [|discriminate]. injection Hd as <-.
    apply rnd_mono. pose proof (MO j y u Hy Eu L). lra.
Qed.
Print Assumptions float_mean_weights.

Example float_weights_meets : f_normalize [2; 0; 8] = Ok [/ 4; 0; 1].
Proof.
  unfold f_normalize. cbn [fold_left]. assert (Rmax (Rmax 2 0) 8 = 8) as -> by (unfold Rmax; repeat destruct Rle_dec; lra).
  rewrite Reqb_false by lra. cbn [mapM]. unfold f_div. rewrite Reqb_false by lra. cbn [rbind].
  replace (0 / 8) with 0 by lra. replace (2 / 8) with (/ 4) by lra. replace (8 / 8) with 1 by lra.
  rewrite (rnd_exact 0), (rnd_exact 1) by (apply format_int; reflexivity).
  rewrite (rnd_exact (/ 4)); [reflexivity|]. replace (/ 4) with (IZR 1 * bpow radix2 (-2)) by (cbn; lra). apply multiple_format; [lia|reflexivity].
Qed.

(** ** Fuzzy statements *)

(** C130: the sigmoid function has values in [0,1] whatever the exponential function returns. *)
Theorem float_sigmoid : forall e, binary64 e -> 0 <= e -> exists t, f_sigmoid e = Ok t /\ unit64 t /\ (e = 1 -> t = / 2) /\ (e = 0 -> t = 1).
Proof.
  intros e F P. unfold f_sigmoid, f_div, f_add. assert (1 <= rnd (1 + e)) as G by (apply rnd_ge; [apply format_1|lra]).
  rewrite Reqb_false by lra. eexists. split; [reflexivity|]. split; [|split].
  - apply rnd_unit. unfold Rdiv. rewrite Rmult_1_l. split; [apply Rlt_le, Rinv_0_lt_compat; lra|].
    apply Rle_trans with (/ 1); [apply Rinv_le_contravar; lra|lra].
  - intros ->. replace (1 + 1) with 2 by lra. rewrite (rnd_exact 2) by (apply format_int; reflexivity).
    replace (1 / 2) with (/ 2) by lra. apply rnd_exact. replace (/ 2) with (IZR 1 * bpow radix2 (-1)) by (cbn; lra). apply multiple_format; [lia|reflexivity].
  - intros ->. rewrite Rplus_0_r, (rnd_exact 1) by apply format_1. replace (1 / 1) with 1 by lra. apply rnd_exact, format_1.
Qed.
Print Assumptions float_sigmoid.

(** C130: every statement has a binary64 truth value in [0,1], and De Morgan's laws hold without any
    rounding error. *)
Theorem float_fuzzy_laws : forall a b, atoms unit64 a -> atoms unit64 b ->
  unit64 (f_truth a) /\
  f_truth (FNot (FAnd a b)) = f_truth (FOr (FNot a) (FNot b)) /\
  f_truth (FNot (FOr a b)) = f_truth (FAnd (FNot a) (FNot b)).
Proof.
  assert (forall s, atoms unit64 s -> unit64 (f_truth s)) as U.
  { induction s as [t|a IHa b IHb|a IHa b IHb|a IHa]; cbn [atoms f_truth]; auto.
    - intros [Ha Hb]. unfold Rmin. destruct Rle_dec; auto.
    - intros [Ha Hb]. unfold Rmax. destruct Rle_dec; auto.
    - intros Ha. destruct (IHa Ha) as [_ H]. apply rnd_unit. lra. }
  intros a b Ha Hb. split; auto. cbn [f_truth]. unfold f_sub. split; apply Rle_antisym.
  - unfold Rmin. destruct Rle_dec; [apply Rmax_l|apply Rmax_r].
  - apply Rmax_lub; apply rnd_mono; [pose proof (Rmin_l (f_truth a) (f_truth b))|pose proof (Rmin_r (f_truth a) (f_truth b))]; lra.
  - apply Rmin_glb; apply rnd_mono; [pose proof (Rmax_l (f_truth a) (f_truth b))|pose proof (Rmax_r (f_truth a) (f_truth b))]; lra.
  - unfold Rmax. destruct Rle_dec; [apply Rmin_r|apply Rmin_l].
Qed.
Print Assumptions float_fuzzy_laws.

(** C130: negating twice changes a truth value by at most 2^-53 ([_partial]: it need not be the
    same). *)
Theorem float_double_negation_partial : forall a, atoms unit64 a ->
  Rabs (f_truth (FNot (FNot a)) - f_truth a) <= bpow radix2 (-53).
Proof.
  intros a Ha. destruct (proj1 (float_fuzzy_laws a a Ha Ha)) as [F H]. cbn [f_truth]. set (t := f_truth a) in *. unfold f_sub.
  assert (forall y, 0 <= y <= 1 -> Rabs (rnd y - y) <= bpow radix2 (-54)) as E.
  { intros y Hy. destruct (Req_dec y 0) as [->|N].
    { rewrite rnd_exact, Rminus_0_r, Rabs_R0 by apply format_0. apply bpow_ge_0. }
    destruct (Req_dec y 1) as [->|N1].
    { rewrite rnd_exact, Rminus_eq_0, Rabs_R0 by apply format_1. apply bpow_ge_0. }
    eapply Rle_trans; [apply error_le_half_ulp; auto with typeclass_instances|].
    rewrite ulp_neq_0 by auto. unfold cexp, fexp, FLT_exp.
    assert (mag radix2 y <= 0)%Z as M by (apply mag_le_bpow; auto; rewrite Rabs_pos_eq by lra; cbn; lra).
    replace (bpow radix2 (-54)) with (/ 2 * bpow radix2 (-53)).
    - apply Rmult_le_compat_l; [lra|]. apply bpow_le. lia.
    - change (-53)%Z with (1 + -54)%Z. rewrite bpow_plus. change (bpow radix2 1) with 2. lra. }
  pose proof (E (1 - t) ltac:(lra)) as E1. destruct (rnd_unit (1 - t) ltac:(lra)) as [_ R1].
  pose proof (E (1 - rnd (1 - t)) ltac:(lra)) as E2.
  assert (bpow radix2 (-53) = 2 * bpow radix2 (-54)) as D by (change (-53)%Z with (1 + -54)%Z; rewrite bpow_plus; reflexivity).
  apply Rabs_le_inv in E1. apply Rabs_le_inv in E2. apply Rabs_le. lra.
Qed.
Print Assumptions float_double_negation_partial.

(** C130: a small truth value is lost by negating twice. *)
Theorem float_double_negation_refuted : exists t, unit64 t /\ 0 < t /\ f_truth (FNot (FNot (FAtom t))) = 0.
Proof.
  exists (bpow radix2 (-60)).
  assert (0 < bpow radix2 (-60)) as P by apply bpow_gt_0.
  assert (bpow radix2 (-60) < bpow radix2 (-54)) as L54 by (apply bpow_lt; lia).
  assert (bpow radix2 (-54) < 1) as L1 by (change 1 with (bpow radix2 0); apply bpow_lt; lia).
  split; [split; [apply generic_format_bpow; unfold fexp, FLT_exp; lia|lra]|]. split; auto.
  cbn [f_truth]. unfold f_sub.
  assert (rnd (1 - bpow radix2 (-60)) = 1) as ->.
  { apply Rle_antisym; [apply rnd_le; [apply format_1|lra]|].
    apply round_N_ge_midp; auto with typeclass_instances; [apply format_1|].
    assert (bpow radix2 (-53) = 2 * bpow radix2 (-54)) as D by (change (-53)%Z with (1 + -54)%Z; rewrite bpow_plus; reflexivity).
    rewrite pred_eq_pos by lra. unfold pred_pos.
    rewrite (mag_unique_pos radix2 1 1) by (cbn; lra). change (bpow radix2 (1 - 1)) with 1. rewrite Req_bool_true by auto.
    unfold fexp, FLT_exp. change (Z.max (1 - 1 - 53) (-1074)) with (-53)%Z. lra. }
  rewrite Rminus_eq_0. apply rnd_exact, format_0.
Qed.
Print Assumptions float_double_negation_refuted.

Example float_fuzzy_meets : atoms unit64 (FAnd (FAtom (/ 4)) (FNot (FAtom (/ 2)))) /\ f_truth (FAnd (FAtom (/ 4)) (FNot (FAtom (/ 2)))) = / 4.
Proof.
  assert (binary64 (/ 4)) as F4 by (replace (/ 4) with (IZR 1 * bpow radix2 (-2)) by (cbn; lra); apply multiple_format; [lia|reflexivity]).
  assert (binary64 (/ 2)) as F2 by (replace (/ 2) with (IZR 1 * bpow radix2 (-1)) by (cbn; lra); apply multiple_format; [lia|reflexivity]).
  split; [split; split; auto; lra|]. cbn [f_truth]. unfold f_sub. replace (1 - / 2) with (/ 2) by lra. rewrite rnd_exact by auto.
  unfold Rmin. destruct Rle_dec; lra.
Qed.
