(** * Weighted means of boat speeds in binary64: model and properties

    The interpolators of processing/interpolator.py return weighted means.  With exact numbers
    these lie between the smallest and the largest boat speed (InterpProps.v).  Here every operation
    rounds (see FloatMod.v and FloatUnit.v for the numbers; overflow is left out).  In which order
    numpy adds and whether products are rounded before they are added (fused multiply-add)
    depends on the machine and the length of the arrays, so every order is allowed. *)

From Coq Require Import List Bool Arith ZArith Reals Lra Lia Permutation.
From Flocq Require Import Core Relative Plus_error.
From Verif Require Import Py Num ListX FloatMod FloatUnit FloatSteps.
Import ListNotations.
Open Scope R_scope.

(** ** Model *)

(** The results of [np.sum] of an array. *)
Inductive f_sums : list R -> R -> Prop :=
| sum_one : forall x, f_sums [x] x
| sum_two : forall l l1 l2 s1 s2, Permutation l (l1 ++ l2) -> f_sums l1 s1 -> f_sums l2 s2 -> f_sums l (f_add s1 s2).

(** The results of [x @ y]; the list holds the pairs of entries. *)
Inductive f_dots : list (R * R) -> R -> Prop :=
| dot_one : forall x y, f_dots [(x, y)] (f_mul x y)
| dot_two : forall l l1 l2 s1 s2, Permutation l (l1 ++ l2) -> f_dots l1 s1 -> f_dots l2 s2 -> f_dots l (f_add s1 s2)
| dot_fma : forall l l1 x y s, Permutation l ((x, y) :: l1) -> f_dots l1 s -> f_dots l (rnd (s + x * y)).

(** [wts /= np.sum(wts); return wts @ pts[:, 2]].  processing/interpolator.py 132-134 and 317-319. *)
Definition f_mean (w b : list R) (r : R) : Prop :=
  exists s n, f_sums w s /\ mapM (fun x => f_div x s) w = Ok n /\ f_dots (combine n b) r.

(** [IDWInterpolator.interpolate] for the distances [d] and the boat speeds [b]; [power] is
    [np.power(_, p)].  processing/interpolator.py 126-134. *)
Definition f_idw (power : R -> R) (d b : list R) (r : R) : Prop :=
  match find (fun db => Reqb (fst db) 0) (combine d b) with
  | Some db => r = snd db
  | None => exists w, mapM (fun x => f_div 1 (power x)) d = Ok w /\ f_mean w b r
  end.

(** [np.average(b, weights=w)]: [np.multiply(b, w).sum() / w.sum()] (numpy is not part of /repo).
    processing/interpolator.py 252 multiplies it with the number [s], which is left out. *)
Definition f_average (w b : list R) (r : R) : Prop :=
  exists s t, f_sums w s /\ f_sums (map (fun wb => f_mul (snd wb) (fst wb)) (combine w b)) t /\ f_div t s = Ok r.

(** ** Specification *)

(** The rounding unit and half of the smallest positive number. *)
Definition unit_roundoff : R := / IZR (2 ^ 53).
Definition tiny : R := bpow radix2 (-1075).

Notation u := unit_roundoff.

(** [r] lies between [lo] and [hi] up to the rounding of [n] terms. *)
Definition nearly_between (n : nat) (lo hi r : R) : Prop :=
  lo * (1 - 2 * INR n * u) - INR n * (lo + 1) * tiny <= r /\
  r * (1 - 2 * INR n * u) <= hi + INR n * (hi + 1) * tiny.

Fixpoint total (l : list R) : R := match l with [] => 0 | x :: r => x + total r end.

(** ** Rounding *)

Local Instance valid_exp_av : Valid_exp fexp.
Proof. apply FLT_exp_valid. reflexivity. Qed.
Local Instance prec_53 : Prec_gt_0 53.
Proof. reflexivity. Qed.

Lemma u_bounds : 0 < u < 1 / 2.
Proof.
  unfold unit_roundoff. assert (2 < IZR (2 ^ 53)) by (apply IZR_lt; reflexivity).
  split; [apply Rinv_0_lt_compat; lra|]. unfold Rdiv. rewrite Rmult_1_l. apply Rinv_lt_contravar; lra.
Qed.
Lemma u_bpow : u = / 2 * bpow radix2 (- (53) + 1).
Proof. unfold unit_roundoff. small_bpow. change (2 ^ 53)%Z with 9007199254740992%Z. lra. Qed.
Lemma u_ro_u : u_ro radix2 53 = u.
Proof. unfold u_ro. rewrite u_bpow. reflexivity. Qed.
Lemma tiny_pos : 0 < tiny.
Proof. apply bpow_gt_0. Qed.
Lemma tiny_half : / 2 * bpow radix2 (-1074) = tiny.
Proof. unfold tiny. change (-1075)%Z with (-1 + -1074)%Z. rewrite bpow_plus. change (bpow radix2 (-1)) with (/ 2). reflexivity. Qed.

Lemma rnd_error : forall x, 0 <= x -> x * (1 - u) - tiny <= rnd x <= x * (1 + u) + tiny.
Proof.
  intros x P. destruct (error_N_FLT radix2 (-1074) 53 eq_refl (fun z => negb (Z.even z)) x) as [eps [eta [E1 [E2 [_ E]]]]].
  rewrite <- u_bpow in E1. rewrite tiny_half in E2. unfold rnd. change fexp with (FLT_exp (-1074) 53).
  change ZnearestE with (Znearest (fun z => negb (Z.even z))). rewrite E.
  apply Rabs_le_inv in E1. apply Rabs_le_inv in E2. split; nra.
Qed.
Lemma add_error : forall x y, binary64 x -> binary64 y -> 0 <= x -> 0 <= y -> (x + y) * (1 - u) <= f_add x y <= (x + y) * (1 + u).
Proof.
  intros x y FX FY PX PY. destruct (FLT_plus_error_N_ex radix2 (-1074) 53 (fun z => negb (Z.even z)) x y FX FY) as [eps [E1 E]].
  rewrite u_ro_u in E1. unfold f_add, rnd. change fexp with (FLT_exp (-1074) 53).
  change ZnearestE with (Znearest (fun z => negb (Z.even z))). rewrite E.
  pose proof u_bounds as U. assert (u / (1 + u) <= u) as UU.
  { apply Rmult_le_reg_r with (1 + u); [lra|]. unfold Rdiv. rewrite Rmult_assoc, Rinv_l by lra. nra. }
  apply Rabs_le_inv in E1. split; nra.
Qed.
Lemma rnd_nonneg : forall x, 0 <= x -> 0 <= rnd x.
Proof. intros x P. apply rnd_ge; [apply (format_int 0); reflexivity|auto]. Qed.

(** ** Sums *)

Lemma total_app : forall a b, total (a ++ b) = total a + total b.
Proof. induction a as [|x a IH]; intros b; cbn; [lra|]. rewrite IH. lra. Qed.
Lemma total_perm : forall a b, Permutation a b -> total a = total b.
Proof. induction 1; cbn; lra. Qed.
Lemma total_nonneg : forall l, Forall (Rle 0) l -> 0 <= total l.
Proof. induction 1; cbn; lra. Qed.

Lemma pow_up : forall a b, (a <= b)%nat -> (1 + u) ^ a <= (1 + u) ^ b.
Proof. intros. apply Rle_pow; auto. pose proof u_bounds. lra. Qed.
Lemma pow_down : forall a b, (a <= b)%nat -> (1 - u) ^ b <= (1 - u) ^ a.
Proof.
  intros a b H. pose proof u_bounds as U. induction H as [|b H IH]; [lra|]. cbn.
  assert (0 <= (1 - u) ^ b) by (apply pow_le; lra). nra.
Qed.
Lemma pow_up_pos : forall a, 1 <= (1 + u) ^ a.
Proof. intros a. apply (pow_up 0 a). lia. Qed.
Lemma pow_down_pos : forall a, 0 < (1 - u) ^ a <= 1.
Proof. intros a. pose proof u_bounds. split; [apply pow_lt; lra|]. apply (pow_down 0 a). lia. Qed.

Lemma sums_error : forall l s, f_sums l s -> Forall (fun x => binary64 x /\ 0 <= x) l ->
  l <> [] /\ binary64 s /\ 0 <= s /\ total l * (1 - u) ^ (length l - 1) <= s <= total l * (1 + u) ^ (length l - 1).
Proof.
  induction 1 as [x|l l1 l2 s1 s2 P H1 IH1 H2 IH2]; intros F.
  - inversion F as [|? ? [FX PX] _]; subst. split; [discriminate|]. cbn. repeat split; auto; lra.
  - assert (Forall (fun x => binary64 x /\ 0 <= x) (l1 ++ l2)) as F' by (eapply Permutation_Forall; eauto).
    apply Forall_app in F'. destruct F' as [F1 F2].
    destruct (IH1 F1) as [N1 [B1 [P1 [L1 U1]]]]. destruct (IH2 F2) as [N2 [B2 [P2 [L2 U2]]]].
    assert (length l1 <> 0)%nat as Z1 by (destruct l1; [contradiction|discriminate]).
    assert (length l2 <> 0)%nat as Z2 by (destruct l2; [contradiction|discriminate]).
    rewrite (total_perm _ _ P), total_app. rewrite (Permutation_length P), app_length.
    assert (0 <= total l1) as T1 by (apply total_nonneg; eapply Forall_impl; [|exact F1]; cbn; tauto).
    assert (0 <= total l2) as T2 by (apply total_nonneg; eapply Forall_impl; [|exact F2]; cbn; tauto).
    destruct (add_error s1 s2 B1 B2 P1 P2) as [LA UA]. pose proof u_bounds as U.
    split. { intros ->. apply Permutation_nil in P. destruct l1; [contradiction|discriminate]. }
    split; [apply rnd_format|]. split; [apply rnd_nonneg; lra|].
    pose proof (pow_up (length l1 - 1) (length l1 + length l2 - 2) ltac:(lia)) as A1.
    pose proof (pow_up (length l2 - 1) (length l1 + length l2 - 2) ltac:(lia)) as A2.
    pose proof (pow_down (length l1 - 1) (length l1 + length l2 - 2) ltac:(lia)) as A3.
    pose proof (pow_down (length l2 - 1) (length l1 + length l2 - 2) ltac:(lia)) as A4.
    replace (length l1 + length l2 - 1)%nat with (S (length l1 + length l2 - 2)) by lia. cbn [pow].
    set (q := (1 + u) ^ (length l1 + length l2 - 2)) in *. set (p := (1 - u) ^ (length l1 + length l2 - 2)) in *. split.
    + assert (total l1 * p <= s1) by nra. assert (total l2 * p <= s2) by nra. nra.
    + assert (s1 <= total l1 * q) by nra. assert (s2 <= total l2 * q) by nra. nra.
Qed.

Definition products (l : list (R * R)) : list R := map (fun xy => fst xy * snd xy) l.

Lemma dots_error : forall l s, f_dots l s -> Forall (fun xy => 0 <= fst xy /\ 0 <= snd xy) l ->
  l <> [] /\ binary64 s /\ 0 <= s /\
  total (products l) * (1 - u) ^ length l - INR (length l) * tiny <= s <= (total (products l) + INR (length l) * tiny) * (1 + u) ^ length l.
Proof.
  induction 1 as [x y|l l1 l2 s1 s2 P H1 IH1 H2 IH2|l l1 x y s P H IH]; intros F; pose proof u_bounds as U; pose proof tiny_pos as TP.
  - inversion F as [|? ? [PX PY] _]; subst. cbn [fst snd] in *. assert (0 <= x * y) as PXY by nra.
    split; [discriminate|]. split; [apply rnd_format|]. split; [apply rnd_nonneg; auto|].
    destruct (rnd_error (x * y) PXY) as [LA UA]. unfold f_mul. cbn [products map total length pow fst snd INR].
    rewrite !Rmult_1_r, Rplus_0_r, Rmult_1_l. assert (0 <= tiny * u) by (apply Rmult_le_pos; lra). split; lra.
  - assert (Forall (fun xy => 0 <= fst xy /\ 0 <= snd xy) (l1 ++ l2)) as F' by (eapply Permutation_Forall; eauto).
    apply Forall_app in F'. destruct F' as [F1 F2].
    destruct (IH1 F1) as [N1 [B1 [P1 [L1 U1]]]]. destruct (IH2 F2) as [N2 [B2 [P2 [L2 U2]]]].
    assert (length l1 <> 0)%nat as Z1 by (destruct l1; [contradiction|discriminate]).
    assert (length l2 <> 0)%nat as Z2 by (destruct l2; [contradiction|discriminate]).
    assert (total (products l) = total (products l1) + total (products l2)) as ->.
    { rewrite <- total_app. apply total_perm. unfold products. rewrite <- map_app. apply Permutation_map. exact P. }
    rewrite (Permutation_length P), app_length, plus_INR.
    assert (forall l, Forall (fun xy => 0 <= fst xy /\ 0 <= snd xy) l -> 0 <= total (products l)) as NP.
    { clear. induction 1 as [|[x y] l [A B] F IH]; [cbn; lra|]. cbn [fst snd] in *. change (0 <= x * y + total (products l)).
      assert (0 <= x * y) by (apply Rmult_le_pos; auto). lra. }
    pose proof (NP _ F1) as T1. pose proof (NP _ F2) as T2.
    destruct (add_error s1 s2 B1 B2 P1 P2) as [LA UA].
    split. { intros ->. apply Permutation_nil in P. destruct l1; [contradiction|discriminate]. }
    split; [apply rnd_format|]. split; [apply rnd_nonneg; lra|].
    pose proof (pow_up (length l1) (length l1 + length l2 - 1) ltac:(lia)) as A1.
    pose proof (pow_up (length l2) (length l1 + length l2 - 1) ltac:(lia)) as A2.
    pose proof (pow_down (length l1) (length l1 + length l2 - 1) ltac:(lia)) as A3.
    pose proof (pow_down (length l2) (length l1 + length l2 - 1) ltac:(lia)) as A4.
    pose proof (pow_down_pos (length l1 + length l2 - 1)) as A5. pose proof (pow_up_pos (length l1 + length l2 - 1)) as A6.
    pose proof (pos_INR (length l1)) as I1. pose proof (pos_INR (length l2)) as I2.
    assert (pow (1 + u) (length l1 + length l2) = (1 + u) * pow (1 + u) (length l1 + length l2 - 1)) as ->.
    { change ((1 + u) * pow (1 + u) (length l1 + length l2 - 1)) with (pow (1 + u) (S (length l1 + length l2 - 1))). f_equal. lia. }
    assert (pow (1 - u) (length l1 + length l2) = (1 - u) * pow (1 - u) (length l1 + length l2 - 1)) as ->.
    { change ((1 - u) * pow (1 - u) (length l1 + length l2 - 1)) with (pow (1 - u) (S (length l1 + length l2 - 1))). f_equal. lia. }
    set (q := (1 + u) ^ (length l1 + length l2 - 1)) in *. set (p := (1 - u) ^ (length l1 + length l2 - 1)) in *.
    assert (0 <= INR (length l1) * tiny) as J1 by nra. assert (0 <= INR (length l2) * tiny) as J2 by nra. split.
    + assert (total (products l1) * p - INR (length l1) * tiny <= s1) by nra.
      assert (total (products l2) * p - INR (length l2) * tiny <= s2) by nra. nra.
    + assert (s1 <= (total (products l1) + INR (length l1) * tiny) * q) by nra.
      assert (s2 <= (total (products l2) + INR (length l2) * tiny) * q) by nra. nra.
  - assert (Forall (fun xy => 0 <= fst xy /\ 0 <= snd xy) ((x, y) :: l1)) as F' by (eapply Permutation_Forall; eauto).
    inversion F' as [|? ? [PX PY] F1]; subst. cbn [fst snd] in *. destruct (IH F1) as [N1 [B1 [P1 [L1 U1]]]].
    assert (total (products l) = x * y + total (products l1)) as ->.
    { change (x * y + total (products l1)) with (total (products ((x, y) :: l1))). apply total_perm. apply Permutation_map. exact P. }
    rewrite (Permutation_length P). cbn [length]. rewrite S_INR.
    assert (0 <= x * y) as PXY by nra. assert (0 <= s + x * y) as PS by lra. destruct (rnd_error (s + x * y) PS) as [LA UA].
    split. { intros ->. apply Permutation_nil in P. discriminate. }
    split; [apply rnd_format|]. split; [apply rnd_nonneg; lra|].
    pose proof (pow_down_pos (length l1)) as A5. pose proof (pow_up_pos (length l1)) as A6. pose proof (pos_INR (length l1)) as I1.
    cbn [pow]. set (q := (1 + u) ^ length l1) in *. set (p := (1 - u) ^ length l1) in *.
    assert (0 <= INR (length l1) * tiny) as J1 by nra. split.
    + assert (x * y * p <= x * y) by nra. nra.
    + assert (x * y <= x * y * q) by nra. assert (tiny <= tiny * q) by nra. nra.
Qed.

Lemma sums_exist : forall l, l <> [] -> exists s, f_sums l s.
Proof.
  induction l as [|x l IH]; intros N; [contradiction|]. destruct l as [|y l]; [exists x; constructor|].
  destruct IH as [s H]; [discriminate|]. eexists. apply (sum_two (x :: y :: l) [x] (y :: l) x s); [reflexivity|constructor|exact H].
Qed.
Lemma dots_exist : forall l, l <> [] -> exists s, f_dots l s.
Proof.
  induction l as [|[x y] l IH]; intros N; [contradiction|]. destruct l as [|z l]; [eexists; constructor|].
  destruct IH as [s H]; [discriminate|]. eexists. eapply (dot_fma ((x, y) :: z :: l) (z :: l)); [reflexivity|exact H].
Qed.

Lemma bernoulli_down : forall k, 1 - INR k * u <= (1 - u) ^ k.
Proof.
  pose proof u_bounds as U. induction k as [|k IH]; [cbn; lra|]. rewrite S_INR. cbn [pow].
  pose proof (pow_down_pos k) as P. pose proof (pos_INR k) as I. assert (0 <= INR k * u * u) by nra. nra.
Qed.
Lemma up_down : forall k, (1 + u) ^ k * (1 - u) ^ k <= 1.
Proof.
  intros k. rewrite <- Rpow_mult_distr. pose proof u_bounds as U. replace ((1 + u) * (1 - u)) with (1 - u * u) by ring.
  assert (0 <= 1 - u * u <= 1) as [A B] by nra. clear U. induction k as [|k IH]; cbn [pow]; [lra|].
  assert (0 <= (1 - u * u) ^ k) by (apply pow_le; auto). nra.
Qed.
Lemma twice_down : forall n, 1 - 2 * INR n * u <= (1 - u) ^ n * (1 - u) ^ n.
Proof.
  intros n. rewrite <- pow_add. eapply Rle_trans; [|apply bernoulli_down]. rewrite plus_INR. lra.
Qed.

Lemma normalised_products : forall s lo hi w b, 0 < s -> 0 <= lo -> length w = length b ->
  Forall (Rle 0) w -> Forall (fun y => lo <= y <= hi) b ->
  let q := total (products (combine (map (fun x => rnd (x / s)) w) b)) in
  lo * (total w / s * (1 - u) - INR (length w) * tiny) <= q <= hi * (total w / s * (1 + u) + INR (length w) * tiny).
Proof.
  intros s lo hi. induction w as [|x w IH]; intros [|y b] S L E FW FB; try discriminate.
  - cbn. unfold Rdiv. rewrite !Rmult_0_l. lra.
  - inversion FW as [|? ? PX FW']; subst. inversion FB as [|? ? PY FB']; subst. cbn in E. injection E as E.
    destruct (IH b S L E FW' FB') as [LO UP]. cbv zeta. cbn [map combine length].
    change (products ((rnd (x / s), y) :: combine (map (fun x => rnd (x / s)) w) b)) with
      ((rnd (x / s) * y) :: products (combine (map (fun x => rnd (x / s)) w) b)).
    cbn [total]. rewrite S_INR. set (q := total (products (combine (map (fun x => rnd (x / s)) w) b))) in *.
    assert (0 <= x / s) as PD by (apply Rmult_le_pos; [lra|apply Rlt_le, Rinv_0_lt_compat; auto]).
    destruct (rnd_error (x / s) PD) as [RL RU]. pose proof (rnd_nonneg _ PD) as RP.
    replace ((x + total w) / s) with (x / s + total w / s) by (unfold Rdiv; ring).
    set (v := rnd (x / s)) in *. set (d := x / s) in *. set (e := total w / s) in *.
    assert (lo * (d * (1 - u) - tiny) <= lo * v) by (apply Rmult_le_compat_l; auto).
    assert (v * lo <= v * y) by (apply Rmult_le_compat_l; lra).
    assert (v * y <= v * hi) by (apply Rmult_le_compat_l; lra).
    assert (v * hi <= (d * (1 + u) + tiny) * hi) by (apply Rmult_le_compat_r; lra).
    split; lra.
Qed.

Lemma divisions : forall s w, s <> 0 -> mapM (fun x => f_div x s) w = Ok (map (fun x => rnd (x / s)) w).
Proof.
  intros s w N. induction w as [|x w IH]; [reflexivity|]. cbn [mapM]. unfold f_div at 1. destruct (Reqb_spec s 0); [contradiction|].
  cbn [rbind]. rewrite IH. reflexivity.
Qed.

(** The quotient of the exact and the computed sum. *)
Lemma sum_ratio : forall l s, f_sums l s -> Forall (fun x => binary64 x /\ 0 <= x) l -> 0 < total l ->
  0 < s /\ total l / s * (1 - u) ^ (length l - 1) <= 1 /\ (1 - u) ^ (length l - 1) <= total l / s.
Proof.
  intros l s H F P. destruct (sums_error l s H F) as [_ [_ [_ [L U]]]].
  pose proof (pow_down_pos (length l - 1)) as PD. pose proof (pow_up_pos (length l - 1)) as PU. pose proof (up_down (length l - 1)) as UD.
  assert (0 < s) as PS by nra. split; auto. assert (total l / s * s = total l) as E by (field; lra).
  assert (0 < total l / s) as PR by (apply Rmult_lt_0_compat; [auto|apply Rinv_0_lt_compat; auto]).
  set (q := total l / s) in *. set (p := (1 - u) ^ (length l - 1)) in *. set (v := (1 + u) ^ (length l - 1)) in *. split; nra.
Qed.

(** C144: the normalised weighted mean of boat speeds lies between the smallest and the largest of
    them up to a relative error of [2 n 2^-53]. *)
Theorem float_mean_range : forall w b lo hi, w <> [] -> length w = length b ->
  Forall (fun x => binary64 x /\ 0 <= x) w -> 0 < total w ->
  Forall (fun y => binary64 y /\ lo <= y <= hi) b -> 0 <= lo -> 2 * INR (length w) * u < 1 ->
  (exists r, f_mean w b r) /\
  (forall r, f_mean w b r -> binary64 r /\ nearly_between (length w) lo hi r).
Proof.
  intros w b lo hi NE E FW PW FB PL SM.
  assert (Forall (fun y => lo <= y <= hi) b) as FB' by (eapply Forall_impl; [|exact FB]; cbn; tauto).
  assert (Forall (Rle 0) w) as FW' by (eapply Forall_impl; [|exact FW]; cbn; tauto).
  assert (b <> []) as NB by (destruct b; [destruct w; [contradiction|discriminate]|discriminate]).
  assert (lo <= hi) as LH by (destruct b; [contradiction|]; inversion FB'; subst; lra). split.
  - destruct (sums_exist w NE) as [s HS]. destruct (sum_ratio w s HS FW PW) as [PS _].
    destruct (dots_exist (combine (map (fun x => rnd (x / s)) w) b)) as [r HR].
    { destruct w; [contradiction|]. destruct b; [contradiction|]. discriminate. }
    exists r, s. eexists. split; [exact HS|]. split; [apply divisions; lra|exact HR].
  - intros r [s [n [HS [HN HR]]]]. destruct (sum_ratio w s HS FW PW) as [PS [R1 R2]]. rewrite divisions in HN by lra. injection HN as <-.
    destruct (normalised_products s lo hi w b PS PL E FW' FB') as [LO UP].
    assert (Forall (fun xy => 0 <= fst xy /\ 0 <= snd xy) (combine (map (fun x => rnd (x / s)) w) b)) as FC.
    { apply Forall_forall. intros [x y] I. cbn [fst snd]. split.
      - apply in_combine_l in I. apply in_map_iff in I. destruct I as [z [<- I]]. apply rnd_nonneg.
        rewrite Forall_forall in FW'. apply Rmult_le_pos; [apply FW'; auto|apply Rlt_le, Rinv_0_lt_compat; auto].
      - apply in_combine_r in I. rewrite Forall_forall in FB'. specialize (FB' _ I). lra. }
    destruct (dots_error _ _ HR FC) as [_ [B [P [DL DU]]]].
    assert (length (combine (map (fun x => rnd (x / s)) w) b) = length w) as EL by (rewrite combine_length, map_length; lia).
    rewrite EL in DL, DU. split; auto. unfold nearly_between.
    set (N := INR (length w)) in *. set (Q := total (products (combine (map (fun x => rnd (x / s)) w) b))) in *.
    set (rho := total w / s) in *. pose proof (twice_down (length w)) as TD. fold N in TD.
    pose proof (up_down (length w)) as UD. pose proof (pow_down_pos (length w)) as PD. pose proof (pow_up_pos (length w)) as PU.
    assert ((1 - u) ^ length w = (1 - u) * (1 - u) ^ (length w - 1)) as EP.
    { destruct w; [contradiction|]. cbn [length pow]. rewrite Nat.sub_succ, Nat.sub_0_r. reflexivity. }
    pose proof u_bounds as U. pose proof tiny_pos as TP. assert (0 <= N) as PN by apply pos_INR.
    set (d := (1 - u) ^ length w) in *. set (e := (1 - u) ^ (length w - 1)) in *. set (v := (1 + u) ^ length w) in *.
    assert (0 < e) as PE by nra.
    assert (0 < rho) as PR by nra.
    assert (0 <= N * tiny) as NT by nra. split.
    + assert (d <= rho * (1 - u)) as D1 by nra.
      assert (lo * (d - N * tiny) <= Q) as QL by (eapply Rle_trans; [|exact LO]; apply Rmult_le_compat_l; lra).
      assert (lo * (d - N * tiny) * d <= Q * d) as QD by (apply Rmult_le_compat_r; lra).
      assert (lo * (1 - 2 * N * u) <= lo * (d * d)) by (apply Rmult_le_compat_l; lra).
      assert (lo * (N * tiny) * d <= lo * (N * tiny)) by (rewrite <- (Rmult_1_r (lo * (N * tiny))) at 2; apply Rmult_le_compat_l; [apply Rmult_le_pos; auto|lra]).
      replace (lo * (d - N * tiny) * d) with (lo * (d * d) - lo * (N * tiny) * d) in QD by ring. lra.
    + apply Rle_trans with (r * (d * d)); [apply Rmult_le_compat_l; auto|].
      assert (rho * (1 + u) * d <= 1) as D1.
      { rewrite EP. replace (rho * (1 + u) * ((1 - u) * e)) with ((1 - u * u) * (rho * e)) by ring.
        assert (0 < rho * e) by (apply Rmult_lt_0_compat; auto). assert (0 <= u * u) by (apply Rmult_le_pos; lra).
        assert (0 <= u * u * (rho * e)) by (apply Rmult_le_pos; lra). lra. }
      assert (r * d <= Q + N * tiny) as RD.
      { apply Rle_trans with ((Q + N * tiny) * v * d); [apply Rmult_le_compat_r; lra|].
        assert (0 <= Q + N * tiny) as QP by (apply Rmult_le_reg_r with v; [lra|]; rewrite Rmult_0_l; lra).
        rewrite Rmult_assoc. rewrite <- (Rmult_1_r (Q + N * tiny)) at 2. apply Rmult_le_compat_l; auto. }
      assert (Q * d <= hi * (1 + N * tiny)) as QD.
      { apply Rle_trans with (hi * (rho * (1 + u) + N * tiny) * d); [apply Rmult_le_compat_r; lra|].
        rewrite Rmult_assoc. apply Rmult_le_compat_l; [lra|]. nra. }
      replace (r * (d * d)) with (r * d * d) by ring.
      assert (r * d * d <= (Q + N * tiny) * d) by (apply Rmult_le_compat_r; lra).
      assert (N * tiny * d <= N * tiny * 1) by (apply Rmult_le_compat_l; lra). lra.
Qed.

Lemma power_format : forall e, (-1074 <= e)%Z -> binary64 (bpow radix2 e).
Proof. intros e H. replace (bpow radix2 e) with (IZR 1 * bpow radix2 e) by (cbn; ring). apply multiple_format; auto. reflexivity. Qed.

(** C144: inverse distance interpolation in floating point.  A point at distance 0 is returned as it
    is; otherwise the result is between the boat speeds up to rounding. *)
Theorem float_idw_range : forall power d b lo hi, d <> [] -> length d = length b ->
  Forall (Rle 0) d -> (forall x, In x d -> 0 < x -> 0 < power x <= bpow radix2 1024) ->
  Forall (fun y => binary64 y /\ lo <= y <= hi) b -> 0 <= lo -> 2 * INR (length d) * u < 1 ->
  (exists r, f_idw power d b r) /\
  (forall r, f_idw power d b r ->
     (exists i, nth_error d i = Some 0 /\ nth_error b i = Some r /\ forall j, (j < i)%nat -> nth_error d j <> Some 0) \/
     (~ In 0 d /\ binary64 r /\ nearly_between (length d) lo hi r)).
Proof.
  intros power d b lo hi NE E FD HP FB PL SM. unfold f_idw.
  destruct (find (fun db => Reqb (fst db) 0) (combine d b)) as [[x y]|] eqn:FI.
  - split; [eexists; reflexivity|]. intros r ->. left. cbn [snd].
    clear - FI E. revert b E FI. induction d as [|x0 d IH]; intros [|y0 b] E FI; try discriminate.
    cbn [combine find fst] in FI. destruct (Reqb_spec x0 0) as [->|NZ].
    + injection FI as -> ->. exists 0%nat. repeat split; auto. intros j J. lia.
    + cbn in E. injection E as E. destruct (IH b E FI) as [i [I1 [I2 I3]]]. exists (S i). repeat split; auto.
      intros [|j] J; cbn [nth_error]; [intros H; injection H as H; contradiction|]. apply I3. lia.
  - assert (forall x, In x d -> x <> 0) as NZ.
    { intros x I ->. apply In_nth_error in I. destruct I as [i I]. destruct (nth_error b i) as [y|] eqn:EB.
      - assert (In (0, y) (combine d b)) as IC.
        { clear - I EB. revert i b I EB. induction d as [|x0 d IH]; intros [|i] [|y0 b] I EB; try discriminate; cbn in *.
          - injection I as ->. injection EB as ->. left. reflexivity.
          - right. eapply IH; eauto. }
        apply (find_none _ _ FI) in IC. cbn in IC. destruct (Reqb_spec 0 0); [discriminate|contradiction].
      - apply nth_error_None in EB. assert (nth_error d i <> None) as X by congruence. apply nth_error_Some in X. lia. }
    assert (Forall (fun x => 0 < x /\ 0 < power x <= bpow radix2 1024) d) as FP.
    { apply Forall_forall. intros x I. rewrite Forall_forall in FD. assert (0 < x) by (specialize (FD x I); specialize (NZ x I); lra).
      split; auto. }
    assert (mapM (fun x => f_div 1 (power x)) d = Ok (map (fun x => rnd (1 / power x)) d)) as EM.
    { clear - FP. induction d as [|x d IH]; [reflexivity|]. inversion FP as [|? ? [_ PX] FP']; subst. cbn [mapM map]. rewrite IH by auto.
      unfold f_div. destruct (Reqb_spec (power x) 0); [lra|]. reflexivity. }
    set (w := map (fun x => rnd (1 / power x)) d) in *.
    assert (Forall (fun x => binary64 x /\ 0 < x) w) as FW.
    { apply Forall_forall. intros v I. apply in_map_iff in I. destruct I as [x [<- I]]. rewrite Forall_forall in FP. destruct (FP x I) as [_ [P1 P2]].
      split; [apply rnd_format|]. apply Rlt_le_trans with (bpow radix2 (-1024)); [apply bpow_gt_0|].
      apply rnd_ge; [apply power_format; lia|]. change (-1024)%Z with (- (1024))%Z. rewrite bpow_opp. unfold Rdiv. rewrite Rmult_1_l.
      apply Rinv_le; auto. }
    assert (length w = length d) as EL by apply map_length.
    assert (w <> []) as NW by (destruct d; [contradiction|discriminate]).
    assert (0 < total w) as PT.
    { clear - NW FW. destruct w as [|x w]; [contradiction|]. inversion FW as [|? ? [_ PX] FW']; subst. cbn.
      assert (0 <= total w) by (apply total_nonneg; eapply Forall_impl; [|exact FW']; cbn; intros; lra). lra. }
    rewrite <- EL in SM. destruct (float_mean_range w b lo hi) as [EX AL]; auto.
    + congruence.
    + eapply Forall_impl; [|exact FW]. cbn. intros ? [? ?]. split; [auto|lra].
    + split.
      * destruct EX as [r HR]. exists r, w. split; auto.
      * intros r [w' [EW HR]]. rewrite EM in EW. injection EW as <-. right. split; [intros I; apply (NZ 0 I); reflexivity|].
        rewrite <- EL. apply AL. exact HR.
Qed.

Lemma sums_not_nil : forall l s, f_sums l s -> (0 < length l)%nat.
Proof. induction 1 as [|l l1 l2 s1 s2 P H1 IH1 H2 IH2]; [cbn; lia|]. rewrite (Permutation_length P), app_length. lia. Qed.
Lemma dots_not_nil : forall l s, f_dots l s -> (0 < length l)%nat.
Proof.
  induction 1 as [|l l1 l2 s1 s2 P H1 IH1 H2 IH2|l l1 x y s P H IH]; [cbn; lia| |]; rewrite (Permutation_length P); [rewrite app_length|cbn]; lia.
Qed.
Lemma sums_one : forall x s, f_sums [x] s -> s = x.
Proof.
  intros x s H. inversion H as [|? l1 l2 s1 s2 P H1 H2]; subst; auto. apply Permutation_length in P. rewrite app_length in P. cbn in P.
  apply sums_not_nil in H1. apply sums_not_nil in H2. lia.
Qed.
Lemma dots_one : forall x y s, f_dots [(x, y)] s -> s = f_mul x y.
Proof.
  intros x y s H. inversion H as [|? l1 l2 s1 s2 P H1 H2|? l1 x' y' s1 P H1]; subst; auto.
  - apply Permutation_length in P. rewrite app_length in P. cbn in P. apply dots_not_nil in H1. apply dots_not_nil in H2. lia.
  - apply Permutation_length in P. cbn in P. apply dots_not_nil in H1. lia.
Qed.
Lemma split_two : forall {A} (x y : A) l1 l2, Permutation [x; y] (l1 ++ l2) -> (0 < length l1)%nat -> (0 < length l2)%nat ->
  (l1 = [x] /\ l2 = [y]) \/ (l1 = [y] /\ l2 = [x]).
Proof.
  intros A x y l1 l2 P L1 L2. pose proof (Permutation_length P) as L. rewrite app_length in L. cbn in L.
  destruct l1 as [|a [|? ?]]; cbn in *; try lia. destruct l2 as [|c [|? ?]]; cbn in *; try lia.
  apply Permutation_length_2_inv in P. destruct P as [P|P]; injection P as -> ->; auto.
Qed.
Lemma sums_of_two : forall x y s, f_sums [x; y] s -> s = f_add x y.
Proof.
  intros x y s H. inversion H as [|? l1 l2 s1 s2 P H1 H2]; subst.
  destruct (split_two _ _ _ _ P (sums_not_nil _ _ H1) (sums_not_nil _ _ H2)) as [[-> ->]|[-> ->]];
    apply sums_one in H1; apply sums_one in H2; subst; [reflexivity|]. unfold f_add. f_equal. ring.
Qed.
Lemma dots_with_one : forall x y s, binary64 x -> binary64 y -> f_dots [(x, 1); (y, 1)] s -> s = f_add x y.
Proof.
  intros x y s FX FY H. assert (forall z, binary64 z -> f_mul z 1 = z) as M.
  { intros z FZ. unfold f_mul. rewrite Rmult_1_r. apply rnd_exact. exact FZ. }
  inversion H as [|? l1 l2 s1 s2 P H1 H2|? l1 x' y' s1 P H1]; subst.
  - destruct (split_two _ _ _ _ P (dots_not_nil _ _ H1) (dots_not_nil _ _ H2)) as [[-> ->]|[-> ->]];
      apply dots_one in H1; apply dots_one in H2; rewrite M in H1, H2 by auto; subst; [reflexivity|]. unfold f_add. f_equal. ring.
  - change ((x', y') :: l1) with ([(x', y')] ++ l1) in P. pose proof (dots_not_nil _ _ H1) as N.
    destruct (split_two _ _ _ _ P (Nat.lt_succ_diag_r 0) N) as [[EA ->]|[EA ->]]; injection EA as -> ->;
      apply dots_one in H1; rewrite M in H1 by auto; subst; unfold f_add; f_equal; ring.
Qed.

(** C144: a single point with positive weight gives its boat speed without any error. *)
Theorem float_mean_single : forall w b r, binary64 w -> 0 < w -> binary64 b -> f_mean [w] [b] r -> r = b.
Proof.
  intros w b r FW PW FB [s [n [HS [HN HR]]]]. apply sums_one in HS. subst s. rewrite divisions in HN by lra. injection HN as <-.
  cbn [map combine] in HR. replace (w / w) with 1 in HR by (field; lra). rewrite (rnd_exact 1 format_1) in HR.
  apply dots_one in HR. subst r. unfold f_mul. rewrite Rmult_1_l. apply rnd_exact. exact FB.
Qed.

(** C144 fails without the rounding error: points with boat speed 1 at the distances 1 and 21 give more
    than 1, in whatever order numpy computes. *)
Definition square (x : R) : R := rnd (x * x).
Theorem float_idw_overshoot_refuted :
  (exists r, f_idw square [1; 21] [1; 1] r) /\ (forall r, f_idw square [1; 21] [1; 1] r -> r = 1 + / IZR (2 ^ 52)).
Proof.
  assert (square 1 = 1) as S1 by (unfold square; rewrite Rmult_1_r; apply rnd_exact, format_1).
  assert (square 21 = 441) as S21 by (unfold square; replace (21 * 21) with (IZR 441) by (cbn; lra); apply rnd_exact, format_int; reflexivity).
  assert (rnd (1 / 441) = IZR 5228668955133093 * bpow radix2 (-61)) as W2.
  { apply rnd_to; [lia|small_bpow; lra|]. small_bpow. apply Rabs_def1; lra. }
  assert (rnd (1 / 1) = 1) as W1 by (replace (1 / 1) with 1 by lra; apply rnd_exact, format_1).
  set (w2 := IZR 5228668955133093 * bpow radix2 (-61)) in *.
  assert (f_add 1 w2 = IZR 4513811871423490 * bpow radix2 (-52)) as S.
  { unfold f_add, w2. apply rnd_to; [lia|small_bpow; lra|]. small_bpow. apply Rabs_def1; lra. }
  set (s := IZR 4513811871423490 * bpow radix2 (-52)) in *.
  assert (s = 4513811871423490 / 4503599627370496) as ES by (unfold s; small_bpow; lra).
  assert (w2 = 5228668955133093 / 2305843009213693952) as EW by (unfold w2; small_bpow; lra).
  assert (s <> 0) as NS by (rewrite ES; lra).
  assert (rnd (1 / s) = IZR 8986820975884113 * bpow radix2 (-53)) as N1.
  { replace (1 / s) with (4503599627370496 / 4513811871423490) by (rewrite ES; field).
    apply rnd_to; [lia|small_bpow; lra|]. small_bpow. apply Rabs_def1; lra. }
  assert (rnd (w2 / s) = IZR 5216839387361299 * bpow radix2 (-61)) as N2.
  { replace (w2 / s) with (5228668955133093 / 512 / 4513811871423490) by (rewrite ES, EW; field).
    apply rnd_to; [lia|small_bpow; lra|]. small_bpow. apply Rabs_def1; lra. }
  assert (forall r, f_idw square [1; 21] [1; 1] r <-> exists w, mapM (fun x => f_div 1 (square x)) [1; 21] = Ok w /\ f_mean w [1; 1] r) as UF.
  { intros r. unfold f_idw. cbn [combine find fst]. destruct (Reqb_spec 1 0); [lra|]. destruct (Reqb_spec 21 0); [lra|]. reflexivity. }
  assert (mapM (fun x => f_div 1 (square x)) [1; 21] = Ok [1; w2]) as EM.
  { cbn [mapM]. rewrite S1, S21. unfold f_div. destruct (Reqb_spec 1 0); [lra|]. destruct (Reqb_spec 441 0); [lra|]. cbn [rbind]. rewrite W1, W2. reflexivity. }
  split.
  - destruct (sums_exist [1; w2]) as [s' HS]; [discriminate|]. pose proof HS as HS'. apply sums_of_two in HS'. rewrite S in HS'. subst s'.
    destruct (dots_exist (combine (map (fun x => rnd (x / s)) [1; w2]) [1; 1])) as [r HR]; [discriminate|].
    exists r. apply UF. exists [1; w2]. split; auto. exists s. eexists. split; [exact HS|]. split; [apply divisions; auto|exact HR].
  - intros r H. apply UF in H. destruct H as [w [EW' [s' [n [HS [HN HR]]]]]]. rewrite EM in EW'. injection EW' as <-.
    apply sums_of_two in HS. rewrite S in HS. subst s'. rewrite divisions in HN by auto. injection HN as <-.
    cbn [map combine] in HR. apply dots_with_one in HR; [|apply rnd_format|apply rnd_format]. subst r. rewrite N1, N2.
    unfold f_add. rewrite (rnd_to _ 4503599627370497 (-52)); [|lia|small_bpow; lra|small_bpow; apply Rabs_def1; lra].
    small_bpow. change (2 ^ 52)%Z with 4503599627370496%Z. lra.
Qed.

(** ** [np.average] *)

(** As [nearly_between]; the smallest number now counts relative to the sum of the weights. *)
Definition nearly_average (n : nat) (sum_of_weights lo hi r : R) : Prop :=
  lo * (1 - 2 * INR n * u) - (INR n / sum_of_weights + 1) * tiny <= r /\
  r * (1 - 2 * INR n * u) <= hi + (INR n / sum_of_weights + 1) * tiny.

Lemma weighted_products : forall lo hi w b, 0 <= lo -> length w = length b -> Forall (Rle 0) w -> Forall (fun y => lo <= y <= hi) b ->
  let q := total (map (fun wb => f_mul (snd wb) (fst wb)) (combine w b)) in
  lo * total w * (1 - u) - INR (length w) * tiny <= q <= hi * total w * (1 + u) + INR (length w) * tiny.
Proof.
  intros lo hi. induction w as [|x w IH]; intros [|y b] L E FW FB; try discriminate.
  - cbn. lra.
  - inversion FW as [|? ? PX FW']; subst. inversion FB as [|? ? PY FB']; subst. cbn in E. injection E as E.
    destruct (IH b L E FW' FB') as [LO UP]. cbv zeta. cbn [map combine length total fst snd]. rewrite S_INR.
    set (q := total (map (fun wb => f_mul (snd wb) (fst wb)) (combine w b))) in *. pose proof u_bounds as U.
    assert (0 <= y * x) as PD by (apply Rmult_le_pos; lra). destruct (rnd_error (y * x) PD) as [RL RU]. unfold f_mul.
    assert (lo * x <= y * x) by (apply Rmult_le_compat_r; lra). assert (y * x <= hi * x) by (apply Rmult_le_compat_r; lra).
    assert (lo * x * (1 - u) <= y * x * (1 - u)) by (apply Rmult_le_compat_r; lra).
    assert (y * x * (1 + u) <= hi * x * (1 + u)) by (apply Rmult_le_compat_r; lra).
    split; nra.
Qed.

(** C144: the same for [np.average]. *)
Theorem float_average_range : forall w b lo hi, w <> [] -> length w = length b ->
  Forall (fun x => binary64 x /\ 0 <= x) w -> 0 < total w ->
  Forall (fun y => binary64 y /\ lo <= y <= hi) b -> 0 <= lo -> 2 * INR (length w) * u < 1 ->
  (exists r, f_average w b r) /\
  (forall r, f_average w b r -> binary64 r /\ nearly_average (length w) (total w) lo hi r).
Proof.
  intros w b lo hi NE E FW PW FB PL SM.
  assert (Forall (fun y => lo <= y <= hi) b) as FB' by (eapply Forall_impl; [|exact FB]; cbn; tauto).
  assert (Forall (Rle 0) w) as FW' by (eapply Forall_impl; [|exact FW]; cbn; tauto).
  assert (b <> []) as NB by (destruct b; [destruct w; [contradiction|discriminate]|discriminate]).
  assert (lo <= hi) as LH by (destruct b; [contradiction|]; inversion FB'; subst; lra).
  set (ps := map (fun wb => f_mul (snd wb) (fst wb)) (combine w b)) in *.
  assert (length ps = length w) as EL by (unfold ps; rewrite map_length, combine_length; lia).
  assert (ps <> []) as NP by (destruct ps; [destruct w; [contradiction|discriminate]|discriminate]).
  assert (Forall (fun x => binary64 x /\ 0 <= x) ps) as FP.
  { apply Forall_forall. intros p I. apply in_map_iff in I. destruct I as [[x y] [<- I]]. cbn [fst snd]. split; [apply rnd_format|].
    apply rnd_nonneg. pose proof (in_combine_l _ _ _ _ I) as IL. apply in_combine_r in I. rewrite Forall_forall in FW', FB'.
    specialize (FB' _ I). specialize (FW' _ IL). apply Rmult_le_pos; lra. }
  split.
  - destruct (sums_exist w NE) as [s HS]. destruct (sums_exist ps NP) as [t HT]. destruct (sum_ratio w s HS FW PW) as [PS _].
    exists (rnd (t / s)), s, t. split; [exact HS|]. split; [exact HT|]. unfold f_div. destruct (Reqb_spec s 0); [lra|reflexivity].
  - intros r [s [t [HS [HT HR]]]]. destruct (sum_ratio w s HS FW PW) as [PS [R1 R2]].
    unfold f_div in HR. destruct (Reqb_spec s 0); [lra|]. injection HR as <-. split; [apply rnd_format|].
    destruct (sums_error ps t HT FP) as [_ [_ [PT [TL TU]]]]. rewrite EL in TL, TU.
    destruct (weighted_products lo hi w b PL E FW' FB') as [QL QU]. fold ps in QL, QU.
    assert (0 <= t / s) as PQ by (apply Rmult_le_pos; [auto|apply Rlt_le, Rinv_0_lt_compat; auto]).
    destruct (rnd_error _ PQ) as [RL RU]. pose proof (rnd_nonneg _ PQ) as RP.
    unfold nearly_average. set (r := rnd (t / s)) in *. set (W := total w) in *. set (Q := total ps) in *.
    set (N := INR (length w)) in *. set (rho := W / s) in *. set (x := t / s) in *. set (c := N * tiny / W).
    replace ((N / W + 1) * tiny) with (c + tiny) by (unfold c; field; lra).
    assert (1 <= N) as N1 by (unfold N; destruct w; [contradiction|]; cbn [length]; rewrite S_INR; pose proof (pos_INR (length w)); lra).
    pose proof (twice_down (length w)) as TD. fold N in TD. pose proof (pow_down_pos (length w)) as PD.
    assert ((1 - u) ^ length w = (1 - u) * (1 - u) ^ (length w - 1)) as EP.
    { destruct w; [contradiction|]. cbn [length pow]. rewrite Nat.sub_succ, Nat.sub_0_r. reflexivity. }
    pose proof u_bounds as U. pose proof tiny_pos as TP. pose proof (up_down (length w - 1)) as UD. pose proof (pow_up_pos (length w - 1)) as PU.
    pose proof (pow_down_pos (length w - 1)) as PE.
    assert (0 <= c) as PC by (unfold c; apply Rmult_le_pos; [nra|apply Rlt_le, Rinv_0_lt_compat; auto]).
    assert (c * W = N * tiny) as CW by (unfold c; field; lra).
    set (d := (1 - u) ^ length w) in *. set (e := (1 - u) ^ (length w - 1)) in *. set (v := (1 + u) ^ (length w - 1)) in *.
    assert (0 < rho) as PR by lra.
    assert (x * s = t) as XS by (unfold x; field; lra). assert (rho * s = W) as RS by (unfold rho; field; lra).
    assert (1 - 2 * N * u <= 1 - u) as DU by nra.
    split.
    + (* from below *)
      destruct (Rle_dec (lo * (1 - u)) c) as [SMALL|BIG].
      { assert (lo * (1 - 2 * N * u) <= lo * (1 - u)) by (apply Rmult_le_compat_l; lra). lra. }
      assert (W * (lo * (1 - u) - c) <= Q) as Q1 by lra.
      assert (e * (lo * (1 - u) - c) * rho <= x) as X1.
      { apply Rmult_le_reg_r with s; auto. rewrite XS.
        replace (e * (lo * (1 - u) - c) * rho * s) with (W * (lo * (1 - u) - c) * e) by (rewrite <- RS; ring).
        apply Rle_trans with (Q * e); [apply Rmult_le_compat_r; lra|exact TL]. }
      assert (e * (lo * (1 - u) - c) * e <= x) as X2.
      { eapply Rle_trans; [|exact X1]. apply Rmult_le_compat_l; [|lra]. apply Rmult_le_pos; lra. }
      assert (e * (lo * (1 - u) - c) * e * (1 - u) <= x * (1 - u)) as X3 by (apply Rmult_le_compat_r; lra).
      assert (lo * (1 - 2 * N * u) <= lo * (d * d)) as X4 by (apply Rmult_le_compat_l; lra).
      replace (e * (lo * (1 - u) - c) * e * (1 - u)) with (lo * (d * d) - c * (e * e * (1 - u))) in X3 by (rewrite EP; ring).
      assert (e * e * (1 - u) <= 1) as X5 by (assert (e * e <= 1) by nra; assert (0 <= e * e) by nra; nra).
      assert (c * (e * e * (1 - u)) <= c * 1) as X6 by (apply Rmult_le_compat_l; auto). lra.
    + (* from above *)
      apply Rle_trans with (r * (d * d)); [apply Rmult_le_compat_l; auto|].
      assert (Q <= W * (hi * (1 + u) + c)) as Q1 by lra. assert (0 <= hi * (1 + u) + c) as PH by nra.
      assert (x <= (hi * (1 + u) + c) * (rho * v)) as X1.
      { apply Rmult_le_reg_r with s; auto. rewrite XS. replace ((hi * (1 + u) + c) * (rho * v) * s) with (W * (hi * (1 + u) + c) * v) by (rewrite <- RS; ring).
        eapply Rle_trans; [exact TU|]. apply Rmult_le_compat_r; lra. }
      assert (rho * v * (e * e) <= 1) as X2.
      { replace (rho * v * (e * e)) with (rho * e * (v * e)) by ring. assert (0 <= v * e) by nra. assert (0 <= rho * e) by nra. nra. }
      assert (x * (e * e) <= hi * (1 + u) + c) as X3.
      { apply Rle_trans with ((hi * (1 + u) + c) * (rho * v) * (e * e)); [apply Rmult_le_compat_r; [nra|exact X1]|].
        rewrite Rmult_assoc. rewrite <- (Rmult_1_r (hi * (1 + u) + c)) at 2. apply Rmult_le_compat_l; auto. }
      replace (r * (d * d)) with (r * (e * e) * ((1 - u) * (1 - u))) by (rewrite EP; ring).
      assert (0 <= e * e <= 1) as EE by nra.
      assert (r * (e * e) <= (hi * (1 + u) + c) * (1 + u) + tiny) as X4.
      { apply Rle_trans with ((x * (1 + u) + tiny) * (e * e)); [apply Rmult_le_compat_r; lra|].
        assert (x * (e * e) * (1 + u) <= (hi * (1 + u) + c) * (1 + u)) by (apply Rmult_le_compat_r; lra).
        assert (tiny * (e * e) <= tiny * 1) by (apply Rmult_le_compat_l; lra). lra. }
      assert (0 <= (1 - u) * (1 - u)) as UU by nra.
      eapply Rle_trans; [apply Rmult_le_compat_r; [exact UU|exact X4]|].
      replace (((hi * (1 + u) + c) * (1 + u) + tiny) * ((1 - u) * (1 - u))) with
        (hi * ((1 - u * u) * (1 - u * u)) + c * ((1 - u * u) * (1 - u)) + tiny * ((1 - u) * (1 - u))) by ring.
      assert (0 <= u * u <= 1) as U2 by nra.
      assert ((1 - u * u) * (1 - u * u) <= 1) as Y1 by nra. assert ((1 - u * u) * (1 - u) <= 1) as Y2 by nra. assert ((1 - u) * (1 - u) <= 1) as Y3 by nra.
      assert (hi * ((1 - u * u) * (1 - u * u)) <= hi * 1) by (apply Rmult_le_compat_l; lra).
      assert (c * ((1 - u * u) * (1 - u)) <= c * 1) by (apply Rmult_le_compat_l; lra).
      assert (tiny * ((1 - u) * (1 - u)) <= tiny * 1) by (apply Rmult_le_compat_l; lra). lra.
Qed.

(** C144 fails for weights that have almost vanished: a single point of boat speed 1/4 gives 0. *)
Theorem float_average_tiny_refuted : exists w, binary64 w /\ 0 < w /\ f_average [w] [/ 4] 0 /\ (forall r, f_average [w] [/ 4] r -> r = 0).
Proof.
  assert (rnd (/ 4 * bpow radix2 (-1074)) = 0) as Z.
  { apply Rle_antisym; [|apply rnd_nonneg; pose proof (bpow_gt_0 radix2 (-1074)); nra].
    assert (rnd (/ 4 * bpow radix2 (-1074)) <= / 4 * bpow radix2 (-1074) * (1 + u) + tiny) as H.
    { apply rnd_error. pose proof (bpow_gt_0 radix2 (-1074)). nra. }
    rewrite <- tiny_half in H. pose proof u_bounds as U. pose proof (bpow_gt_0 radix2 (-1074)) as P.
    destruct (Rle_dec (rnd (/ 4 * bpow radix2 (-1074))) 0) as [|N]; auto. exfalso.
    assert (bpow radix2 (-1074) <= rnd (/ 4 * bpow radix2 (-1074))) as G.
    { pose proof (rnd_format (/ 4 * bpow radix2 (-1074))) as F. unfold binary64, generic_format, F2R in F. cbn [Fnum Fexp] in F. rewrite F in N |- *.
      set (m := Ztrunc (scaled_mantissa radix2 fexp (rnd (/ 4 * bpow radix2 (-1074))))) in *.
      set (x := cexp radix2 fexp (rnd (/ 4 * bpow radix2 (-1074)))) in *.
      assert (-1074 <= x)%Z as LX by (unfold x, cexp, fexp, FLT_exp; lia). pose proof (bpow_gt_0 radix2 x) as PX.
      assert (0 < IZR m) as PM by nra. apply lt_IZR in PM. assert (1 <= IZR m) as M1 by (apply IZR_le; lia).
      apply Rle_trans with (bpow radix2 x); [apply bpow_le; auto|nra]. }
    nra. }
  exists (bpow radix2 (-1074)). pose proof (bpow_gt_0 radix2 (-1074)) as P.
  split; [apply power_format; lia|]. split; [auto|].
  assert (f_div 0 (bpow radix2 (-1074)) = Ok 0) as D.
  { unfold f_div. destruct (Reqb_spec (bpow radix2 (-1074)) 0); [lra|]. unfold Rdiv. rewrite Rmult_0_l. f_equal. apply rnd_exact, (format_int 0). reflexivity. }
  split.
  - exists (bpow radix2 (-1074)), 0. split; [constructor|]. split; [|exact D]. cbn [combine map fst snd]. unfold f_mul. rewrite Z. constructor.
  - intros r [s [t [HS [HT HR]]]]. apply sums_one in HS. subst s. cbn [combine map fst snd] in HT. apply sums_one in HT. unfold f_mul in HT. rewrite Z in HT. subst t.
    rewrite D in HR. injection HR as <-. reflexivity.
Qed.

Print Assumptions float_mean_range.
Print Assumptions float_idw_range.
Print Assumptions float_mean_single.
Print Assumptions float_idw_overshoot_refuted.
Print Assumptions float_average_range.
Print Assumptions float_average_tiny_refuted.

(** ** Examples *)

(** Three points at the distances 1, 3, 4 with the boat speeds 5, 6, 8. *)
Example float_idw_ex :
  [1; 3; 4] <> [] /\ Forall (Rle 0) [1; 3; 4] /\ (forall x, In x [1; 3; 4] -> 0 < x -> 0 < square x <= bpow radix2 1024) /\
  Forall (fun y => binary64 y /\ 5 <= y <= 8) [5; 6; 8] /\ 2 * INR 3 * u < 1.
Proof.
  split; [discriminate|]. split; [repeat constructor; lra|]. split.
  { intros x I P. unfold square. assert (exists k, (0 < k < 20)%Z /\ x * x = IZR k) as [k [K E]].
    { destruct I as [<-|[<-|[<-|[]]]]; [exists 1%Z|exists 9%Z|exists 16%Z]; (split; [lia|cbn; lra]). }
    rewrite E, rnd_exact by (apply format_int; lia). split; [apply IZR_lt; lia|].
    apply Rle_trans with (bpow radix2 5); [|apply bpow_le; lia]. change (bpow radix2 5) with 32. apply IZR_le. lia. }
  split. { repeat constructor; try lra; (apply (format_int 5); reflexivity) || (apply (format_int 6); reflexivity) || (apply (format_int 8); reflexivity). }
  unfold unit_roundoff. change (2 ^ 53)%Z with 9007199254740992%Z. cbn [INR]. lra.
Qed.
Example float_average_ex : exists r, f_average [1; 3] [5; 7] r /\ nearly_average 2 (total [1; 3]) 5 7 r.
Proof.
  destruct (float_average_range [1; 3] [5; 7] 5 7) as [[r H] A]; try discriminate; try reflexivity; try lra.
  - repeat constructor; try lra; (apply (format_int 1); reflexivity) || (apply (format_int 3); reflexivity).
  - cbn. lra.
  - repeat constructor; try lra; (apply (format_int 5); reflexivity) || (apply (format_int 7); reflexivity).
  - unfold unit_roundoff. change (2 ^ 53)%Z with 9007199254740992%Z. cbn [length INR]. lra.
  - exists r. split; auto. apply A. exact H.
Qed.
