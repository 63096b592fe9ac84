(** * Tables with binary64 wind angles: model and properties

    The constructor and item access of a table both reduce wind angles by [% 360]; numbers as in FloatMod.v
    (no nan, infinities or sign of zero).  Wind speeds and boat speeds are only compared and copied. *)

From Coq Require Import List Bool Arith ZArith Reals Lra Lia Permutation Sorted.
From Flocq Require Import Core.
From Verif Require Import Py Num PySort ListX InterpModel TableModel TableSpec TableProofs FloatMod FloatUnit FloatSteps FloatAverage FloatSmooth FloatMirror.
Import ListNotations.
Open Scope R_scope.

Local Instance valid_exp_ft : Valid_exp fexp.
Proof. apply FLT_exp_valid. reflexivity. Qed.

(** [__init__] for sequences of winds and boat speeds.  _polardiagramtable.py 143-167, 727-755. *)
Definition f_table_new (ws wa : list R) (bs : list (list R)) : result (table R) :=
  do ws <- build_ws (RIter ws);
  match wa with
  | [] => Raise ValueError
  | _ =>
      let wa := map np_mod360 wa in
      if has_shape bs (length wa) (length ws) then
        do s <- sort_table ws wa bs;
        let '(ws', wa', bs') := s in Ok (mkTable ws' wa' bs' false)
      else Raise ValueError
  end.

(** [normalize_wind] for angles.  _polardiagramtable.py 773-783. *)
Definition f_normalize_wa (w : list R) : result (list R) := Ok (map np_mod360 w).

(** [__getitem__].  _polardiagramtable.py 303-309, as [getitem] in TableModel.v. *)
Definition f_getitem (t : table R) (ws wa : list R) : result R :=
  do col <- get_indices normalize_ws (t_ws t) (Some ws);
  do row <- get_indices f_normalize_wa (t_wa t) (Some wa);
  match row, col with
  | [i], [j] => Ok (cell (t_bs t) i j)
  | [_], _ | _, [_] => Raise TypeError
  | _, _ => if Nat.eqb (length row) (length col) then Raise TypeError else Raise IndexError
  end.

(** ** Reduction of shifted angles *)

Lemma np_mod_rnd : forall x r, binary64 x -> exact_mod x r -> np_mod360 x = rnd r.
Proof.
  intros x r FX [RR [k EK]]. destruct (fmod_range x) as [RG [FP FN]].
  assert (exists j, r = fmod360 x + 360 * IZR j) as [j EJ].
  { exists (Ztrunc (x / 360) - k)%Z. unfold fmod360. rewrite minus_IZR. lra. }
  assert (0 <= fmod360 x -> r = fmod360 x) as POS.
  { intros P. assert (-1 < IZR j < 1) as [J1 J2] by lra. apply (lt_IZR (-1)) in J1. apply (lt_IZR j 1) in J2.
    assert (j = 0%Z) as -> by lia. lra. }
  assert (fmod360 x < 0 -> r = fmod360 x + 360) as NEG.
  { intros P. assert (0 < IZR j < 2) as [J1 J2] by lra. apply (lt_IZR 0) in J1. apply (lt_IZR j 2) in J2.
    assert (j = 1%Z) as -> by lia. lra. }
  unfold np_mod360. destruct (Reqb_spec (fmod360 x) 0) as [Z|NZ].
  - rewrite POS by lra. rewrite Z. rewrite rnd_exact; auto. apply format_0.
  - destruct (Rltb_spec (fmod360 x) 0) as [N|N].
    + rewrite NEG by auto. reflexivity.
    + rewrite POS by lra. rewrite rnd_exact; auto. now apply fmod_exact.
Qed.

Lemma exact_mod_self : forall a, 0 <= a < 360 -> exact_mod a a.
Proof. intros. split; auto. exists 0%Z. lra. Qed.

(** A binary64 number of magnitude 256 or more is a multiple of 2^-44. *)
Lemma big_multiple : forall x, binary64 x -> 256 <= Rabs x -> exists m, x = IZR m * bpow radix2 (-44).
Proof.
  intros x FX B. pose proof FX as EX. unfold binary64, generic_format, F2R in EX. cbn [Fnum Fexp] in EX.
  assert (-44 <= cexp radix2 fexp x)%Z as LE.
  { unfold cexp, fexp, FLT_exp. assert (9 <= mag radix2 x)%Z; [|lia]. apply mag_ge_bpow. change (bpow radix2 (9 - 1)) with 256. lra. }
  revert EX LE. generalize (cexp radix2 fexp x) (Ztrunc (scaled_mantissa radix2 fexp x)). intros e m EX LE.
  exists (m * 2 ^ (e + 44))%Z. rewrite mult_IZR. change 2%Z with (radix_val radix2). rewrite IZR_Zpower by lia.
  rewrite Rmult_assoc, <- bpow_plus. replace (e + 44 + -44)%Z with e by lia. auto.
Qed.

Lemma p44 : bpow radix2 44 * bpow radix2 (-44) = 1.
Proof. rewrite <- bpow_plus. reflexivity. Qed.

Lemma big_mod_exact : forall x r, binary64 x -> 256 <= Rabs x -> exact_mod x r -> np_mod360 x = r.
Proof.
  intros x r FX B M. rewrite (np_mod_rnd x r) by auto. apply rnd_exact. destruct M as [RR [k EK]].
  destruct (big_multiple x FX B) as [m Em].
  assert (r = IZR (m - 360 * 2 ^ 44 * k) * bpow radix2 (-44)) as Er.
  { rewrite minus_IZR, !mult_IZR. change (2 ^ 44)%Z with (radix2 ^ 44)%Z. rewrite IZR_Zpower by lia.
    rewrite Rmult_minus_distr_r, <- Em. replace (IZR 360 * bpow radix2 44 * IZR k * bpow radix2 (-44)) with (360 * IZR k * (bpow radix2 44 * bpow radix2 (-44))) by ring.
    rewrite p44. lra. }
  rewrite Er. apply multiple_format; [lia|]. apply Z.abs_lt. 
  assert (0 < bpow radix2 (-44)) as P by apply bpow_gt_0.
  assert (0 <= IZR (m - 360 * 2 ^ 44 * k)) as P1.
  { rewrite Er in RR. apply Rmult_le_reg_r with (bpow radix2 (-44)); auto. lra. }
  assert (IZR (m - 360 * 2 ^ 44 * k) < IZR (360 * 2 ^ 44)) as P2.
  { apply Rmult_lt_reg_r with (bpow radix2 (-44)); auto. rewrite <- Er. rewrite mult_IZR. change (2 ^ 44)%Z with (radix2 ^ 44)%Z.
    rewrite IZR_Zpower by lia. rewrite Rmult_assoc, p44. lra. }
  apply le_IZR in P1. apply lt_IZR in P2. lia.
Qed.

Lemma minus_mirror : forall a, binary64 a -> 0 < a < 360 -> np_mod360 (rnd (a - 360)) = a -> mirror (mirror a) = a.
Proof.
  intros a F B E. replace (a - 360) with (- (360 - a)) in E by lra.
  assert (rnd (- (360 - a)) = - rnd (360 - a)) as EO by (unfold rnd; rewrite round_NE_opp; reflexivity).
  rewrite EO in E. fold (f_sub 360 a) in E. assert (0 <= f_sub 360 a <= 360) as [L U] by (apply sub_range; lra).
  destruct (Req_dec (f_sub 360 a) 360) as [Q|N].
  - rewrite Q in E. assert (exact_mod (Ropp 360) 0) as M by (split; [lra|exists (-1)%Z; lra]).
    rewrite (np_mod_rnd (Ropp 360) 0) in E; auto.
    + rewrite rnd_exact in E by apply format_0. lra.
    + apply generic_format_opp. apply format_360.
  - destruct (Req_dec (f_sub 360 a) 0) as [Z|NZ].
    + rewrite Z, Ropp_0 in E. assert (np_mod360 0 = 0) by (apply mod_small; lra). lra.
    + assert (exact_mod (- f_sub 360 a) (360 - f_sub 360 a)) as M by (split; [lra|exists (-1)%Z; lra]).
      rewrite (np_mod_rnd _ (360 - f_sub 360 a)) in E; auto.
      2:{ apply generic_format_opp. apply rnd_format. }
      unfold mirror at 2. rewrite (mod_small (f_sub 360 a)) by lra. unfold mirror. fold (f_sub 360 (f_sub 360 a)) in E.
      rewrite E. apply mod_small. lra.
Qed.

(** C153.  An angle shifted by full turns is reduced to the same number exactly if the shifted angle needs no
    rounding. *)
Theorem float_turns : forall a k, binary64 a -> 0 <= a < 360 -> (Z.abs k <= 2 ^ 40)%Z ->
  (np_mod360 (rnd (a + 360 * IZR k)) = a <-> binary64 (a + 360 * IZR k)).
Proof.
  intros a k F B K. split.
  2:{ intros FS. rewrite rnd_exact by auto. rewrite (np_mod_rnd _ a); auto; [apply rnd_exact; auto|]. split; eauto. }
  intros E. destruct (Z.eq_dec k 0) as [->|K0]; [replace (a + 360 * 0) with a by lra; auto|].
  destruct (Z.eq_dec k (-1)) as [->|K1].
  - replace (a + 360 * -1) with (a - 360) in * by lra. replace (a - 360) with (- (360 - a)) by lra. apply generic_format_opp.
    change (generic_format radix2 fexp (360 - a)) with (binary64 (360 - a)).
    destruct (Req_dec a 0) as [->|N]; [replace (360 - 0) with 360 by lra; apply format_360|].
    apply float_mirror_twice; auto. apply minus_mirror; auto. lra.
  - set (y := a + 360 * IZR k) in *. set (x := rnd y) in *.
    assert (256 <= Rabs x) as BX.
    { destruct (Z_lt_le_dec 0 k) as [P|P].
      - assert (1 <= IZR k) by (apply (IZR_le 1); lia). assert (256 <= x); [|rewrite Rabs_pos_eq; lra].
        apply rnd_ge; [apply (format_int 256); lia|unfold y; lra].
      - assert (IZR k <= -2) by (apply (IZR_le k (-2)); lia). assert (x <= -256); [|rewrite Rabs_left1; lra].
        apply rnd_le; [apply (format_int (-256)); lia|unfold y; lra]. }
    assert (binary64 x) as FX by apply rnd_format.
    destruct (exact_mod_unique x) as [r [M _]]. rewrite (big_mod_exact x r) in E by auto. subst r.
    destruct M as [_ [j Ej]].
    assert (Rabs (x - y) < 180) as ER.
    { eapply Rle_lt_trans; [apply rnd_err|].
      assert (Rabs y <= IZR (361 * 2 ^ 40)) as BY.
      { assert (- IZR (2 ^ 40) <= IZR k <= IZR (2 ^ 40)) as [K2 K3] by (rewrite <- opp_IZR; split; apply IZR_le; lia).
        rewrite mult_IZR. change (2 ^ 40)%Z with 1099511627776%Z in *. unfold y. apply Rabs_le. lra. }
      assert (tiny < 1) as T1 by (unfold tiny; change 1 with (bpow radix2 0); apply bpow_lt; lia).
      assert (unit_roundoff * Rabs y <= unit_roundoff * IZR (361 * 2 ^ 40)) as LE.
      { apply Rmult_le_compat_l; auto. unfold unit_roundoff. left. apply Rinv_0_lt_compat. apply IZR_lt. reflexivity. }
      unfold unit_roundoff in LE at 2. change (2 ^ 53)%Z with 9007199254740992%Z in LE at 1. change (361 * 2 ^ 40)%Z with 396923697627136%Z in LE.
      lra. }
    assert (j = k) as ->.
    { unfold y in ER. rewrite Ej in ER. replace (a + 360 * IZR j - (a + 360 * IZR k)) with (360 * IZR (j - k)) in ER by (rewrite minus_IZR; ring).
      apply Rabs_def2 in ER. assert (-1 < IZR (j - k) < 1) as [J1 J2] by lra. apply (lt_IZR (-1)) in J1. apply (lt_IZR _ 1) in J2. lia. }
    unfold y. rewrite <- Ej. auto.
Qed.
Print Assumptions float_turns.

(** C153.  In particular for angles that are whole multiples of 2^-j degrees, as long as the shifted angle stays
    below 2^(53-j). *)
Theorem float_turns_grid : forall m j k, (0 <= j <= 44)%Z -> (Z.abs (m + 360 * 2 ^ j * k) < 2 ^ 53)%Z -> (Z.abs k <= 2 ^ 40)%Z ->
  let a := IZR m * bpow radix2 (- j) in 0 <= a < 360 -> np_mod360 (rnd (a + 360 * IZR k)) = a.
Proof.
  intros m j k J M K a B.
  assert (bpow radix2 j * bpow radix2 (- j) = 1) as PJ by (rewrite <- bpow_plus; replace (j + - j)%Z with 0%Z by lia; reflexivity).
  assert (a + 360 * IZR k = IZR (m + 360 * 2 ^ j * k) * bpow radix2 (- j)) as E.
  { unfold a. rewrite plus_IZR, !mult_IZR. change 2%Z with (radix_val radix2). rewrite IZR_Zpower by lia.
    replace ((IZR m + IZR 360 * bpow radix2 j * IZR k) * bpow radix2 (- j)) with (IZR m * bpow radix2 (- j) + 360 * IZR k * (bpow radix2 j * bpow radix2 (- j))) by ring.
    rewrite PJ. lra. }
  apply float_turns; auto.
  - apply multiple_format; [lia|]. assert (0 < bpow radix2 (- j)) as P by apply bpow_gt_0.
    assert (0 <= IZR m) as M1 by (unfold a in B; apply Rmult_le_reg_r with (bpow radix2 (- j)); auto; lra).
    assert (IZR m < IZR (360 * 2 ^ j)) as M2.
    { apply Rmult_lt_reg_r with (bpow radix2 (- j)); auto. rewrite mult_IZR. change 2%Z with (radix_val radix2). rewrite IZR_Zpower by lia.
      rewrite Rmult_assoc, PJ. unfold a in B. lra. }
    apply le_IZR in M1. apply lt_IZR in M2. assert (2 ^ j <= 2 ^ 44)%Z by (apply Z.pow_le_mono_r; lia). lia.
  - rewrite E. apply multiple_format; auto. lia.
Qed.
Print Assumptions float_turns_grid.

(** ** Item access *)

Lemma f_getitem_entry : forall t s x v, no_duplicates t -> 0 <= s -> entry t s (np_mod360 x) v -> f_getitem t [s] [x] = Ok v.
Proof.
  intros t s x v [N1 N2] P [i [j L]]. unfold f_getitem. pose proof L as L0. destruct L as [H1 [H2 [r [H3 H4]]]].
  rewrite (get_indices_one normalize_ws (t_ws t) s s j); auto.
  - cbn [rbind]. rewrite (get_indices_one f_normalize_wa (t_wa t) x (np_mod360 x) i); auto.
    cbn [rbind]. f_equal. eapply cell_listed; eauto.
  - unfold normalize_ws. simpl. rnum. rewrite Rltb_false by lra. reflexivity.
Qed.

Lemma f_getitem_missing : forall t s x, (s < 0 \/ ~ In s (t_ws t) \/ ~ In (np_mod360 x) (t_wa t)) ->
  f_getitem t [s] [x] = Raise ValueError.
Proof.
  intros t s x H. unfold f_getitem. destruct (Rlt_dec s 0) as [L|L].
  { unfold get_indices at 1. unfold normalize_ws. simpl. rnum. rewrite Rltb_true by auto. reflexivity. }
  assert (normalize_ws [s] = Ok [s]) as E.
  { unfold normalize_ws. simpl. rnum. rewrite Rltb_false by lra. reflexivity. }
  destruct (in_dec Req_EM_T s (t_ws t)) as [I|N].
  - destruct (get_indices_total normalize_ws (t_ws t) s s E I) as [l ->]. cbn [rbind].
    rewrite (get_indices_none f_normalize_wa (t_wa t) x (np_mod360 x)); auto.
    destruct H as [H|[H|H]]; auto; try contradiction; lra.
  - rewrite (get_indices_none normalize_ws (t_ws t) s s E N). reflexivity.
Qed.

Lemma f_table_new_ok : forall ws wa bs, wa <> [] -> ws <> [] ->
  (forall s, In s ws -> 0 <= s) -> shaped (length wa) (length ws) bs ->
  exists t, f_table_new ws wa bs = Ok t /\ Permutation ws (t_ws t) /\ Permutation (map np_mod360 wa) (t_wa t) /\
    forall s a v, entry t s a v <-> exists i j, listed ws (map np_mod360 wa) bs i j s a v.
Proof.
  intros ws wa bs NA NS P SH.
  destruct (sort_table_ok ws (map np_mod360 wa) bs) as [ws1 [wa1 [bs1 [E [P1 [P2 [S1 [S2 [SH' EN]]]]]]]]]; auto.
  { destruct wa; simpl; congruence. } { rewrite map_length. auto. }
  exists (mkTable ws1 wa1 bs1 false). unfold f_table_new. rewrite (build_ws_iter ws NS P). cbn [rbind].
  destruct wa as [|a0 wa0] eqn:EW; [contradiction|]. rewrite <- EW in *.
  rewrite (proj2 (has_shape_iff bs _ _)) by (rewrite map_length; auto). rewrite E. cbn [rbind]. auto.
Qed.

(** C153.  Every entry is found under the angle under which it was entered, whatever the rounding, and under every
    number that is reduced to the same angle; other winds are refused. *)
Theorem float_entered_found : forall ws wa bs,
  ws <> [] -> wa <> [] -> (forall s, In s ws -> 0 <= s) -> NoDup ws -> NoDup (map np_mod360 wa) ->
  shaped (length wa) (length ws) bs ->
  exists t, f_table_new ws wa bs = Ok t /\
    (forall i j s a v, listed ws wa bs i j s a v ->
       f_getitem t [s] [a] = Ok v /\ forall x, np_mod360 x = np_mod360 a -> f_getitem t [s] [x] = Ok v) /\
    (forall s x, (~ In s ws \/ forall a, In a wa -> np_mod360 x <> np_mod360 a) -> f_getitem t [s] [x] = Raise ValueError).
Proof.
  intros ws wa bs NS NA P N D SH. destruct (f_table_new_ok ws wa bs NA NS P SH) as [t [E [P1 [P2 EN]]]].
  exists t. split; auto.
  assert (no_duplicates t) as ND by (split; eapply Permutation_NoDup; eauto). split.
  - intros i j s a v L.
    assert (forall x, np_mod360 x = np_mod360 a -> f_getitem t [s] [x] = Ok v) as G; [|split; auto].
    intros x Ex. pose proof L as L0. destruct L0 as [H1 [H2 H3]].
    apply f_getitem_entry; auto; [apply P; eapply nth_error_In; eauto|].
    rewrite Ex. apply EN. exists i, j. split; auto. split; auto. rewrite nth_error_map, H2. auto.
  - intros s x [H|H]; apply f_getitem_missing; right; [left|right]; intros I.
    + apply H. eapply Permutation_in; [apply Permutation_sym; exact P1|auto].
    + apply Permutation_in with (l' := map np_mod360 wa) in I; [|apply Permutation_sym; auto].
      apply in_map_iff in I. destruct I as [b [Eb Ib]]. apply (H b Ib). auto.
Qed.
Print Assumptions float_entered_found.

(** C153.  Entries under an angle of the range are found under this angle shifted by full turns, if the shift needs
    no rounding. *)
Theorem float_item_turns_partial : forall ws wa bs t i j s a v k,
  ws <> [] -> wa <> [] -> (forall s, In s ws -> 0 <= s) -> NoDup ws -> NoDup (map np_mod360 wa) ->
  shaped (length wa) (length ws) bs -> f_table_new ws wa bs = Ok t -> listed ws wa bs i j s a v ->
  binary64 a -> 0 <= a < 360 -> (Z.abs k <= 2 ^ 40)%Z -> binary64 (a + 360 * IZR k) ->
  f_getitem t [s] [f_add a (360 * IZR k)] = Ok v.
Proof.
  intros ws wa bs t i j s a v k NS NA P N D SH ET L F B K FS.
  destruct (float_entered_found ws wa bs NS NA P N D SH) as [t' [E' [G _]]].
  assert (t' = t) as -> by congruence. apply (G i j s a v L). unfold f_add. rewrite (proj2 (float_turns a k F B K) FS).
  symmetry. apply mod_small. auto.
Qed.
Print Assumptions float_item_turns_partial.

(** ** Counterexamples *)

Definition one_angle (a : R) : result (table R) := f_table_new [10] [a] [[2]].
Lemma one_angle_table : forall a, one_angle a = Ok (mkTable [10] [np_mod360 a] [[2]] false).
Proof.
  intros a. unfold one_angle, f_table_new. rewrite (build_ws_iter [10]); [reflexivity|discriminate|]. intros s [<-|[]]. lra.
Qed.
Lemma one_angle_item : forall x y, x = np_mod360 y -> f_getitem (mkTable [10] [x] [[2]] false) [10] [y] = Ok 2.
Proof.
  intros x y ->. apply f_getitem_entry.
  - split; repeat constructor; simpl; auto.
  - lra.
  - exists 0%nat, 0%nat. split; [reflexivity|]. split; [reflexivity|]. exists [2]. auto.
Qed.
Lemma one_angle_no_item : forall x y, x <> np_mod360 y -> f_getitem (mkTable [10] [x] [[2]] false) [10] [y] = Raise ValueError.
Proof. intros x y N. apply f_getitem_missing. right. right. simpl. intros [E|[]]; auto. Qed.

(** C153 is false for other angles: an entry at 0.1 degrees is not found at 360.1 degrees. *)
Theorem float_item_turns_refuted : exists t, one_angle tenth = Ok t /\
  f_getitem t [10] [tenth] = Ok 2 /\ f_getitem t [10] [rnd (3601 / 10)] = Raise ValueError.
Proof.
  exists (mkTable [10] [np_mod360 tenth] [[2]] false). split; [apply one_angle_table|]. split; [now apply one_angle_item|].
  apply one_angle_no_item. assert (0 <= tenth < 360) as B by (unfold tenth; small_bpow; lra). rewrite (mod_small tenth) by auto.
  assert (rnd (3601 / 10) = IZR 6334946194594202 * bpow radix2 (-44)) as E.
  { apply rnd_to; [lia|small_bpow; lra|apply Rabs_def1; small_bpow; lra]. }
  rewrite E. rewrite (big_mod_exact _ (IZR 6334946194594202 * bpow radix2 (-44) - 360)).
  - unfold tenth. small_bpow. lra.
  - apply multiple_format; lia.
  - rewrite Rabs_pos_eq; small_bpow; lra.
  - split; [small_bpow; lra|]. exists 1%Z. lra.
Qed.
Print Assumptions float_item_turns_refuted.

(** C153.  A listed angle below 360 is found under itself ... *)
Theorem float_listed_found : forall t s a v, no_duplicates t -> 0 <= s -> entry t s a v -> 0 <= a < 360 -> f_getitem t [s] [a] = Ok v.
Proof. intros. apply f_getitem_entry; auto. rewrite mod_small; auto. Qed.
Print Assumptions float_listed_found.

(** ... but a tiny negative angle is listed as 360, and there is no entry at 360. *)
Theorem float_listed_found_refuted : exists a t, binary64 a /\ one_angle a = Ok t /\ t_wa t = [360] /\
  f_getitem t [10] [a] = Ok 2 /\ f_getitem t [10] [360] = Raise ValueError.
Proof.
  destruct mod_half_open_refuted as [x [F [L [E _]]]]. exists x, (mkTable [10] [np_mod360 x] [[2]] false).
  split; auto. split; [apply one_angle_table|]. split; [simpl; congruence|]. split; [now apply one_angle_item|].
  apply one_angle_no_item. rewrite E, mod_360. lra.
Qed.
Print Assumptions float_listed_found_refuted.

(** The hypotheses are met. *)
Example float_turns_meet : np_mod360 (rnd (90 + 360 * IZR (-3))) = 90 /\ binary64 90 /\ binary64 (90 + 360 * IZR (-3)).
Proof.
  assert (binary64 90) as F by (apply (format_int 90); lia).
  assert (binary64 (90 + 360 * IZR (-3))) as G.
  { replace (90 + 360 * IZR (-3)) with (IZR (-990)) by lra. apply format_int. lia. }
  split; auto. apply float_turns; auto; [lra|lia].
Qed.
Example float_entered_meets : NoDup (map np_mod360 [90; -90]) /\ shaped 2 1 [[5]; [4]].
Proof.
  assert (np_mod360 (-90) = 270) as E by apply mod_example. cbn [map]. rewrite E, mod_small by lra. split.
  - repeat constructor; simpl; intuition lra.
  - split; auto. intros r [<-|[<-|[]]]; reflexivity.
Qed.
