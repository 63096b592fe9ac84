(** * The quantile filter in binary64: properties

    [np.percentile] computes the rank and the interpolation in binary64, every operation rounds to
    nearest even (overflow is left out).  Weights that are compared with the result are exact. *)

From Coq Require Import List Bool Arith ZArith Reals Lra Lia Permutation Sorted.
From Flocq Require Import Core Relative.
From Verif Require Import Py Num PySort ListX FilterModel FilterProps FloatMod FloatUnit FloatSteps FloatAverage FloatSmooth.
Import ListNotations.
Open Scope R_scope.

(** The virtual index [(n - 1) * (percent / 100)] of [np.percentile] for [n] weights. *)
Definition f_rank (percent : R) (n : nat) : R := f_mul (rnd (percent / 100)) (rnd (INR (n - 1))).

(** [numpy]'s linear interpolation: from the lower entry below the middle, else from the upper one. *)
Definition f_lerp (a b t : R) : R :=
  if Rleb (/ 2) t then f_sub b (f_mul (f_sub b a) (f_sub 1 t)) else f_add a (f_mul (f_sub b a) t).

(** [np.percentile(wts, percent)] of processing/filter.py 103 for at least one weight.  (For the
    last index numpy interpolates between the last entry and itself with another [t], which
    gives the last entry too.) *)
Definition f_percentile (wts : list R) (percent : R) : R :=
  let s := py_sorted Rleb wts in
  let n := length wts in
  let h := f_rank percent n in
  let lo := Z.to_nat (Int_part h) in
  f_lerp (nth lo s 0) (nth (Nat.min (S lo) (n - 1)) s 0) (f_sub h (INR lo)).

(** [QuantileFilter.filter].  processing/filter.py 86-103. *)
Definition f_quantile_filter (percent : R) (wts : weights R) : list bool :=
  match wlist wts with
  | [] => []
  | l => let q := f_percentile l percent in map (fun w => Rleb q w) l
  end.

(** ** Proofs *)

Lemma format_half : binary64 (/ 2).
Proof. replace (/ 2) with (bpow radix2 (-1)) by (simpl; lra). apply power_format. lia. Qed.

(** Binary64 numbers are multiples of the smallest positive one. *)
Lemma format_multiple : forall x, binary64 x -> exists k, x = IZR k * (2 * tiny).
Proof.
  intros x F. unfold binary64 in F. unfold generic_format in F.
  assert (2 * tiny = bpow radix2 (-1074)) as T by (rewrite <- tiny_half; lra).
  set (m := Ztrunc (scaled_mantissa radix2 fexp x)) in *. set (e := cexp radix2 fexp x) in *.
  assert (-1074 <= e)%Z as E by (unfold e, cexp, fexp, FLT_exp; lia).
  exists (m * 2 ^ (e + 1074))%Z. rewrite F at 1. unfold F2R. simpl Fnum. simpl Fexp.
  rewrite mult_IZR, T, Rmult_assoc. f_equal.
  replace (IZR (2 ^ (e + 1074))) with (bpow radix2 (e + 1074)).
  - rewrite <- bpow_plus. f_equal. lia.
  - rewrite <- IZR_Zpower by lia. reflexivity.
Qed.

(** A rounded part of at most one half of a rounded distance is no more than the distance. *)
Lemma f_part : forall a b s, binary64 a -> binary64 b -> a <= b -> 0 <= s <= / 2 ->
  0 <= rnd (rnd (b - a) * s) <= b - a.
Proof.
  intros a b s FA FB L S. set (x := rnd (b - a)).
  assert (0 <= x) as X0 by (apply rnd_nonneg; lra).
  assert (binary64 x) as FX by apply rnd_format.
  split; [apply rnd_nonneg; nra|].
  destruct (Rle_lt_dec x (b - a)) as [XL|XG].
  - eapply Rle_trans; [|apply XL]. apply rnd_le; auto. nra.
  - pose proof (sum_err b (- a) FB (generic_format_opp _ _ _ FA)) as E.
    replace (b + - a) with (b - a) in E by ring. fold x in E. rewrite (Rabs_pos_eq (x - (b - a))), (Rabs_pos_eq (b - a)) in E by lra.
    pose proof u_bounds as [U0 _]. pose proof u_small as U1. pose proof tiny_pos as T0. set (u := unit_roundoff) in *.
    destruct (format_multiple _ FX) as [kx KX]. destruct (format_multiple _ FB) as [kb KB]. destruct (format_multiple _ FA) as [ka KA].
    assert (2 * tiny <= x - (b - a)) as G.
    { rewrite KX, KB, KA in XG |- *.
      replace (IZR kx * (2 * tiny) - (IZR kb * (2 * tiny) - IZR ka * (2 * tiny))) with (IZR (kx - kb + ka) * (2 * tiny))
        by (rewrite plus_IZR, minus_IZR; ring).
      assert (1 <= kx - kb + ka)%Z as K.
      { assert (0 < kx - kb + ka)%Z as K; [|lia]. apply lt_IZR. rewrite plus_IZR, minus_IZR. nra. }
      apply IZR_le in K. nra. }
    assert (2 * tiny <= / 16 * (b - a)) as D by nra.
    assert (rnd (x * s) <= x * s * (1 + u) + tiny) as R1.
    { pose proof (rnd_error (x * s)) as R0. unfold u. apply R0. nra. }
    assert (x <= (b - a) * (1 + / 16)) as X1 by nra.
    assert (x * s <= (b - a) * (1 + / 16) * / 2) as X2 by nra.
    assert (0 <= x * s) by nra. nra.
Qed.

(** The interpolated value lies between the two entries. *)
Lemma f_lerp_range : forall a b t, binary64 a -> binary64 b -> a <= b -> 0 <= t <= 1 -> a <= f_lerp a b t <= b.
Proof.
  intros a b t FA FB L T. unfold f_lerp, f_add, f_sub, f_mul. destruct (Rleb_spec (/ 2) t) as [H|H].
  - assert (0 <= rnd (1 - t) <= / 2) as S.
    { split; [apply rnd_nonneg; lra|]. apply rnd_le; [apply format_half|lra]. }
    pose proof (f_part a b _ FA FB L S). split; [apply rnd_ge|apply rnd_le]; auto; lra.
  - assert (0 <= t <= / 2) as S by lra. pose proof (f_part a b _ FA FB L S). split; [apply rnd_ge|apply rnd_le]; auto; lra.
Qed.

Lemma f_lerp_0 : forall a b, binary64 a -> f_lerp a b 0 = a.
Proof.
  intros a b F. unfold f_lerp. rewrite Rleb_false by lra. unfold f_add, f_mul. rewrite Rmult_0_r, (rnd_exact 0) by apply format_0.
  rewrite Rplus_0_r. apply rnd_exact; auto.
Qed.

Lemma INR_format : forall n, (Z.of_nat n < 2 ^ 53)%Z -> binary64 (INR n).
Proof. intros n H. rewrite INR_IZR_INZ. apply format_int. lia. Qed.

(** The rank lies between the first and the last position. *)
Lemma f_rank_range : forall percent n, 0 <= percent <= 100 -> (Z.of_nat n < 2 ^ 53)%Z -> 0 <= f_rank percent n <= INR (n - 1).
Proof.
  intros percent n P N. unfold f_rank, f_mul. rewrite (rnd_exact (INR (n - 1))) by (apply INR_format; lia).
  destruct (rnd_unit (percent / 100)) as [_ U]; [lra|]. pose proof (pos_INR (n - 1)).
  split; [apply rnd_nonneg; nra|]. apply rnd_le; [apply INR_format; lia|nra].
Qed.

Lemma f_percentile_between : forall (l : list R) percent, l <> [] -> 0 <= percent <= 100 -> (Z.of_nat (length l) < 2 ^ 53)%Z ->
  Forall binary64 l ->
  let s := py_sorted Rleb l in let q := f_percentile l percent in let h := f_rank percent (length l) in
  exists lo, (lo < length l)%nat /\ INR lo <= h < INR lo + 1 /\ nth lo s 0 <= q /\
    (INR lo = h -> q = nth lo s 0) /\
    ((S lo < length l)%nat -> q <= nth (S lo) s 0) /\
    ((S lo = length l)%nat -> INR lo = h).
Proof.
  intros l percent NE P N F s q h.
  assert (1 <= length l)%nat as L by (destruct l; simpl; [contradiction|lia]).
  assert (length s = length l) as LS by apply py_sorted_length.
  destruct (f_rank_range percent (length l) P N) as [H0 H1]. fold h in H0, H1.
  exists (Z.to_nat (Int_part h)). destruct (Int_part_bounds h H0) as [B1 B2].
  set (lo := Z.to_nat (Int_part h)) in *.
  assert (lo < length l)%nat as LO.
  { assert (INR lo <= INR (length l - 1)) as B by lra. apply INR_le in B. lia. }
  assert (q = f_lerp (nth lo s 0) (nth (Nat.min (S lo) (length l - 1)) s 0) (f_sub h (INR lo))) as Eq by reflexivity.
  assert (forall i, (i < length l)%nat -> binary64 (nth i s 0)) as FS.
  { intros i I. rewrite Forall_forall in F. apply F. apply (py_sorted_In Rleb). apply nth_In. fold s. lia. }
  assert (nth lo s 0 <= nth (Nat.min (S lo) (length l - 1)) s 0) as M.
  { apply sorted_le; [apply (Rsorted l)|lia|lia]. }
  assert (0 <= f_sub h (INR lo) <= 1) as T by (destruct (rnd_unit (h - INR lo)) as [_ U]; [lra|exact U]).
  pose proof (f_lerp_range _ _ _ (FS lo LO) (FS (Nat.min (S lo) (length l - 1)) ltac:(lia)) M T) as RG. rewrite <- Eq in RG.
  split; auto. split; [lra|]. split; [apply RG|]. split.
  - intros E. rewrite Eq, E. unfold f_sub. replace (h - h) with 0 by ring. rewrite (rnd_exact 0) by apply format_0. apply f_lerp_0. auto.
  - split.
    + intros L2. rewrite Nat.min_l in RG by lia. apply RG.
    + intros L2. replace (length l - 1)%nat with lo in H1 by lia. lra.
Qed.

Lemma f_quantile_map : forall percent (w : weights R), wlist w <> [] ->
  f_quantile_filter percent w = map (fun x => Rleb (f_percentile (wlist w) percent) x) (wlist w).
Proof. intros percent w H. unfold f_quantile_filter. destruct (wlist w); [contradiction|reflexivity]. Qed.

Lemma f_removed_sorted : forall percent (w : weights R), wlist w <> [] ->
  removed (f_quantile_filter percent w) =
  length (filter (fun x => negb (Rleb (f_percentile (wlist w) percent) x)) (py_sorted Rleb (wlist w))).
Proof.
  intros percent w NE. rewrite f_quantile_map by auto. unfold removed.
  generalize (f_percentile (wlist w) percent). intros q.
  assert (forall l l' : list R, Permutation l l' ->
    length (filter (fun x => negb (Rleb q x)) l) = length (filter (fun x => negb (Rleb q x)) l')) as PL.
  { induction 1; simpl; auto; repeat (destruct (negb _); simpl); auto; lia. }
  rewrite (PL _ _ (py_sorted_perm Rleb (wlist w))).
  clear NE. induction (wlist w) as [|x r IH]; simpl; auto. destruct (negb (Rleb q x)); simpl; rewrite ?IH; auto.
Qed.

Lemma below_count : forall (s : list R) q m, (forall i, (m <= i < length s)%nat -> q <= nth i s 0) ->
  (length (filter (fun x => negb (Rleb q x)) s) <= m)%nat.
Proof.
  intros s q m H. rewrite <- (firstn_skipn m s), filter_app, app_length.
  rewrite (filter_nil _ _ (skipn m s)).
  - assert (forall (p : R -> bool) l, (length (filter p l) <= length l)%nat) as FL.
    { induction l; simpl; auto. destruct (p a); simpl; lia. }
    eapply Nat.le_trans; [apply Nat.add_le_mono_r, FL|]. rewrite firstn_length. simpl. lia.
  - intros x Hx. apply In_nth_error in Hx. destruct Hx as [i Hi]. rewrite nth_error_skipn in Hi.
    assert (m + i < length s)%nat as J by (apply nth_error_Some; congruence).
    rewrite Rleb_true; auto. apply nth_error_nth with (d := 0) in Hi. rewrite <- Hi. apply H. lia.
Qed.

Lemma above_count : forall (s : list R) q m, (m <= length s)%nat -> (forall i, (i < m)%nat -> nth i s 0 < q) ->
  (m <= length (filter (fun x => negb (Rleb q x)) s))%nat.
Proof.
  intros s q m L H. rewrite <- (firstn_skipn m s), filter_app, app_length.
  assert (filter (fun x => negb (Rleb q x)) (firstn m s) = firstn m s) as ->.
  { apply filter_all. intros x Hx. apply In_nth with (d := 0) in Hx. destruct Hx as [i [Hi Ei]].
    rewrite firstn_length in Hi. rewrite Rleb_false; auto. rewrite <- Ei.
    assert (nth i (firstn m s) 0 = nth i s 0) as ->; [|apply H; lia].
    rewrite <- (firstn_skipn m s) at 2. rewrite app_nth1; auto. rewrite firstn_length. lia. }
  rewrite firstn_length. lia.
Qed.

(** ** C149 *)

(** Every point gets an answer, at least one point is kept, and a point that is at least as heavy
    as a kept one is kept. *)
Theorem float_quantile_keeps : forall percent (w : weights R), 0 <= percent <= 100 ->
  Forall binary64 (wlist w) -> (Z.of_nat (length (wlist w)) < 2 ^ 53)%Z ->
  let l := wlist w in let f := f_quantile_filter percent w in
  length f = length l /\ (l <> [] -> In true f) /\
  forall i j x y, nth_error l i = Some x -> nth_error l j = Some y -> nth_error f i = Some true -> x <= y ->
    nth_error f j = Some true.
Proof.
  intros percent w P F N l f. unfold l, f in *.
  assert (wlist w = [] \/ wlist w <> []) as [E|NE] by (destruct (wlist w); [left; auto|right; discriminate]).
  - unfold f_quantile_filter. rewrite E. split; auto. split; [contradiction|]. intros [|i] j x y H; discriminate.
  - rewrite f_quantile_map by auto. split; [apply map_length|]. split.
    + intros _. destruct (f_percentile_between (wlist w) percent NE P N F) as [lo [L [B [A1 [A2 [A3 A4]]]]]].
      assert (forall i, (i < length (wlist w))%nat -> In (nth i (py_sorted Rleb (wlist w)) 0) (wlist w)) as I.
      { intros i Hi. apply (py_sorted_In Rleb). apply nth_In. rewrite py_sorted_length. auto. }
      apply in_map_iff. destruct (Nat.eq_dec (S lo) (length (wlist w))) as [E|NN].
      * exists (nth lo (py_sorted Rleb (wlist w)) 0). split; auto. apply Rleb_true. rewrite A2 by auto. lra.
      * exists (nth (S lo) (py_sorted Rleb (wlist w)) 0). split; [|apply I; lia]. apply Rleb_true. apply A3. lia.
    + intros i j x y Hx Hy. rewrite !nth_error_map, Hx, Hy. simpl. intros E L. injection E as E.
      apply Rleb_le in E. rewrite Rleb_true by lra. auto.
Qed.
Print Assumptions float_quantile_keeps.

(** The computed rank is close to [percent] per cent of [n - 1]. *)
Lemma f_rank_error : forall percent n, 0 <= percent <= 100 -> (Z.of_nat n < 2 ^ 53)%Z -> (1 <= n)%nat ->
  Rabs (f_rank percent n - percent / 100 * INR (n - 1)) <= 4 * unit_roundoff * INR n.
Proof.
  intros percent n P N N1. unfold f_rank, f_mul. rewrite (rnd_exact (INR (n - 1))) by (apply INR_format; lia).
  pose proof u_bounds as [U0 _]. pose proof u_small as U1. pose proof tiny_pos as T0.
  assert (tiny <= unit_roundoff * / 16) as TU.
  { apply Rle_trans with (bpow radix2 (-57)).
    - rewrite <- tiny_half. replace (/ 2) with (bpow radix2 (-1)) by (simpl; lra). rewrite <- bpow_plus. apply bpow_le. lia.
    - rewrite u_bpow. replace (/ 2) with (bpow radix2 (-1)) by (simpl; lra). replace (/ 16) with (bpow radix2 (-4)) by (simpl; lra).
      rewrite <- !bpow_plus. apply Req_le. f_equal. }
  set (c := percent / 100) in *. assert (0 <= c <= 1) as C by (unfold c; lra).
  pose proof (rnd_error c (proj1 C)) as E1. set (r := rnd c) in *. assert (0 <= r) by (apply rnd_nonneg; lra).
  set (m := INR (n - 1)). assert (0 <= m) as M0 by apply pos_INR. assert (INR n = m + 1) as -> by (unfold m; rewrite <- S_INR; f_equal; lia).
  assert (0 <= r * m) as RM by nra. pose proof (rnd_error (r * m) RM) as E2. set (h := rnd (r * m)) in *. clearbody h r m.
  set (u := unit_roundoff) in *.
  assert (Rabs (r - c) <= u * c + tiny) as D1 by (apply Rabs_le; lra).
  assert (Rabs (h - r * m) <= u * (r * m) + tiny) as D2 by (apply Rabs_le; lra).
  replace (h - c * m) with ((h - r * m) + (r - c) * m) by ring.
  eapply Rle_trans; [apply Rabs_triang|]. rewrite Rabs_mult, (Rabs_pos_eq m) by lra.
  assert (Rabs (r - c) * m <= (u * c + tiny) * m) as D3 by nra.
  assert (r <= 2) as R2 by nra.
  assert (u * (r * m) <= 2 * u * m) by (assert (0 <= u * m) by nra; nra).
  assert (u * c * m <= u * m) by (assert (0 <= u * m) by nra; nra).
  assert (tiny * m <= u * / 16 * m) by nra. nra.
Qed.

(** Fewer points than the computed rank plus one are removed, and not more than the computed rank
    if this is a whole number; among different weights more than the computed rank minus one.
    So the number of removed points exceeds [percent] per cent of [n - 1] by less than one and a
    rounding error of [4 * n] units. *)
Theorem float_quantile_removes_partial : forall percent (w : weights R), 0 <= percent <= 100 ->
  Forall binary64 (wlist w) -> (Z.of_nat (length (wlist w)) < 2 ^ 53)%Z ->
  let n := length (wlist w) in let k := removed (f_quantile_filter percent w) in
  n <> 0%nat ->
  INR k < f_rank percent n + 1 /\
  (forall m : nat, f_rank percent n = INR m -> (k <= m)%nat) /\
  (NoDup (wlist w) -> f_rank percent n - 1 < INR k) /\
  INR k < percent / 100 * INR (n - 1) + 1 + 4 * unit_roundoff * INR n.
Proof.
  intros percent w P F N n k N0.
  assert (wlist w <> []) as NE by (intros E; unfold n in N0; rewrite E in N0; apply N0; auto).
  unfold k. rewrite f_removed_sorted by auto.
  destruct (f_percentile_between (wlist w) percent NE P N F) as [lo [L [B [A1 [A2 [A3 A4]]]]]].
  set (s := py_sorted Rleb (wlist w)) in *. set (q := f_percentile (wlist w) percent) in *.
  assert (length s = n) as LS by apply py_sorted_length. fold n in L, B, A2, A3, A4.
  assert (forall i j, (i <= j)%nat -> (j < n)%nat -> nth i s 0 <= nth j s 0) as MON.
  { intros i j I J. apply sorted_le; [apply (Rsorted (wlist w))|auto|lia]. }
  assert (INR lo = f_rank percent n -> (length (filter (fun x => negb (Rleb q x)) s) <= lo)%nat) as C1.
  { intros E. apply below_count. intros i I. rewrite A2 by auto. apply MON; lia. }
  assert ((length (filter (fun x => negb (Rleb q x)) s) <= S lo)%nat) as C2.
  { apply below_count. intros i I. apply Rle_trans with (nth (S lo) s 0); [apply A3; lia|apply MON; lia]. }
  assert (INR (length (filter (fun x => negb (Rleb q x)) s)) < f_rank percent n + 1) as C3.
  { destruct (Req_dec (INR lo) (f_rank percent n)) as [E|NEQ].
    - specialize (C1 E). apply le_INR in C1. lra.
    - apply le_INR in C2. rewrite S_INR in C2. lra. }
  split; auto. split.
  - intros m E. assert (lo = m) as ->.
    { rewrite E in B. assert (lo < S m)%nat by (apply INR_lt; rewrite S_INR; lra).
      assert (m < S lo)%nat by (apply INR_lt; rewrite S_INR; lra). lia. }
    auto.
  - split.
    + intros ND. apply Rlt_le_trans with (INR lo); [lra|]. apply le_INR. apply above_count; [lia|].
      intros i I. assert (nth i s 0 <= nth lo s 0) as LE by (apply MON; lia).
      assert (nth i s 0 <> nth lo s 0) as NEQ; [|lra].
      intros E. assert (NoDup s) as NS by (eapply Permutation_NoDup; [apply Permutation_sym, py_sorted_perm|auto]).
      apply (NoDup_nth s 0) in E; auto; lia.
    + assert (1 <= n)%nat as N1 by lia. pose proof (f_rank_error percent n P N N1) as E. apply Rabs_le_inv in E. lra.
Qed.
Print Assumptions float_quantile_removes_partial.

Lemma sorted_numbers : forall k m, StronglySorted (fun x y => Rleb x y = true) (map INR (seq k m)).
Proof.
  intros k m. revert k. induction m as [|m IH]; intros k; simpl; constructor; auto.
  rewrite Forall_forall. intros y Hy. apply in_map_iff in Hy. destruct Hy as [j [<- Hj]]. apply in_seq in Hj.
  apply Rleb_true, le_INR. lia.
Qed.

Lemma rank_28 : f_rank 28 26 = 7 + bpow radix2 (-50).
Proof.
  unfold f_rank, f_mul. simpl (26 - 1)%nat. rewrite (rnd_exact (INR 25)) by (apply INR_format; reflexivity).
  rewrite (rnd_to (28 / 100) 5044031582654956 (-54)); [|lia| |]; [|small_bpow; lra|small_bpow; apply Rabs_def1; lra].
  rewrite INR_IZR_INZ. change (Z.of_nat 25) with 25%Z.
  rewrite (rnd_to _ 7881299347898369 (-50)); [|lia| |]; [|small_bpow; lra|small_bpow; apply Rabs_def1; lra].
  small_bpow. lra.
Qed.

(** C149, refuted part: of 26 points with the weights 0, 1, ..., 25 a filter of 28 per cent removes
    8, which is more than 28 per cent of them, while it removes 7 in exact arithmetic. *)
Theorem float_quantile_removes_refuted :
  let w := WArray (map INR (seq 0 26)) in
  Forall binary64 (wlist w) /\ removed (f_quantile_filter 28 w) = 8%nat /\ removed (quantile_filter 28 w) = 7%nat /\
  28 / 100 * INR (length (wlist w)) < INR 8.
Proof.
  intros w.
  assert (length (wlist w) = 26%nat) as LW by (simpl; reflexivity).
  assert (wlist w <> []) as NE by (intros E; rewrite E in LW; discriminate).
  assert (Forall binary64 (wlist w)) as F.
  { apply Forall_forall. intros x Hx. apply in_map_iff in Hx. destruct Hx as [k [<- Hk]]. apply in_seq in Hk. apply INR_format. lia. }
  assert (py_sorted Rleb (wlist w) = wlist w) as SRT by (apply py_sorted_id, sorted_numbers).
  assert (forall i, (i < 26)%nat -> nth i (wlist w) 0 = INR i) as NTH.
  { intros i I. unfold w, wlist. change 0 with (INR 0). rewrite map_nth, seq_nth by auto. reflexivity. }
  assert (bpow radix2 (-50) = / 1125899906842624) as B50 by (small_bpow; lra).
  split; auto. split; [|split].
  - rewrite f_removed_sorted, SRT by auto.
    assert (f_percentile (wlist w) 28 = 7 + bpow radix2 (-50)) as Q.
    { unfold f_percentile. rewrite SRT, LW, rank_28.
      assert (Int_part (7 + bpow radix2 (-50)) = 7%Z) as -> by (apply Int_part_spec; rewrite B50; lra).
      change (Z.to_nat 7) with 7%nat. change (Nat.min 8 (26 - 1)) with 8%nat. rewrite !NTH by lia.
      rewrite !INR_IZR_INZ. change (Z.of_nat 7) with 7%Z. change (Z.of_nat 8) with 8%Z.
      assert (f_sub (7 + bpow radix2 (-50)) 7 = bpow radix2 (-50)) as ->.
      { unfold f_sub. replace (7 + bpow radix2 (-50) - 7) with (bpow radix2 (-50)) by ring. apply rnd_exact, power_format. lia. }
      unfold f_lerp. rewrite Rleb_false by (rewrite B50; lra). unfold f_add, f_mul, f_sub.
      replace (8 - 7) with 1 by ring. rewrite (rnd_exact 1) by apply format_1. rewrite Rmult_1_l.
      rewrite (rnd_exact (bpow radix2 (-50))) by (apply power_format; lia). apply rnd_exact.
      rewrite <- rank_28. apply rnd_format. }
    rewrite Q. apply Nat.le_antisymm.
    + apply below_count. intros i I. rewrite LW in I. rewrite NTH by lia. apply Rle_trans with (INR 8).
      * rewrite INR_IZR_INZ. change (Z.of_nat 8) with 8%Z. rewrite B50. lra.
      * apply le_INR. lia.
    + apply above_count; [rewrite LW; lia|]. intros i I. rewrite NTH by lia. apply Rle_lt_trans with (INR 7).
      * apply le_INR. lia.
      * rewrite INR_IZR_INZ. change (Z.of_nat 7) with 7%Z. rewrite B50. lra.
  - rewrite removed_sorted by auto. change (py_sorted nleb (wlist w)) with (py_sorted Rleb (wlist w)). rewrite SRT.
    assert (percentile (wlist w) 28 = 7) as Q.
    { unfold percentile. change (py_sorted nleb (wlist w)) with (py_sorted Rleb (wlist w)). rewrite SRT, LW. rnum.
      change (Z.of_nat (26 - 1)) with 25%Z. replace (28 / 100 * 25) with 7 by lra. rewrite (Int_part_IZR 7).
      change (Z.to_nat 7) with 7%nat. rewrite NTH by lia. rewrite !INR_IZR_INZ. change (Z.of_nat 7) with 7%Z. lra. }
    rewrite Q. apply Nat.le_antisymm.
    + apply below_count. intros i I. rewrite LW in I. rewrite NTH by lia. replace 7 with (INR 7) by (simpl; lra). apply le_INR. lia.
    + apply above_count; [rewrite LW; lia|]. intros i I. rewrite NTH by lia. replace 7 with (INR 7) by (simpl; lra). apply lt_INR. lia.
  - rewrite LW, !INR_IZR_INZ. change (Z.of_nat 26) with 26%Z. change (Z.of_nat 8) with 8%Z. lra.
Qed.
Print Assumptions float_quantile_removes_refuted.

(** The hypotheses are met: three weights, half of them. *)
Example float_quantile_ex : f_rank 50 3 = 1 /\ f_quantile_filter 50 (WArray [1; 2; 4]) = [false; true; true].
Proof.
  assert (f_rank 50 3 = 1) as E.
  { unfold f_rank, f_mul. replace (50 / 100) with (/ 2) by lra. rewrite (rnd_exact (/ 2)) by apply format_half.
    rewrite (rnd_exact (INR (3 - 1))) by (apply INR_format; reflexivity). simpl INR. replace (/ 2 * (1 + 1)) with 1 by lra. apply rnd_exact, format_1. }
  split; auto.
  assert (StronglySorted (fun x y => Rleb x y = true) [1; 2; 4]) as S by (repeat constructor; apply Rleb_true; lra).
  assert (f_percentile [1; 2; 4] 50 = 2) as Q.
  { unfold f_percentile. rewrite (py_sorted_id Rleb _ S). change (length [1; 2; 4]) with 3%nat. rewrite E, (Int_part_IZR 1).
    change (Z.to_nat 1) with 1%nat. unfold f_sub. replace (1 - INR 1) with 0 by (simpl; lra). rewrite (rnd_exact 0) by apply format_0.
    apply f_lerp_0. apply (format_int 2). reflexivity. }
  unfold f_quantile_filter, wlist. rewrite Q. cbn [map]. rewrite Rleb_false, !Rleb_true by lra. reflexivity.
Qed.
