(** * Evenly spaced winds in binary64: model and properties

    [np.linspace] supplies the wind angles of curve slices, the default wind speeds and the wind speeds between
    given ones.  Numbers as in FloatMod.v (no overflow). *)

From Coq Require Import List Bool Arith ZArith Reals Lra Lia Sorted.
From Flocq Require Import Core.
From Verif Require Import Py Num ListX BaseModel FloatMod FloatUnit FloatSteps FloatAverage FloatSmooth.
Import ListNotations.
Open Scope R_scope.

(** [np.linspace(a, b, n)] in binary64: [y = arange(0, n) * step + a] with [step = (b - a) / (n - 1)], the last
    entry is set to [b] (numpy/core/function_base.py; numpy is not part of /repo).  Used in
    _basepolardiagram.py 124, _polardiagramcurve.py 72-73, 110, 153, _polardiagrampointcloud.py 119, 220,
    processing/injector.py 99.  The other formula that numpy uses when the step underflows to 0 is not modelled (the
    theorems assume [b - a] to be at least 2^-900). *)
Definition f_linspace : R -> R -> nat -> list R := @linspace R FNum.

(** [_get_windspeeds] in binary64.  _basepolardiagram.py 100-128. *)
Definition f_get_windspeeds : list R -> ws_arg R -> option Z -> result (list R) := @get_windspeeds R FNum.

Notation u := unit_roundoff.

Lemma u_val : u = / 9007199254740992.
Proof. reflexivity. Qed.

Lemma tiny_small : forall w, bpow radix2 (-940) <= w -> tiny <= u * w.
Proof.
  intros w W. assert (u = bpow radix2 (-53)) as -> by reflexivity.
  apply Rle_trans with (bpow radix2 (-53) * bpow radix2 (-940)).
  - rewrite <- bpow_plus. unfold tiny. apply bpow_le. lia.
  - apply Rmult_le_compat_l; [apply bpow_ge_0|auto].
Qed.

Lemma rnd_near : forall x, 0 <= x -> x * (1 - u) - tiny <= rnd x <= x * (1 + u) + tiny.
Proof.
  intros x P. pose proof (rnd_err x) as E. rewrite (Rabs_pos_eq x P) in E. apply Rabs_le_inv in E. lra.
Qed.

(** One entry but the last. *)
Definition entry_at (a b : R) (m i : nat) : R :=
  rnd (a + rnd (IZR (Z.of_nat i) * rnd (rnd (b - a) / IZR (Z.of_nat m)))).

Lemma linspace_eq : forall a b n, (2 <= Z.of_nat n <= 2 ^ 40)%Z ->
  f_linspace a b n = map (entry_at a b (n - 1)) (seq 0 (n - 1)) ++ [b].
Proof.
  intros a b n N. unfold f_linspace, linspace. destruct n as [|[|n]]; try lia.
  replace (S (S n) - 1)%nat with (S n) by lia. f_equal. apply map_ext_in. intros i I. apply in_seq in I.
  assert (forall k, (Z.of_nat k <= 2 ^ 40)%Z -> rnd (IZR (Z.of_nat k)) = IZR (Z.of_nat k)) as RI.
  { intros k K. apply rnd_exact. apply format_int. rewrite Z.abs_eq by lia. lia. }
  unfold entry_at. cbn [nadd nmul ndiv nsub nofZ FNum]. rewrite !RI by lia. reflexivity.
Qed.

Section Entries.
  Variables (a b : R) (m : nat).
  Hypotheses (FA : binary64 a) (FB : binary64 b) (G : bpow radix2 (-900) <= b - a) (M : (1 <= Z.of_nat m <= 2 ^ 40)%Z).
  Let D := b - a.
  Let k := IZR (Z.of_nat m).
  Let w := D / k.
  Let step := rnd (rnd D / k).

  Lemma k_bounds : 1 <= k <= 1099511627776.
  Proof. unfold k. split; [apply (IZR_le 1)|apply (IZR_le _ 1099511627776)]; lia. Qed.
  Lemma D_w : D = k * w.
  Proof. unfold w. field. pose proof k_bounds. lra. Qed.
  Lemma w_big : bpow radix2 (-940) <= w.
  Proof.
    pose proof k_bounds as K. apply Rmult_le_reg_l with k; [lra|]. rewrite <- D_w.
    apply Rle_trans with (bpow radix2 40 * bpow radix2 (-940)).
    - apply Rmult_le_compat_r; [apply bpow_ge_0|]. change (bpow radix2 40) with 1099511627776. lra.
    - rewrite <- bpow_plus. exact G.
  Qed.
  Lemma w_pos : 0 < w.
  Proof. pose proof w_big. pose proof (bpow_gt_0 radix2 (-940)). lra. Qed.

  Lemma step_bounds : w * (1 - 5 * u) <= step <= w * (1 + 5 * u).
  Proof.
    pose proof k_bounds as K. pose proof w_pos as W. pose proof (tiny_small w w_big) as T. pose proof u_bounds as U.
    assert (0 <= D) as DP by (rewrite D_w; nra).
    pose proof (rnd_near D DP) as [L1 L2].
    assert (tiny <= u * D) as TD.
    { eapply Rle_trans; [exact T|]. apply Rmult_le_compat_l; [lra|]. rewrite D_w. nra. }
    assert (rnd D / k = rnd D * / k) as EQ by reflexivity.
    assert (0 < / k) as IK by (apply Rinv_0_lt_compat; lra).
    assert (D * / k = w) as DW by reflexivity.
    assert (w * (1 - 2 * u) <= rnd D / k <= w * (1 + 2 * u)) as [Q1 Q2].
    { rewrite EQ, <- DW. split.
      - replace (D * / k * (1 - 2 * u)) with (D * (1 - 2 * u) * / k) by ring. apply Rmult_le_compat_r; lra.
      - replace (D * / k * (1 + 2 * u)) with (D * (1 + 2 * u) * / k) by ring. apply Rmult_le_compat_r; lra. }
    assert (u <= / 16) as US by apply u_small.
    assert (0 <= rnd D / k) as QP by nra.
    pose proof (rnd_near _ QP) as [S1 S2]. fold step in S1, S2. split.
    - assert (w * (1 - 2 * u) * (1 - u) <= rnd D / k * (1 - u)) by (apply Rmult_le_compat_r; lra).
      assert (0 <= w * u * u) by (repeat apply Rmult_le_pos; lra). nra.
    - assert (rnd D / k * (1 + u) <= w * (1 + 2 * u) * (1 + u)) by (apply Rmult_le_compat_r; lra).
      assert (w * u * u <= w * u * / 16) by (apply Rmult_le_compat_l; [apply Rmult_le_pos; lra|lra]). nra.
  Qed.
  Lemma step_pos : 0 < step.
  Proof. pose proof step_bounds as [S _]. pose proof w_pos. pose proof u_small. nra. Qed.

  Let part (i : nat) := rnd (IZR (Z.of_nat i) * step).

  Lemma part_bounds : forall i, (i < m)%nat -> 0 <= part i <= D /\ Rabs (part i - IZR (Z.of_nat i) * w) <= 8 * u * D.
  Proof.
    intros i I. pose proof k_bounds as K. pose proof w_pos as W. pose proof (tiny_small w w_big) as T. pose proof u_bounds as U.
    pose proof u_small as US. pose proof step_bounds as [S1 S2]. pose proof step_pos as SP.
    set (r := IZR (Z.of_nat i)). assert (0 <= r <= k - 1) as [R0 R1].
    { unfold r, k. rewrite <- minus_IZR. split; [apply (IZR_le 0)|apply IZR_le]; lia. }
    assert (0 <= r * step) as P by nra. pose proof (rnd_near _ P) as [N1 N2]. fold r. unfold part. fold r.
    assert (r * step <= r * (w * (1 + 5 * u))) as X1 by (apply Rmult_le_compat_l; auto).
    assert (r * (w * (1 - 5 * u)) <= r * step) as X2 by (apply Rmult_le_compat_l; auto).
    remember (r * w) as v eqn:EV. assert (0 <= v) as VP by (subst v; apply Rmult_le_pos; lra).
    assert (v <= D - w) as VD by (subst v; rewrite D_w; nra).
    assert (r * (w * (1 + 5 * u)) = v * (1 + 5 * u)) as E1 by (subst v; ring).
    assert (r * (w * (1 - 5 * u)) = v * (1 - 5 * u)) as E2 by (subst v; ring).
    rewrite E1 in X1. rewrite E2 in X2.
    assert (rnd (r * step) <= v * (1 + 5 * u) * (1 + u) + tiny) as Y1.
    { eapply Rle_trans; [exact N2|]. apply Rplus_le_compat_r. apply Rmult_le_compat_r; lra. }
    assert (v * (1 - 5 * u) * (1 - u) - tiny <= rnd (r * step)) as Y2.
    { eapply Rle_trans; [|exact N1]. apply Rplus_le_compat_r. apply Rmult_le_compat_r; lra. }
    assert (0 <= v * u * u) as V1 by (repeat apply Rmult_le_pos; lra).
    assert (v * u * u <= v * u * / 16) as V2 by (apply Rmult_le_compat_l; [apply Rmult_le_pos; lra|lra]).
    assert (0 <= u * v) as UV by (apply Rmult_le_pos; lra).
    replace (v * (1 + 5 * u) * (1 + u)) with (v + 6 * (u * v) + 5 * (v * u * u)) in Y1 by ring.
    replace (v * (1 - 5 * u) * (1 - u)) with (v - 6 * (u * v) + 5 * (v * u * u)) in Y2 by ring.
    replace (v * u * / 16) with (/ 16 * (u * v)) in V2 by ring.
    assert (rnd (r * step) <= v + 7 * (u * v) + u * w) as Z1 by lra.
    assert (v - 7 * (u * v) - u * w <= rnd (r * step)) as Z2 by lra.
    assert (u * w <= u * D) as WD by (apply Rmult_le_compat_l; lra).
    assert (u * v <= u * D) as VDu by (apply Rmult_le_compat_l; lra).
    split; [split|].
    - apply rnd_nonneg. auto.
    - (* 7 u v + u w <= w *)
      assert (u * v <= w * / 1000) as Q.
      { assert (v <= 1099511627776 * w) by (subst v; nra). rewrite u_val. lra. }
      rewrite u_val in Z1 at 2. lra.
    - apply Rabs_le. lra.
  Qed.

  Lemma entry_bounds : forall i, (i < m)%nat -> a <= entry_at a b m i <= b.
  Proof.
    intros i I. destruct (part_bounds i I) as [[P1 P2] _]. unfold entry_at. fold D k step. fold (part i). unfold D in P2. split.
    - apply rnd_ge; auto. lra.
    - apply rnd_le; auto. lra.
  Qed.

  Lemma entry_mono : forall i j, (i <= j)%nat -> entry_at a b m i <= entry_at a b m j.
  Proof.
    intros i j L. unfold entry_at. fold D k step. apply rnd_mono. apply Rplus_le_compat_l. apply rnd_mono.
    apply Rmult_le_compat_r; [left; apply step_pos|]. apply IZR_le. lia.
  Qed.

  Lemma entry_first : entry_at a b m 0 = a.
  Proof.
    unfold entry_at. change (IZR (Z.of_nat 0)) with 0. rewrite Rmult_0_l. rewrite (rnd_exact 0) by apply format_0.
    rewrite Rplus_0_r. apply rnd_exact. auto.
  Qed.

  Lemma entry_error : forall i, (i < m)%nat ->
    Rabs (entry_at a b m i - (a + IZR (Z.of_nat i) * w)) <= 20 * u * Rmax (Rabs a) (Rabs b).
  Proof.
    intros i I. destruct (part_bounds i I) as [[P1 P2] P3]. unfold entry_at. fold D k step. fold (part i).
    pose proof (rnd_err (a + part i)) as E. set (p := part i) in *. set (Mx := Rmax (Rabs a) (Rabs b)).
    pose proof (Rmax_l (Rabs a) (Rabs b)) as ML. pose proof (Rmax_r (Rabs a) (Rabs b)) as MR. fold Mx in ML, MR.
    pose proof u_bounds as U. pose proof w_pos as W. pose proof (tiny_small w w_big) as T. pose proof k_bounds as K.
    assert (w <= D) as WD by (rewrite D_w; nra).
    assert (u * w <= u * D) as WDu by (apply Rmult_le_compat_l; lra).
    apply Rabs_le_inv in P3.
    assert (- Mx <= a <= Mx /\ - Mx <= b <= Mx) as [[A1 A2] [B1 B2]].
    { split; apply Rabs_le_inv; auto. }
    assert (D <= 2 * Mx) as DM by (unfold D; lra).
    assert (u * D <= u * (2 * Mx)) as DMu by (apply Rmult_le_compat_l; lra).
    assert (Rabs (a + p) <= Mx) as AP by (apply Rabs_le; unfold D in P2; lra).
    assert (u * Rabs (a + p) <= u * Mx) as APu by (apply Rmult_le_compat_l; lra).
    apply Rabs_le_inv in E. apply Rabs_le. lra.
  Qed.
End Entries.

Lemma sorted_app : forall (Rel : R -> R -> Prop) l l', StronglySorted Rel l -> StronglySorted Rel l' ->
  (forall x y, In x l -> In y l' -> Rel x y) -> StronglySorted Rel (l ++ l').
Proof.
  intros Rel l l' S S' H. induction S as [|x l S IH F]; simpl; auto.
  constructor.
  - apply IH. intros. apply H; simpl; auto.
  - apply Forall_app. split; auto. apply Forall_forall. intros y Y. apply H; simpl; auto.
Qed.

Lemma sorted_seq : forall (Rel : R -> R -> Prop) (f : nat -> R) n k,
  (forall i j, (k <= i < j)%nat -> (j < k + n)%nat -> Rel (f i) (f j)) -> StronglySorted Rel (map f (seq k n)).
Proof.
  intros Rel f n. induction n as [|n IH]; intros k H; simpl; constructor.
  - apply IH. intros. apply H; lia.
  - apply Forall_forall. intros y Y. apply in_map_iff in Y. destruct Y as [j [<- J]]. apply in_seq in J. apply H; lia.
Qed.

(** * C154: evenly spaced winds *)

(** Between two different numbers [np.linspace] gives doubles in ascending order that begin and end with the given
    ones. *)
Theorem float_linspace_ordered : forall a b n, binary64 a -> binary64 b -> bpow radix2 (-900) <= b - a ->
  (2 <= Z.of_nat n <= 2 ^ 40)%Z ->
  let l := f_linspace a b n in
  length l = n /\ StronglySorted Rle l /\ (forall y, In y l -> binary64 y /\ a <= y <= b) /\
  hd 0 l = a /\ last l 0 = b.
Proof.
  intros a b n FA FB G N. cbv zeta. rewrite linspace_eq by auto.
  assert (1 <= Z.of_nat (n - 1) <= 2 ^ 40)%Z as M by lia. assert (a < b) as AB.
  { pose proof (bpow_gt_0 radix2 (-900)). lra. }
  split; [|split; [|split; [|split]]].
  - rewrite app_length, map_length, seq_length. simpl length. lia.
  - apply sorted_app.
    + apply sorted_seq. intros i j L1 L2. apply entry_mono; auto. lia.
    + repeat constructor.
    + intros x y X [<-|[]]. apply in_map_iff in X. destruct X as [i [<- I]]. apply in_seq in I.
      apply entry_bounds; auto. lia.
  - intros y Y. apply in_app_or in Y. destruct Y as [Y|[<-|[]]].
    + apply in_map_iff in Y. destruct Y as [i [<- I]]. apply in_seq in I. split; [apply rnd_format|].
      apply entry_bounds; auto. lia.
    + split; auto. lra.
  - destruct (n - 1)%nat as [|m] eqn:E; [lia|]. cbn [seq map app hd]. apply entry_first; auto.
  - apply last_last.
Qed.
Print Assumptions float_linspace_ordered.

(** The entries lie near the numbers that divide the interval evenly. *)
Theorem float_linspace_near : forall a b n i, binary64 a -> binary64 b -> bpow radix2 (-900) <= b - a ->
  (2 <= Z.of_nat n <= 2 ^ 40)%Z -> (i < n)%nat ->
  Rabs (nth i (f_linspace a b n) 0 - (a + IZR (Z.of_nat i) * ((b - a) / IZR (Z.of_nat n - 1))))
  <= 20 / 9007199254740992 * Rmax (Rabs a) (Rabs b).
Proof.
  intros a b n i FA FB G N I. rewrite linspace_eq by auto.
  replace (20 / 9007199254740992) with (20 * u) by (rewrite u_val; reflexivity).
  replace (Z.of_nat n - 1)%Z with (Z.of_nat (n - 1)) by lia.
  destruct (Nat.eq_dec i (n - 1)) as [->|D].
  - rewrite app_nth2 by (rewrite map_length, seq_length; lia). rewrite map_length, seq_length, Nat.sub_diag. cbn [nth].
    replace (b - _) with 0.
    + rewrite Rabs_R0. apply Rmult_le_pos; [pose proof u_bounds; lra|]. eapply Rle_trans; [apply Rabs_pos|apply Rmax_l].
    + field. apply not_0_IZR. lia.
  - rewrite app_nth1 by (rewrite map_length, seq_length; lia).
    rewrite (nth_indep _ 0 (entry_at a b (n - 1) 0)) by (rewrite map_length, seq_length; lia).
    rewrite map_nth, seq_nth by lia. apply entry_error; auto; lia.
Qed.
Print Assumptions float_linspace_near.

(** They are different as long as their distance is large against the rounding of the ends. *)
Theorem float_linspace_distinct_partial : forall a b n, binary64 a -> binary64 b -> bpow radix2 (-900) <= b - a ->
  (2 <= Z.of_nat n <= 2 ^ 40)%Z ->
  40 / 9007199254740992 * Rmax (Rabs a) (Rabs b) < (b - a) / IZR (Z.of_nat n - 1) ->
  StronglySorted Rlt (f_linspace a b n).
Proof.
  intros a b n FA FB G N H.
  assert (forall i, (i < n)%nat -> nth i (map (fun j => nth j (f_linspace a b n) 0) (seq 0 n)) 0 = nth i (f_linspace a b n) 0) as NT.
  { intros i I. rewrite (nth_indep _ 0 (nth 0 (f_linspace a b n) 0)) by (rewrite map_length, seq_length; lia).
    rewrite (map_nth (fun j => nth j (f_linspace a b n) 0)), seq_nth by lia. reflexivity. }
  destruct (float_linspace_ordered a b n FA FB G N) as [LE _].
  replace (f_linspace a b n) with (map (fun j => nth j (f_linspace a b n) 0) (seq 0 n)).
  - apply sorted_seq. intros i j L1 L2.
    pose proof (float_linspace_near a b n i FA FB G N ltac:(lia)) as E1.
    pose proof (float_linspace_near a b n j FA FB G N ltac:(lia)) as E2.
    apply Rabs_le_inv in E1. apply Rabs_le_inv in E2.
    set (w := (b - a) / IZR (Z.of_nat n - 1)) in *.
    assert (IZR (Z.of_nat i) + 1 <= IZR (Z.of_nat j)) as S by (rewrite <- plus_IZR; apply IZR_le; lia).
    assert (0 <= w) as W.
    { apply Rlt_le. eapply Rle_lt_trans; [|exact H]. apply Rmult_le_pos; [lra|].
      eapply Rle_trans; [apply Rabs_pos|apply Rmax_l]. }
    assert ((IZR (Z.of_nat i) + 1) * w <= IZR (Z.of_nat j) * w) by (apply Rmult_le_compat_r; auto). lra.
  - apply nth_ext with 0 0; [rewrite map_length, seq_length; auto|].
    intros i I. rewrite map_length, seq_length in I. apply NT. auto.
Qed.
Print Assumptions float_linspace_distinct_partial.

(** Five numbers between 1 and the next double are not different. *)
Theorem float_linspace_distinct_refuted :
  exists a b, binary64 a /\ binary64 b /\ a < b /\ bpow radix2 (-900) <= b - a /\
  ~ StronglySorted Rlt (f_linspace a b 5).
Proof.
  assert (binary64 (1 + bpow radix2 (-52))) as FB.
  { replace (1 + bpow radix2 (-52)) with (F2R (Float radix2 4503599627370497 (-52))).
    - apply generic_format_FLT. exists (Float radix2 4503599627370497 (-52)); auto; cbn; lia.
    - unfold F2R. cbn [Fnum Fexp]. change (bpow radix2 (-52)) with (/ 4503599627370496). lra. }
  exists 1, (1 + bpow radix2 (-52)). split; [apply format_1|]. split; auto.
  pose proof (bpow_gt_0 radix2 (-52)) as P. split; [lra|]. split.
  { replace (1 + _ - 1) with (bpow radix2 (-52)) by lra. apply bpow_le. lia. }
  rewrite linspace_eq by (simpl; lia). cbn [Nat.sub seq map app].
  intros S. apply StronglySorted_inv in S. destruct S as [_ F]. apply Forall_inv in F. rename F into L.
  assert (forall e, (-1074 <= e)%Z -> binary64 (bpow radix2 e)) as FP.
  { intros e E. apply generic_format_bpow. unfold FLT_exp, fexp. cbn. unfold FLT_exp. lia. }
  unfold entry_at in L.
  replace (1 + bpow radix2 (-52) - 1) with (bpow radix2 (-52)) in L by lra.
  rewrite (rnd_exact (bpow radix2 (-52))) in L by (apply FP; lia).
  assert (bpow radix2 (-52) / IZR (Z.of_nat 4) = bpow radix2 (-54)) as E4.
  { change (bpow radix2 (-52)) with (/ 4503599627370496). change (bpow radix2 (-54)) with (/ 18014398509481984).
    change (IZR (Z.of_nat 4)) with 4. lra. }
  rewrite E4, (rnd_exact (bpow radix2 (-54))) in L by (apply FP; lia).
  change (IZR (Z.of_nat 0)) with 0 in L. change (IZR (Z.of_nat 1)) with 1 in L.
  rewrite Rmult_0_l, Rmult_1_l, (rnd_exact 0), (rnd_exact (bpow radix2 (-54))), Rplus_0_r in L; [|apply FP; lia|apply format_0].
  rewrite (rnd_exact 1) in L by apply format_1.
  assert (rnd (1 + bpow radix2 (-54)) = 1) as E1.
  { replace 1 with (IZR 4503599627370496 * bpow radix2 (-52)) at 2 by (small_bpow; lra).
    apply rnd_to; [lia| |apply Rabs_def1]; small_bpow; lra. }
  rewrite E1 in L. lra.
Qed.
Print Assumptions float_linspace_distinct_refuted.

Definition spaced (l : list R) : Prop :=
  Forall binary64 l /\ forall x y, In (x, y) (combine l (tl l)) -> bpow radix2 (-900) <= y - x.

Lemma last_cons2 : forall (x y : R) l d, last (x :: y :: l) d = last (y :: l) d.
Proof. reflexivity. Qed.

Lemma gaps_facts : forall l x k, (2 <= Z.of_nat k <= 2 ^ 40)%Z -> spaced (x :: l) ->
  let g := concat (map (fun ab => removelast (f_linspace (fst ab) (snd ab) k)) (combine (x :: l) l)) in
  let r := g ++ [last (x :: l) 0] in
  length r = (length l * (k - 1) + 1)%nat /\ StronglySorted Rle r /\ incl (x :: l) r /\
  (forall y, In y r -> binary64 y /\ x <= y <= last (x :: l) 0).
Proof.
  induction l as [|y l IH]; intros x k K [F S]; cbv zeta.
  - cbn. repeat split; auto.
    + repeat constructor.
    + intros z Z. exact Z.
    + destruct H as [<-|[]]. inversion F; auto.
    + destruct H as [<-|[]]. lra.
    + destruct H as [<-|[]]. lra.
  - assert (spaced (y :: l)) as S'.
    { split; [inversion F; auto|]. intros a b I. apply S. cbn [tl combine]. right. exact I. }
    assert (bpow radix2 (-900) <= y - x) as G by (apply S; left; reflexivity).
    assert (binary64 x /\ binary64 y) as [FX FY].
    { split; [exact (Forall_inv F)|exact (Forall_inv (Forall_inv_tail F))]. }
    assert (x < y) as XY by (pose proof (bpow_gt_0 radix2 (-900)); lra).
    specialize (IH y k K S'). cbv zeta in IH.
    cbn [combine map concat fst snd]. rewrite last_cons2, <- app_assoc.
    set (r := concat _ ++ _) in *. destruct IH as [L [T [I B]]].
    destruct (float_linspace_ordered x y k FX FY G K) as [_ [SO [BO _]]].
    rewrite linspace_eq, removelast_last in * by auto. set (p := map (entry_at x y (k - 1)) (seq 0 (k - 1))) in *.
    assert (forall z, In z p -> binary64 z /\ x <= z <= y) as P by (intros z Z; apply BO; apply in_or_app; auto).
    assert (y <= last (y :: l) 0) as YL by (apply (B y); apply I; left; reflexivity).
    split; [|split; [|split]].
    + rewrite app_length, L. unfold p. rewrite map_length, seq_length. cbn [length]. lia.
    + apply sorted_app; auto.
      * unfold p. apply sorted_seq. intros i j L1 L2. apply entry_mono; auto; lia.
      * intros a b A C. apply P in A. apply B in C. lra.
    + intros z [<-|Z].
      * apply in_or_app. left. unfold p. apply in_map_iff. exists 0%nat. split; [apply entry_first; auto|].
        apply in_seq. lia.
      * apply in_or_app. right. apply I. auto.
    + intros z Z. apply in_app_or in Z. destruct Z as [Z|Z].
      * apply P in Z. intuition lra.
      * apply B in Z. intuition lra.
Qed.

(** Ascending wind speeds filled up by [n] values in each gap: all given speeds are among the result, which is
    ascending and consists of doubles between the first and the last one. *)
Theorem float_windspeeds : forall default ws n, ws <> [] -> spaced ws -> (0 < n <= 2 ^ 39)%Z ->
  exists r, f_get_windspeeds default (WList ws) (Some n) = Ok r /\
    f_get_windspeeds ws WNone (Some n) = Ok r /\
    length r = ((length ws - 1) * (Z.to_nat n + 1) + 1)%nat /\
    StronglySorted Rle r /\ incl ws r /\ (forall y, In y r -> binary64 y /\ hd 0 ws <= y <= last ws 0).
Proof.
  intros default ws n NE S N. destruct ws as [|x l]; [congruence|].
  unfold f_get_windspeeds, get_windspeeds.
  assert (Z.leb n 0 = false) as -> by (apply Z.leb_gt; lia).
  assert (exists q, rev (x :: l) = last (x :: l) 0 :: q) as [q ->].
  { destruct (exists_last NE) as [b [z ->]]. rewrite last_last, rev_app_distr. cbn. eauto. }
  eexists. split; [reflexivity|]. split; [reflexivity|]. cbn [tl].
  destruct (gaps_facts l x (Z.to_nat n + 2) ltac:(lia) S) as [A [B [C D]]]. cbv zeta in *.
  split; [|split; [|split]]; auto.
  unfold f_linspace in A. rewrite A. cbn [length]. replace (Z.to_nat n + 2 - 1)%nat with (Z.to_nat n + 1)%nat by lia. lia.
Qed.
Print Assumptions float_windspeeds.

(** The hypotheses are met by the default wind speeds of curves and by angles of a slice. *)
Example float_linspace_meets : binary64 5 /\ binary64 20 /\ binary64 360 /\
  bpow radix2 (-900) <= 20 - 5 /\ bpow radix2 (-900) <= 360 - 0 /\
  40 / 9007199254740992 * Rmax (Rabs 5) (Rabs 20) < (20 - 5) / IZR (Z.of_nat 16 - 1) /\ spaced [4; 6; 8; 20].
Proof.
  assert (forall z, (Z.abs z <= 1000)%Z -> binary64 (IZR z)) as F by (intros; apply format_int; lia).
  assert (bpow radix2 (-900) <= 1) as P by (change 1 with (bpow radix2 0); apply bpow_le; lia).
  repeat split; try (apply F; lia); try lra.
  - rewrite Rmax_right by (rewrite !Rabs_pos_eq; lra). rewrite Rabs_pos_eq by lra. cbn. lra.
  - repeat constructor; apply F; lia.
  - cbn. intros x y [E|[E|[E|[]]]]; injection E as <- <-; lra.
Qed.
