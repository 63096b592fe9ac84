(** * Relative positions in time given to the fill functions, with binary64 arithmetic: model and properties

    [FillLocalImputator._apply_fill_functions] (imputator.py 265-305).  The quotient of two differences of time stamps
    (datetime.timedelta) is the quotient of two whole numbers of microseconds, rounded to the nearest binary64 number. *)

From Coq Require Import String List Bool Arith ZArith Reals Lra Lia.
From Flocq Require Import Core.
From Verif Require Import Py Num ListX DataModel ImputModel ImputProps FloatMod FloatUnit FloatMember.
Import ListNotations.
Open Scope string_scope.
Open Scope list_scope.
Open Scope R_scope.

(** [timedelta / timedelta]. *)
Definition f_ratio (a b : Z) : R := rnd (IZR a / IZR b).

(** The body of [_apply_fill_functions] for one row; see [fill_entry] in ImputModel.v.  imputator.py 265-305. *)
Definition f_fill_entry (fill_before : string -> pyval -> R -> cell) (fill_between : string -> pyval -> pyval -> R -> cell)
    (fill_after : string -> pyval -> R -> cell) (max_diff : Z)
    (key : string) (ts : list Z) (col : list cell) (i : nat) : cell * bool :=
  let t j := nth j ts 0%Z in
  match nth i col None with
  | Some v => (Some v, false)
  | None =>
      match start_end max_diff ts i (measured col) with
      | (None, None) => (None, false)
      | (None, Some e) => (value_at col e (fun v => fill_before key v (f_ratio (t e - t i) max_diff)), true)
      | (Some s, None) => (value_at col s (fun v => fill_after key v (f_ratio (t i - t s) max_diff)), true)
      | (Some s, Some e) =>
          if (max_diff <? t e - t s)%Z then
            (value_at col s (fun v => fill_after key v (f_ratio (t i - t s) max_diff)), true)
          else
            let mu := if (t e =? t s)%Z then 1 else f_ratio (t i - t s) (t e - t s) in
            (value_at col s (fun v => value_at col e (fun w => fill_between key v w mu)), true)
      end
  end.

(** ** Specification *)

(** [mu] is the share [num] of [den]: correct to 2^-54, in [0, 1], and at an end only for the ends. *)
Definition share (num den : Z) (mu : R) : Prop :=
  Rabs (mu - IZR num / IZR den) <= / 2 ^ 54 /\ 0 <= mu <= 1 /\ (mu = 0 <-> num = 0%Z) /\ (mu = 1 <-> num = den).

(** Time stamps in order. *)
Definition in_order (T : list Z) : Prop :=
  forall a b, (a <= b)%nat -> (b < length T)%nat -> (nth a T 0 <= nth b T 0)%Z.

(** ** Proofs *)

Lemma ratio_share : forall a m, (0 <= a <= m)%Z -> (0 < m <= 2 ^ 52)%Z -> share a m (f_ratio a m).
Proof.
  intros a m A M. unfold share, f_ratio. assert (0 < IZR m) as PM by (apply IZR_lt; lia).
  assert (0 <= IZR a / IZR m <= 1) as U.
  { assert (0 <= IZR a <= IZR m) by (split; apply IZR_le; lia). split.
    - apply Rmult_le_pos; [lra|]. apply Rlt_le, Rinv_0_lt_compat. auto.
    - apply (Rmult_le_reg_r (IZR m)); auto. unfold Rdiv. rewrite Rmult_assoc, Rinv_l by lra. lra. }
  assert (rnd (IZR 0 / IZR m) = 0) as Z0 by (unfold Rdiv; rewrite Rmult_0_l; apply rnd_exact, format_0).
  assert (rnd (IZR m / IZR m) = 1) as Z1 by (unfold Rdiv; rewrite Rinv_r by lra; apply rnd_exact, format_1).
  split; [|split; [apply (rnd_unit _ U)|split; split]].
  - replace (/ 2 ^ 54) with (bpow radix2 (-54)) by (cbn; lra). apply unit_error. exact U.
  - intros E. destruct (Z.eq_dec a 0) as [|N]; auto. pose proof (shares_differ 0 a m ltac:(lia) ltac:(lia) ltac:(lia)). lra.
  - intros ->. exact Z0.
  - intros E. destruct (Z.eq_dec a m) as [|N]; auto. pose proof (shares_differ a m m ltac:(lia) ltac:(lia) ltac:(lia)). lra.
  - intros ->. exact Z1.
Qed.

Lemma measured_below : forall (c : list cell) j, nth j c None <> None -> (j < length c)%nat.
Proof. intros c j H. destruct (le_lt_dec (length c) j); auto. rewrite nth_overflow in H by auto. congruence. Qed.

(** ** Properties *)

(** C165.  A gap is filled from its measured neighbours within the time limit; the position in time that the fill function
    gets is the share of the time limit or of the gap. *)
Theorem float_fill : forall fb fw fa mx k T (c : list cell) i, in_order T -> length T = length c -> (i < length c)%nat -> (0 < mx <= 2 ^ 52)%Z ->
  nth i c None = None ->
  let t j := nth j T 0%Z in
  (forall e w, (forall j, ~ near_before mx T c i j) -> near_after mx T c i e -> nth e c None = Some w ->
     exists mu, f_fill_entry fb fw fa mx k T c i = (fb k w mu, true) /\ share (t e - t i) mx mu /\ mu < 1) /\
  (forall s v, near_before mx T c i s -> nth s c None = Some v ->
     (forall e, near_after mx T c i e -> (mx < t e - t s)%Z) ->
     exists mu, f_fill_entry fb fw fa mx k T c i = (fa k v mu, true) /\ share (t i - t s) mx mu /\ mu < 1) /\
  (forall s e v w, near_before mx T c i s -> near_after mx T c i e -> nth s c None = Some v -> nth e c None = Some w ->
     (t e - t s <= mx)%Z ->
     exists mu, f_fill_entry fb fw fa mx k T c i = (fw k v w mu, true) /\
       (t s = t e -> mu = 1) /\ (t s <> t e -> share (t i - t s) (t e - t s) mu)) /\
  ((forall j, ~ near_before mx T c i j) -> (forall j, ~ near_after mx T c i j) ->
     f_fill_entry fb fw fa mx k T c i = (None, false)).
Proof.
  intros fb fw fa mx k T c i O LT I MX N t.
  assert (forall s, near_before mx T c i s -> (0 <= t i - t s < mx)%Z) as SB.
  { intros s [[S1 [S2 S3]] _]. unfold t. pose proof (O s i ltac:(lia) ltac:(lia)). lia. }
  assert (forall e, near_after mx T c i e -> (0 <= t e - t i < mx)%Z) as EB.
  { intros e [[E1 [E2 E3]] _]. unfold t. apply measured_below in E2. assert (e < length T)%nat as E4 by (rewrite LT; exact E2). pose proof (O i e (Nat.lt_le_incl _ _ E1) E4). lia. }
  assert (forall a mu, (0 <= a < mx)%Z -> share a mx mu -> mu < 1) as LESS.
  { intros a mu A [_ [B [_ D]]]. destruct (Req_dec mu 1) as [E|E]; [apply D in E; lia|lra]. }
  assert (forall s s', near_before mx T c i s -> near_before mx T c i s' -> s = s') as US.
  { intros s s' [A B] [A' B']. apply B in A'. apply B' in A. lia. }
  pose proof (start_spec mx T c i) as HS. pose proof (end_spec mx T c i) as HE.
  unfold f_fill_entry. rewrite N. destruct (start_end mx T i (measured c)) as [os oe]. cbn [fst snd] in HS, HE. subst t; cbv beta zeta in *.
  split; [|split; [|split]].
  - intros e w NB NA W. destruct os as [s|]; [exfalso; apply (NB s HS)|]. destruct oe as [e'|]; [|exfalso; apply (HE e NA)].
    rewrite (near_after_unique _ _ _ _ _ _ HE NA). unfold value_at. rewrite W. eexists. split; [reflexivity|].
    pose proof (EB e NA). assert (share (nth e T 0%Z - nth i T 0%Z) mx (f_ratio (nth e T 0%Z - nth i T 0%Z) mx)) as S by (apply ratio_share; lia). eauto.
  - intros s v NB V FAR. destruct os as [s'|]; [|exfalso; apply (HS s NB)]. rewrite (US _ _ HS NB).
    pose proof (SB s NB). assert (share (nth i T 0%Z - nth s T 0%Z) mx (f_ratio (nth i T 0%Z - nth s T 0%Z) mx)) as S by (apply ratio_share; lia).
    exists (f_ratio (nth i T 0%Z - nth s T 0%Z) mx). split; [|eauto]. destruct oe as [e|].
    + pose proof (FAR e HE). destruct (Z.ltb_spec mx (nth e T 0%Z - nth s T 0%Z)); [|lia]. unfold value_at. rewrite V. reflexivity.
    + unfold value_at. rewrite V. reflexivity.
  - intros s e v w NB NA V W L. destruct os as [s'|]; [|exfalso; apply (HS s NB)]. destruct oe as [e'|]; [|exfalso; apply (HE e NA)].
    rewrite (US _ _ HS NB), (near_after_unique _ _ _ _ _ _ HE NA). destruct (Z.ltb_spec mx (nth e T 0%Z - nth s T 0%Z)); [lia|].
    unfold value_at. rewrite V, W. eexists. split; [reflexivity|]. pose proof (SB s NB). pose proof (EB e NA).
    destruct (Z.eqb_spec (nth e T 0%Z) (nth s T 0%Z)) as [E|E].
    + split; [reflexivity|congruence].
    + split; [congruence|]. intros _. apply ratio_share; lia.
  - intros NB NA. destruct os as [s|]; [exfalso; apply (NB s HS)|]. destruct oe as [e|]; [exfalso; apply (NA e HE)|reflexivity].
Qed.
Print Assumptions float_fill.

(** C165.  A measured value is left alone. *)
Theorem float_fill_measured : forall fb fw fa mx k T (c : list cell) i v, nth i c None = Some v ->
  f_fill_entry fb fw fa mx k T c i = (Some v, false).
Proof. intros fb fw fa mx k T c i v V. unfold f_fill_entry. rewrite V. reflexivity. Qed.
Print Assumptions float_fill_measured.

(** C165.  Within a gap later rows get greater positions, equal times equal positions. *)
Theorem float_fill_order : forall fb fw fa mx k T (c : list cell) i i' s e v w, in_order T -> length T = length c -> (mx <= 2 ^ 52)%Z ->
  nth i c None = None -> nth i' c None = None ->
  near_before mx T c i s -> near_after mx T c i e -> near_before mx T c i' s -> near_after mx T c i' e ->
  nth s c None = Some v -> nth e c None = Some w -> (nth e T 0%Z - nth s T 0%Z <= mx)%Z ->
  exists mu mu', f_fill_entry fb fw fa mx k T c i = (fw k v w mu, true) /\ f_fill_entry fb fw fa mx k T c i' = (fw k v w mu', true) /\
    (mu < mu' <-> (nth i T 0%Z < nth i' T 0%Z)%Z).
Proof.
  intros fb fw fa mx k T c i i' s e v w O LT MX N N' B A B' A' V W L.
  assert (forall i, nth i c None = None -> near_before mx T c i s -> near_after mx T c i e ->
    (nth s T 0%Z <= nth i T 0%Z <= nth e T 0%Z)%Z /\
    f_fill_entry fb fw fa mx k T c i = (fw k v w (if (nth e T 0%Z =? nth s T 0%Z)%Z then 1 else f_ratio (nth i T 0%Z - nth s T 0%Z) (nth e T 0%Z - nth s T 0%Z)), true)) as G.
  { clear - O LT V W L. intros i N B A. split.
    - destruct B as [[B1 [B2 B3]] _]. destruct A as [[A1 [A2 A3]] _]. apply measured_below in A2. rewrite <- LT in A2.
      split; apply O; lia.
    - pose proof (start_spec mx T c i) as HS. pose proof (end_spec mx T c i) as HE. unfold f_fill_entry. rewrite N.
      destruct (start_end mx T i (measured c)) as [[s'|] [e'|]]; cbn [fst snd] in HS, HE;
        [|exfalso; eapply HE; eauto|exfalso; eapply HS; eauto|exfalso; eapply HS; eauto].
      rewrite (near_after_unique _ _ _ _ _ _ HE A). replace s' with s.
      2: { destruct HS as [X Y], B as [X' Y']. apply Y in X'. apply Y' in X. lia. }
      destruct (Z.ltb_spec mx (nth e T 0%Z - nth s T 0%Z)%Z); [lia|]. unfold value_at. rewrite V, W. reflexivity. }
  destruct (G i N B A) as [R1 E1]. destruct (G i' N' B' A') as [R2 E2]. rewrite E1, E2.
  do 2 eexists. split; [reflexivity|]. split; [reflexivity|].
  destruct (Z.eqb_spec (nth e T 0%Z) (nth s T 0%Z)) as [E|E]; [split; [lra|lia]|].
  unfold f_ratio. split.
  - intros H. destruct (Z.lt_ge_cases (nth i T 0%Z) (nth i' T 0%Z)) as [|Q]; auto. exfalso. apply (Rlt_irrefl (rnd (IZR (nth i T 0%Z - nth s T 0%Z) / IZR (nth e T 0%Z - nth s T 0%Z)))).
    eapply Rlt_le_trans; [exact H|]. apply rnd_mono. apply Rmult_le_compat_r; [apply Rlt_le, Rinv_0_lt_compat, IZR_lt; lia|]. apply IZR_le. lia.
  - intros H. apply shares_differ; lia.
Qed.
Print Assumptions float_fill_order.

Example float_fill_meets :
  let T := [0; 10; 20; 30]%Z in let c : list cell := [Some (VInt 1); None; None; Some (VInt 2)] in
  in_order T /\ near_before 60 T c 1 0 /\ near_after 60 T c 1 3 /\ near_before 60 T c 2 0 /\ near_after 60 T c 2 3.
Proof.
  cbv zeta. assert (forall (j : nat), (j < 4)%nat -> j = 0%nat \/ j = 1%nat \/ j = 2%nat \/ j = 3%nat) as C by lia.
  split; [|split; [|split; [|split]]].
  - intros a b A B. cbn [length] in B. destruct (C a ltac:(lia)) as [->|[->|[->| ->]]], (C b ltac:(lia)) as [->|[->|[->| ->]]]; cbn; lia.
  - split; [cbn; split; [lia|split; [discriminate|lia]]|]. intros j [J _]. lia.
  - split; [cbn; split; [lia|split; [discriminate|lia]]|]. intros j [J [K _]]. destruct (le_lt_dec 3 j); auto.
    destruct (C j ltac:(lia)) as [->|[->|[->| ->]]]; cbn in K; try lia; congruence.
  - split; [cbn; split; [lia|split; [discriminate|lia]]|]. intros j [J [K _]]. destruct (C j ltac:(lia)) as [->|[->|[->| ->]]]; cbn in K; try lia; congruence.
  - split; [cbn; split; [lia|split; [discriminate|lia]]|]. intros j [J _]. lia.
Qed.
