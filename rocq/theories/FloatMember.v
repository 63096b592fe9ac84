(** * The member weigher with binary64 arithmetic: model and properties

    [CylindricMemberWeigher.weigh] (weigher.py 407-451) for an array with at least one row.  The numbers of neighbours are
    whole numbers; differences and quotients round to the nearest binary64 number, ties to even.  The norm is any function.
    Overflow, nan and the sign of zero are left out (see FloatMod.v). *)

From Coq Require Import List Bool Arith ZArith Reals Lra Lia.
From Flocq Require Import Core.
From Verif Require Import Py Num ListX FloatMod FloatUnit FloatSteps FloatAverage FloatWeigh.
Import ListNotations.
Open Scope R_scope.

Local Instance valid_exp_fm : Valid_exp fexp.
Proof. apply FLT_exp_valid. reflexivity. Qed.

(** [_count_points_in_cylinder].  weigher.py 445-451. *)
Definition f_member_count (norm : list R -> R) (radius len : R) (rows : list (list R)) (point : list R) : nat :=
  length (filter (fun p => Rleb (Rabs (f_sub (last p 0) (last point 0))) len &&
                           Rleb (norm (f_row_sub (removelast p) (removelast point))) radius) rows).

(** [_calculate_weight] and [weigh].  weigher.py 426-443. *)
Definition f_member_weigh (norm : list R -> R) (radius len : R) (rows : list (list R)) : result (list R) :=
  f_normalize (map (fun p => IZR (Z.of_nat (f_member_count norm radius len rows p) - 1)) rows).

(** ** Specification *)

(** [n] entries of the list have the property. *)
Inductive counted {A} (P : A -> Prop) : list A -> nat -> Prop :=
| counted_nil : counted P [] 0
| counted_yes : forall x l n, P x -> counted P l n -> counted P (x :: l) (S n)
| counted_no : forall x l n, ~ P x -> counted P l n -> counted P (x :: l) n.

(** [q] is in the cylinder round [p], as far as rounded differences tell. *)
Definition in_cylinder (norm : list R -> R) (radius len : R) (p q : list R) : Prop :=
  Rabs (rnd (last q 0 - last p 0)) <= len /\
  norm (map (fun xy => rnd (fst xy - snd xy)) (combine (removelast q) (removelast p))) <= radius.

(** ** Proofs *)

Lemma counted_filter : forall A (P : A -> Prop) f l, (forall x, f x = true <-> P x) -> counted P l (length (filter f l)).
Proof.
  intros A P f l H. induction l as [|x l IH]; [constructor|]. cbn [filter]. destruct (f x) eqn:E.
  - cbn [length]. constructor; auto. apply H. auto.
  - constructor; auto. intros Q. apply H in Q. congruence.
Qed.
Lemma counted_fun : forall A (P : A -> Prop) l n m, counted P l n -> counted P l m -> n = m.
Proof. intros A P l n m H. revert m. induction H; intros m G; inversion G; subst; auto; contradiction. Qed.
Lemma counted_le : forall A (P : A -> Prop) l n, counted P l n -> (n <= length l)%nat.
Proof. induction 1; cbn [length]; lia. Qed.
Lemma counted_pos : forall A (P : A -> Prop) l n x, counted P l n -> In x l -> P x -> (1 <= n)%nat.
Proof. induction 1; intros I Q; [destruct I|lia|]. destruct I as [->|I]; [contradiction|auto]. Qed.

Lemma count_spec : forall norm radius len rows p, counted (in_cylinder norm radius len p) rows (f_member_count norm radius len rows p).
Proof.
  intros. apply counted_filter. intros q. unfold in_cylinder, f_sub, f_row_sub. rewrite andb_true_iff.
  destruct (Rleb_spec (Rabs (rnd (last q 0 - last p 0))) len) as [A|A];
    destruct (Rleb_spec (norm (map (fun xy => f_sub (fst xy) (snd xy)) (combine (removelast q) (removelast p)))) radius) as [B|B];
    unfold f_sub in *; intuition congruence.
Qed.

Lemma unit_error : forall x, 0 <= x <= 1 -> Rabs (rnd x - x) <= bpow radix2 (-54).
Proof.
  intros x [A B]. destruct (Req_dec x 1) as [->|N]; [rewrite (rnd_exact 1 format_1), Rminus_eq_0, Rabs_R0; apply bpow_ge_0|].
  destruct (Req_dec x 0) as [->|NZ]; [rewrite (rnd_exact 0 format_0), Rminus_eq_0, Rabs_R0; apply bpow_ge_0|].
  assert (Rabs (rnd x - x) <= / 2 * ulp radix2 fexp x) as E by (apply error_le_half_ulp; auto with typeclass_instances).
  rewrite ulp_neq_0 in E by auto. unfold cexp, fexp, FLT_exp in E.
  assert (mag radix2 x <= 0)%Z as M by (apply mag_le_bpow; auto; rewrite Rabs_pos_eq by lra; cbn; lra).
  assert (bpow radix2 (Z.max (mag radix2 x - 53) (-1074)) <= bpow radix2 (-53)) as BB by (apply bpow_le; lia).
  assert (bpow radix2 (-53) = 2 * bpow radix2 (-54)) as D by (change (-53)%Z with (1 + -54)%Z; rewrite bpow_plus; reflexivity).
  lra.
Qed.

(** Different shares of at most [2^52] stay different. *)
Lemma shares_differ : forall a b m, (0 <= a < b)%Z -> (b <= m)%Z -> (m <= 2 ^ 52)%Z -> rnd (IZR a / IZR m) < rnd (IZR b / IZR m).
Proof.
  intros a b m A B M. assert (0 < IZR m) as PM by (apply IZR_lt; lia).
  assert (forall z, (0 <= z <= m)%Z -> 0 <= IZR z / IZR m <= 1) as U.
  { intros z Z. assert (0 <= IZR z <= IZR m) by (split; apply IZR_le; lia). split.
    - apply Rmult_le_pos; [lra|]. apply Rlt_le, Rinv_0_lt_compat. auto.
    - apply (Rmult_le_reg_r (IZR m)); auto. unfold Rdiv. rewrite Rmult_assoc, Rinv_l by lra. lra. }
  pose proof (unit_error _ (U a ltac:(lia))) as EA. pose proof (unit_error _ (U b ltac:(lia))) as EB.
  apply Rabs_le_inv in EA. apply Rabs_le_inv in EB.
  assert (bpow radix2 (-52) <= IZR b / IZR m - IZR a / IZR m) as G.
  { apply (Rmult_le_reg_r (IZR m)); auto. replace ((IZR b / IZR m - IZR a / IZR m) * IZR m) with (IZR b - IZR a) by (field; lra).
    rewrite <- minus_IZR. apply Rle_trans with 1; [|apply IZR_le; lia].
    apply Rle_trans with (bpow radix2 (-52) * IZR (2 ^ 52)); [apply Rmult_le_compat_l; [apply bpow_ge_0|apply IZR_le; auto]|].
    change (2 ^ 52)%Z with (Zpower radix2 52). rewrite IZR_Zpower by lia. rewrite <- bpow_plus. apply Rle_refl. }
  assert (bpow radix2 (-52) = 4 * bpow radix2 (-54)) as E by (change (-52)%Z with (2 + -54)%Z; rewrite bpow_plus; reflexivity).
  pose proof (bpow_gt_0 radix2 (-54)). lra.
Qed.

(** ** Properties *)

(** C163.  The weights are in [0,1]; they compare as the numbers of points in the cylinders do; a point alone in its cylinder
    gets 0, a point with the fullest cylinder 1 (unless all are alone). *)
Theorem float_member_weights : forall norm radius len rows, rows <> [] -> (Z.of_nat (length rows) <= 2 ^ 52)%Z ->
  (forall p, In p rows -> in_cylinder norm radius len p p) ->
  exists w, f_member_weigh norm radius len rows = Ok w /\ length w = length rows /\
    (forall c, In c w -> unit64 c) /\
    (forall i p c n, nth_error rows i = Some p -> nth_error w i = Some c -> counted (in_cylinder norm radius len p) rows n ->
      (1 <= n)%nat /\ (c = 0 <-> n = 1%nat) /\
      ((1 < n)%nat -> (forall q k, In q rows -> counted (in_cylinder norm radius len q) rows k -> (k <= n)%nat) -> c = 1) /\
      forall j q d k, nth_error rows j = Some q -> nth_error w j = Some d -> counted (in_cylinder norm radius len q) rows k ->
        (c < d <-> (n < k)%nat) /\ (c = d <-> n = k)).
Proof.
  intros norm radius len rows NE LB OWN.
  set (cnt := f_member_count norm radius len rows).
  assert (forall p, In p rows -> (1 <= cnt p)%nat /\ (Z.of_nat (cnt p) <= 2 ^ 52)%Z) as CB.
  { intros p I. pose proof (count_spec norm radius len rows p) as C. split.
    - eapply counted_pos; eauto.
    - apply counted_le in C. fold cnt in C. lia. }
  assert (forall p n, counted (in_cylinder norm radius len p) rows n -> n = cnt p) as CF.
  { intros p n C. eapply counted_fun; [exact C|apply count_spec]. }
  set (raw := map (fun p => IZR (Z.of_nat (cnt p) - 1)) rows).
  assert (exists m, (0 <= m <= 2 ^ 52)%Z /\ (forall p, In p rows -> (Z.of_nat (cnt p) - 1 <= m)%Z) /\
    (exists p, In p rows /\ m = (Z.of_nat (cnt p) - 1)%Z) /\
    f_normalize raw = if Z.eqb m 0 then Ok raw else mapM (fun y => f_div y (IZR m)) raw) as [m [MB [MU [[pm [PM PME]] ME]]]].
  { destruct rows as [|p0 rows']; [contradiction|]. unfold raw. cbn [map f_normalize].
    set (x0 := IZR (Z.of_nat (cnt p0) - 1)). set (rr := map (fun p => IZR (Z.of_nat (cnt p) - 1)) rows').
    destruct (fold_max_spec rr x0) as [FA FB].
    assert (exists p, In p (p0 :: rows') /\ fold_left Rmax rr x0 = IZR (Z.of_nat (cnt p) - 1)) as [p [I E]].
    { destruct FB as [<-|FB]; [exists p0; split; [left; auto|reflexivity]|]. apply in_map_iff in FB. destruct FB as [p [E I]].
      exists p. split; [right; auto|]. symmetry. exact E. }
    exists (Z.of_nat (cnt p) - 1)%Z. destruct (CB p I) as [C1 C2]. split; [lia|]. split; [|split; [exists p; auto|]].
    - intros q Q. apply le_IZR. rewrite <- E. apply FA. destruct Q as [->|Q]; [left; reflexivity|right]. unfold rr.
      change (IZR (Z.of_nat (cnt q) - 1)) with ((fun p => IZR (Z.of_nat (cnt p) - 1)) q). apply in_map. auto.
    - rewrite E. destruct (Z.eqb_spec (Z.of_nat (cnt p) - 1) 0) as [->|N].
      + rewrite Reqb_refl. reflexivity.
      + rewrite Reqb_false by (intros Q; apply N, eq_IZR; exact Q). reflexivity. }
  set (val := fun p => if Z.eqb m 0 then 0 else rnd (IZR (Z.of_nat (cnt p) - 1) / IZR m)).
  assert (f_member_weigh norm radius len rows = Ok (map val rows)) as EW.
  { unfold f_member_weigh. change (f_normalize raw = Ok (map val rows)). rewrite ME. unfold val, raw. destruct (Z.eqb_spec m 0) as [->|N].
    - f_equal. apply map_ext_in. intros p I. destruct (CB p I). specialize (MU p I). replace (Z.of_nat (cnt p) - 1)%Z with 0%Z by lia. reflexivity.
    - clear -N. clearbody cnt. induction rows as [|p l IH]; [reflexivity|]. cbn [map mapM]. rewrite IH. unfold f_div at 1.
      rewrite Reqb_false by (intros Q; apply N, eq_IZR; exact Q). reflexivity. }
  assert (forall p q, In p rows -> In q rows -> (cnt p < cnt q)%nat -> val p < val q) as LT.
  { intros p q P Q C. destruct (CB p P). destruct (CB q Q). pose proof (MU q Q). unfold val.
    destruct (Z.eqb_spec m 0) as [->|N]; [lia|]. apply shares_differ; lia. }
  assert (forall p, In p rows -> (Z.of_nat (cnt p) - 1 = m)%Z -> (1 < cnt p)%nat -> val p = 1) as ONE.
  { intros p P E C. unfold val. destruct (Z.eqb_spec m 0) as [->|N]; [lia|]. rewrite E.
    replace (IZR m / IZR m) with 1 by (field; intros Q; apply N, eq_IZR; exact Q). apply rnd_exact, format_1. }
  assert (forall p, cnt p = 1%nat -> val p = 0) as ZERO.
  { intros p E. unfold val. destruct (Z.eqb m 0); [reflexivity|]. rewrite E. change (Z.of_nat 1 - 1)%Z with 0%Z.
    unfold Rdiv. rewrite Rmult_0_l. apply rnd_exact, format_0. }
  assert (forall p, In p rows -> unit64 (val p)) as UN.
  { intros p P. unfold val. destruct (Z.eqb_spec m 0) as [->|N]; [split; [apply format_0|lra]|]. apply rnd_unit.
    destruct (CB p P). pose proof (MU p P). assert (0 < IZR m) as Q by (apply IZR_lt; lia).
    assert (0 <= IZR (Z.of_nat (cnt p) - 1) <= IZR m) by (split; apply IZR_le; lia). split.
    - apply Rmult_le_pos; [lra|]. apply Rlt_le, Rinv_0_lt_compat. auto.
    - apply (Rmult_le_reg_r (IZR m)); auto. unfold Rdiv. rewrite Rmult_assoc, Rinv_l by lra. lra. }
  exists (map val rows). split; [exact EW|]. split; [apply map_length|]. split.
  { intros c C. apply in_map_iff in C. destruct C as [p [<- I]]. auto. }
  intros i p c n HP HC HN. rewrite nth_error_map, HP in HC. injection HC as <-. rewrite (CF p n HN). apply nth_error_In in HP.
  destruct (CB p HP) as [C1 C2]. split; [exact C1|]. split; [|split].
  - split; [|apply ZERO]. intros V. destruct (Nat.eq_dec (cnt p) 1) as [|NQ]; auto. exfalso. revert V. unfold val.
    pose proof (MU p HP). destruct (Z.eqb_spec m 0) as [->|N]; [lia|]. intros V.
    pose proof (shares_differ 0 (Z.of_nat (cnt p) - 1) m ltac:(lia) ltac:(lia) ltac:(lia)) as S. rewrite V in S.
    unfold Rdiv in S at 1. rewrite Rmult_0_l, (rnd_exact 0 format_0) in S. lra.
  - intros G MX. apply ONE; auto. pose proof (MU p HP). specialize (MX pm (cnt pm) PM (count_spec _ _ _ _ _)). lia.
  - intros j q d k HQ HD HK. rewrite nth_error_map, HQ in HD. injection HD as <-. rewrite (CF q k HK). apply nth_error_In in HQ.
    assert (cnt p = cnt q -> val p = val q) as EQ by (intros E; unfold val; rewrite E; reflexivity).
    pose proof (LT p q HP HQ). pose proof (LT q p HQ HP).
    destruct (lt_eq_lt_dec (cnt p) (cnt q)) as [[X|X]|X]; split; split; intros Y; auto; try lia; exfalso;
      try (specialize (EQ X)); try (specialize (H X)); try (specialize (H0 X)); lra.
Qed.
Print Assumptions float_member_weights.

(** Three points, two of which are neighbours. *)
Example float_member_meets :
  let norm := fun v : list R => fold_right (fun x m => Rmax (Rabs x) m) 0 v in
  let rows := [[10; 50; 6]; [10; 50; 6]; [10; 90; 7]] in
  (forall p, In p rows -> in_cylinder norm 1 (1 / 2) p p) /\ counted (in_cylinder norm 1 (1 / 2) [10; 50; 6]) rows 2 /\
  counted (in_cylinder norm 1 (1 / 2) [10; 90; 7]) rows 1.
Proof.
  cbv zeta.
  assert (forall k, (Z.abs k < 2 ^ 53)%Z -> rnd (IZR k) = IZR k) as RI by (intros; apply rnd_exact, format_int; auto).
  assert (Rmax (Rabs 0) (Rmax (Rabs 0) 0) = 0) as M0 by (rewrite Rabs_R0, (Rmax_left 0 0), (Rmax_left 0 0); lra).
  assert (forall p, In p [[10; 50; 6]; [10; 50; 6]; [10; 90; 7]] ->
    in_cylinder (fun v : list R => fold_right (fun x m => Rmax (Rabs x) m) 0 v) 1 (1 / 2) p p) as OWN.
  { intros p I. unfold in_cylinder. destruct I as [<-|[<-|[<-|[]]]]; cbn [last removelast combine map fold_right fst snd];
      rewrite !Rminus_eq_0, !(RI 0%Z) by reflexivity; rewrite M0, Rabs_R0; lra. }
  assert (forall a b, a <> b -> (a = [10; 50; 6] /\ b = [10; 90; 7]) \/ (b = [10; 50; 6] /\ a = [10; 90; 7]) ->
    ~ in_cylinder (fun v : list R => fold_right (fun x m => Rmax (Rabs x) m) 0 v) 1 (1 / 2) a b) as FAR.
  { intros a b _ H [A _]. destruct H as [[-> ->]|[-> ->]]; cbn [last] in A.
    - replace (7 - 6) with 1 in A by lra. rewrite (RI 1%Z), Rabs_R1 in A by reflexivity. lra.
    - replace (6 - 7) with (-1) in A by lra. rewrite (RI (-1)%Z) in A by reflexivity. rewrite Rabs_left in A; lra. }
  assert ([10; 50; 6] <> [10; 90; 7]) as D by (intros Q; injection Q; intros; lra).
  split; [exact OWN|]. split.
  - apply counted_yes; [apply OWN; left; auto|]. apply counted_yes; [apply OWN; left; auto|]. apply counted_no; [apply FAR; auto|constructor].
  - apply counted_no; [apply FAR; auto|]. apply counted_no; [apply FAR; auto|]. apply counted_yes; [apply OWN; right; right; left; auto|constructor].
Qed.
