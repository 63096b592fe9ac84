(** * Interpolated time stamps with binary64 arithmetic: model and properties

    [FillLocalImputator._interpolate_datetime] (imputator.py 190-206).  Time stamps are whole numbers of microseconds.  The
    quotient [mu] rounds to the nearest binary64 number, ties to even; [mu * timedelta] is the product of that number with
    the microseconds, rounded to whole microseconds, ties to even (datetime.timedelta). *)

From Coq Require Import List Bool Arith ZArith Reals Lra Lia.
From Flocq Require Import Core.
From Verif Require Import Py Num ListX DataModel ImputModel ImputProps FloatMod FloatUnit FloatSteps FloatMember.
Import ListNotations.
Open Scope R_scope.

Local Instance valid_exp_ft : Valid_exp fexp.
Proof. apply FLT_exp_valid. reflexivity. Qed.

(** [last_dt + mu * (dt - last_dt)] with [mu = k / n].  imputator.py 202-203. *)
Definition f_stamp (ld dt : Z) (k n : nat) : Z :=
  (ld + ZnearestE (rnd (INR k / INR n) * IZR (dt - ld)))%Z.

(** The loop [for j in range(last_i + 1, i)].  imputator.py 201-204. *)
Definition f_fill_times (out : list (option Z)) (li : nat) (ld : Z) (i : nat) (dt : Z) : list (option Z) :=
  fold_left (fun o j => set_nth o j (Some (f_stamp ld dt (j - li) (i - li)))) (seq (S li) (i - S li)) out.

(** [_interpolate_datetime].  imputator.py 190-206; see [interp_loop] in ImputModel.v. *)
Fixpoint f_interp_loop (max_diff : Z) (rest : list (option Z)) (i : nat) (last : option (Z * nat)) (out : list (option Z))
  : list (option Z) :=
  match rest with
  | [] => out
  | None :: r => f_interp_loop max_diff r (S i) last out
  | Some dt :: r =>
      match last with
      | None => f_interp_loop max_diff r (S i) (Some (dt, i)) out
      | Some (ld, li) =>
          if (max_diff <? Z.abs (dt - ld))%Z then f_interp_loop max_diff r (S i) last out
          else f_interp_loop max_diff r (S i) (Some (dt, i)) (f_fill_times out li ld i dt)
      end
  end.
Definition f_interp_times (max_diff : Z) (ts : list (option Z)) : list (option Z) := f_interp_loop max_diff ts 0 None ts.

(** ** Specification *)

(** [x] is between the stamps [ta] of row [a] and [tb] of row [b], less than a microsecond from the line through them. *)
Definition near_segment (a b : nat) (ta tb : Z) (j : nat) (x : Z) : Prop :=
  (ta <= x <= tb)%Z /\
  Rabs (IZR x - (IZR ta + IZR (tb - ta) * (INR (j - a) / INR (b - a)))) < 1.

(** ** Proofs *)

Lemma mu_range : forall k n, (k <= n)%nat -> (0 < n)%nat -> 0 <= INR k / INR n <= 1.
Proof.
  intros k n L P. assert (0 < INR n) as N by (apply lt_0_INR; auto). assert (0 <= INR k <= INR n) by (split; [apply pos_INR|apply le_INR; auto]).
  split; [apply Rmult_le_pos; [lra|apply Rlt_le, Rinv_0_lt_compat; auto]|].
  apply (Rmult_le_reg_r (INR n)); auto. unfold Rdiv. rewrite Rmult_assoc, Rinv_l by lra. lra.
Qed.

Lemma stamp_between : forall ld dt k n, (k <= n)%nat -> (0 < n)%nat -> (ld <= dt)%Z -> (ld <= f_stamp ld dt k n <= dt)%Z.
Proof.
  intros ld dt k n K N D. destruct (rnd_unit _ (mu_range k n K N)) as [_ M].
  assert (0 <= IZR (dt - ld)) as DP by (apply IZR_le; lia). unfold f_stamp.
  assert (0 <= ZnearestE (rnd (INR k / INR n) * IZR (dt - ld)))%Z.
  { rewrite <- (Zrnd_IZR ZnearestE 0). apply Zrnd_le; auto with typeclass_instances. apply Rmult_le_pos; lra. }
  assert (ZnearestE (rnd (INR k / INR n) * IZR (dt - ld)) <= dt - ld)%Z.
  { rewrite <- (Zrnd_IZR ZnearestE (dt - ld)) at 2. apply Zrnd_le; auto with typeclass_instances. nra. }
  lia.
Qed.

Lemma stamp_mono : forall ld dt k k' n, (k <= k')%nat -> (0 < n)%nat -> (ld <= dt)%Z -> (f_stamp ld dt k n <= f_stamp ld dt k' n)%Z.
Proof.
  intros ld dt k k' n K N D. unfold f_stamp. apply Zplus_le_compat_l. apply Zrnd_le; auto with typeclass_instances.
  apply Rmult_le_compat_r; [apply IZR_le; lia|]. apply rnd_mono. apply Rmult_le_compat_r; [apply Rlt_le, Rinv_0_lt_compat, lt_0_INR; auto|].
  apply le_INR. auto.
Qed.

Lemma stamp_error : forall ld dt k n, (k <= n)%nat -> (0 < n)%nat -> (Z.abs (dt - ld) < 2 ^ 53)%Z ->
  Rabs (IZR (f_stamp ld dt k n) - (IZR ld + IZR (dt - ld) * (INR k / INR n))) < 1.
Proof.
  intros ld dt k n K N D. pose proof (unit_error _ (mu_range k n K N)) as E.
  unfold f_stamp. rewrite plus_IZR. set (mu := rnd (INR k / INR n)) in *. set (d := IZR (dt - ld)).
  pose proof (Znearest_half (fun z => negb (Z.even z)) (mu * d)) as H.
  assert (Rabs d < bpow radix2 53) as DB.
  { unfold d. rewrite <- abs_IZR. change (bpow radix2 53) with (IZR (2 ^ 53)). apply IZR_lt. auto. }
  assert (Rabs ((mu - INR k / INR n) * d) < / 2) as F.
  { rewrite Rabs_mult. apply Rle_lt_trans with (bpow radix2 (-54) * Rabs d); [apply Rmult_le_compat_r; [apply Rabs_pos|auto]|].
    apply Rlt_le_trans with (bpow radix2 (-54) * bpow radix2 53); [apply Rmult_lt_compat_l; [apply bpow_gt_0|auto]|].
    rewrite <- bpow_plus. cbn. lra. }
  replace (IZR ld + IZR (ZnearestE (mu * d)) - (IZR ld + d * (INR k / INR n)))
    with (- (mu * d - IZR (ZnearestE (mu * d))) + (mu - INR k / INR n) * d) by ring.
  eapply Rle_lt_trans; [apply Rabs_triang|]. rewrite Rabs_Ropp. lra.
Qed.

Lemma fill_spec : forall out li ld i dt, (li < i)%nat ->
  length (f_fill_times out li ld i dt) = length out /\
  (forall j, ~ (li < j < i)%nat -> nth_error (f_fill_times out li ld i dt) j = nth_error out j) /\
  (forall j, (li < j < i)%nat -> (j < length out)%nat ->
     nth_error (f_fill_times out li ld i dt) j = Some (Some (f_stamp ld dt (j - li) (i - li)))).
Proof.
  intros out li ld i dt Hi. unfold f_fill_times.
  destruct (fold_set_nth (fun j => Some (f_stamp ld dt (j - li) (i - li))) (i - S li) (S li) out) as [L H].
  split; auto. split.
  - intros j Hj. rewrite H. destruct (Nat.leb_spec (S li) j), (Nat.ltb_spec j (S li + (i - S li))); simpl; auto; lia.
  - intros j Hj HL. rewrite H. destruct (Nat.leb_spec (S li) j), (Nat.ltb_spec j (S li + (i - S li))), (Nat.ltb_spec j (length out)); try lia.
    simpl. reflexivity.
Qed.

(** State of the loop before row [i]. *)
Definition f_inv (mx : Z) (ts : list (option Z)) (i : nat) (last : option (Z * nat)) (out : list (option Z)) : Prop :=
  length out = length ts /\
  (forall j, (i <= j)%nat -> nth_error out j = nth_error ts j) /\
  (forall j t, nth_error ts j = Some (Some t) -> nth_error out j = Some (Some t)) /\
  (forall j x, nth_error ts j = Some None -> nth_error out j = Some (Some x) ->
     exists a b ta tb, neighbours ts a b ta tb /\ (a < j < b)%nat /\ (tb - ta <= mx)%Z /\ x = f_stamp ta tb (j - a) (b - a)) /\
  (forall a b ta tb j, neighbours ts a b ta tb -> (b < i)%nat -> (a < j < b)%nat ->
     (forall p q tp tq, neighbours ts p q tp tq -> (q <= b)%nat -> (tq - tp <= mx)%Z) ->
     nth_error out j = Some (Some (f_stamp ta tb (j - a) (b - a)))) /\
  match last with
  | None => forall j, (j < i)%nat -> nth_error ts j = Some None
  | Some (ld, li) =>
      (li < i)%nat /\ nth_error ts li = Some (Some ld) /\
      ((forall j, (li < j < i)%nat -> nth_error ts j = Some None) \/
       exists q tq, (q < i)%nat /\ neighbours ts li q ld tq /\ (mx < tq - ld)%Z)
  end.

Open Scope nat_scope.

Lemma f_loop_inv : forall mx ts, chronological ts -> forall rest i last out,
  rest = skipn i ts -> i + length rest = length ts -> f_inv mx ts i last out ->
  exists last', f_inv mx ts (length ts) last' (f_interp_loop mx rest i last out).
Proof.
  intros mx ts CH. induction rest as [|o rest IH]; intros i last out HS HL INV; cbn [f_interp_loop].
  - simpl in HL. rewrite Nat.add_0_r in HL. subst. eauto.
  - assert (rest = skipn (S i) ts) as HS'.
    { change (skipn (S i) ts) with (skipn 1 ts) || idtac.
      clear - HS. revert i HS. induction ts as [|t ts IH]; intros [|i] HS; simpl in *; try discriminate.
      - injection HS as _ ->. auto.
      - apply IH; auto. }
    assert (nth_error ts i = Some o) as Hi.
    { clear - HS. revert i HS. induction ts as [|t ts IH]; intros [|i] HS; simpl in *; try discriminate.
      - injection HS as -> _. auto.
      - apply IH; auto. }
    assert (S i + length rest = length ts) as HL' by (simpl in HL; lia).
    destruct INV as [V1 [V2 [V3 [V4 [V5 V6]]]]].
    destruct o as [dt|].
    + destruct last as [[ld li]|].
      * destruct V6 as [U1 [U2 U3]].
        destruct (mx <? Z.abs (dt - ld))%Z eqn:EM.
        -- (* too far *)
           assert (ld <= dt)%Z as Hc by (apply (CH li i ld dt); auto; lia).
           apply Z.ltb_lt in EM. rewrite Z.abs_eq in EM by lia.
           apply IH; auto.
           assert (exists q tq, q < S i /\ neighbours ts li q ld tq /\ (mx < tq - ld)%Z) as BQ.
           { destruct U3 as [U3|[q [tq [Q1 [Q2 Q3]]]]].
             - exists i, dt. split; [lia|]. split; [|lia]. repeat split; auto.
             - exists q, tq. split; [lia|]. auto. }
           repeat split; auto; try (intros; apply V2; lia).
           intros a b ta tb j Hn Hb Hj HP. destruct (Nat.eq_dec b i) as [->|Hbi].
           ++ destruct BQ as [q [tq [Q1 [Q2 Q3]]]]. specialize (HP li q ld tq Q2 ltac:(lia)). lia.
           ++ apply (V5 a b ta tb j Hn ltac:(lia) Hj HP).
        -- (* close *)
           apply Z.ltb_ge in EM. assert (ld <= dt)%Z as Hc by (apply (CH li i ld dt); auto; lia).
           rewrite Z.abs_eq in EM by lia.
           destruct U3 as [U3|[q [tq [Q1 [Q2 Q3]]]]].
           2:{ exfalso. assert (tq <= dt)%Z; [|lia]. apply (CH q i); auto; [lia|apply Q2]. }
           destruct (fill_spec out li ld i dt U1) as [F1 [F2 F3]].
           assert (neighbours ts li i ld dt) as HN by (repeat split; auto).
           apply IH; auto. split; [congruence|]. split; [|split; [|split; [|split]]].
           ++ intros j Hj. rewrite F2 by lia. apply V2. lia.
           ++ intros j t Hj. assert (~ li < j < i) as HO.
              { intros HO. rewrite U3 in Hj by lia. discriminate. }
              rewrite F2; auto.
           ++ intros j x Hj Hx. assert (li < j < i \/ ~ li < j < i) as [HO|HO] by lia.
              ** exists li, i, ld, dt. split; auto. split; auto. split; auto.
                 rewrite (F3 j HO) in Hx by (rewrite V1; apply nth_error_Some; congruence). congruence.
              ** rewrite F2 in Hx by auto. apply (V4 j x); auto.
           ++ intros a b ta tb j Hn Hb Hj HP. destruct (Nat.eq_dec b i) as [->|Hbi].
              ** destruct (neighbours_prev ts a i ta tb li ld Hn U1 U2 U3) as [-> ->].
                 assert (tb = dt) as -> by (destruct Hn as [_ [_ [Hn _]]]; congruence).
                 apply F3; auto. rewrite V1. apply nth_error_Some. rewrite U3 by lia. discriminate.
              ** rewrite F2. { apply (V5 a b ta tb j Hn); auto. lia. }
                 intros HO. assert (b <= li).
                 { destruct (Nat.le_gt_cases b li); auto. exfalso.
                   assert (nth_error ts b = Some None) by (apply U3; lia).
                   destruct Hn as [_ [_ [Hn _]]]. congruence. }
                 lia.
           ++ split; [lia|]. split; auto. left. intros j Hj. lia.
      * (* first known stamp *)
        apply IH; auto. repeat split; auto; try (intros; apply V2; lia).
        -- intros a b ta tb j Hn Hb Hj HP. exfalso. destruct Hn as [N1 [N2 _]].
           rewrite V6 in N2 by lia. discriminate.
        -- left. intros j Hj. lia.
    + apply IH; auto. repeat split; auto; try (intros; apply V2; lia).
      * intros a b ta tb j Hn Hb Hj HP. assert (b <> i).
        { intros ->. destruct Hn as [_ [_ [Hn _]]]. congruence. }
        apply (V5 a b ta tb j Hn); auto. lia.
      * destruct last as [[ld li]|].
        -- destruct V6 as [U1 [U2 U3]]. split; [lia|]. split; auto. destruct U3 as [U3|[q [tq [Q1 [Q2 Q3]]]]].
           ++ left. intros j Hj. destruct (Nat.eq_dec j i) as [->|]; auto. apply U3. lia.
           ++ right. exists q, tq. split; [lia|]. auto.
        -- intros j Hj. destruct (Nat.eq_dec j i) as [->|]; auto. apply V6. lia.
Qed.


Close Scope nat_scope.

(** ** Properties *)

(** C164.  With floating point numbers the interpolated time stamps stay between the known ones, less than a microsecond from
    the line through them, and in order. *)
Theorem float_times : forall mx ts, chronological ts -> (mx < 2 ^ 53)%Z ->
  length (f_interp_times mx ts) = length ts /\
  (forall j t, nth_error ts j = Some (Some t) -> nth_error (f_interp_times mx ts) j = Some (Some t)) /\
  (forall j x, nth_error ts j = Some None -> nth_error (f_interp_times mx ts) j = Some (Some x) ->
     exists a b ta tb, neighbours ts a b ta tb /\ (a < j < b)%nat /\ (tb - ta <= mx)%Z /\ near_segment a b ta tb j x) /\
  (forall a b ta tb j, neighbours ts a b ta tb -> (a < j < b)%nat ->
     (forall p q tp tq, neighbours ts p q tp tq -> (q <= b)%nat -> (tq - tp <= mx)%Z) ->
     exists x, nth_error (f_interp_times mx ts) j = Some (Some x) /\ near_segment a b ta tb j x) /\
  chronological (f_interp_times mx ts).
Proof.
  intros mx ts CH MX. unfold f_interp_times.
  destruct (f_loop_inv mx ts CH ts 0 None ts) as [l [V1 [V2 [V3 [V4 [V5 _]]]]]]; auto.
  { split; [auto|]. split; [auto|]. split; [auto|]. split; [intros; congruence|]. split; intros; lia. }
  set (out := f_interp_loop mx ts 0 None ts) in *.
  assert (forall a b ta tb j, neighbours ts a b ta tb -> (a < j < b)%nat -> (tb - ta <= mx)%Z ->
    near_segment a b ta tb j (f_stamp ta tb (j - a) (b - a))) as NS.
  { intros a b ta tb j [N1 [N2 [N3 _]]] J D. pose proof (CH a b ta tb (Nat.lt_le_incl _ _ N1) N2 N3) as O. split; [apply stamp_between; lia|].
    apply stamp_error; lia. }
  split; [auto|]. split; [auto|]. split; [|split].
  - intros j x H1 H2. destruct (V4 j x H1 H2) as [a [b [ta [tb [N [J [D ->]]]]]]]. exists a, b, ta, tb. auto.
  - intros a b ta tb j N J P. eexists. split; [apply (V5 a b ta tb j); auto|].
    + destruct N as [_ [_ [N _]]]. apply nth_error_Some. congruence.
    + apply NS; auto. apply (P a b ta tb N). lia.
  - assert (forall j x, nth_error out j = Some (Some x) -> nth_error ts j = Some (Some x) \/ nth_error ts j = Some None) as KN.
    { intros j x H. destruct (nth_error ts j) as [[t|]|] eqn:E; auto.
      - rewrite (V3 j t E) in H. left. congruence.
      - apply nth_error_None in E. assert (j < length out)%nat by (apply nth_error_Some; congruence). lia. }
    intros i j x y L X Y. destruct (Nat.eq_dec i j) as [->|NEQ]; [assert (x = y) by congruence; lia|]. destruct (KN i x X) as [KX|KX], (KN j y Y) as [KY|KY].
    + apply (CH i j); auto.
    + destruct (V4 j y KY Y) as [a [b [ta [tb [[N1 [N2 [N3 N4]]] [J [D ->]]]]]]].
      pose proof (CH a b ta tb (Nat.lt_le_incl _ _ N1) N2 N3). pose proof (stamp_between ta tb (j - a) (b - a) ltac:(lia) ltac:(lia) ltac:(lia)).
      destruct (Nat.eq_dec i a) as [->|NE]; [assert (ta = x) by congruence; lia|].
      assert (i < a)%nat as IA by (destruct (lt_dec a i); [rewrite N4 in KX by lia; discriminate|lia]).
      pose proof (CH i a x ta (Nat.lt_le_incl _ _ IA) KX N2). lia.
    + destruct (V4 i x KX X) as [a [b [ta [tb [[N1 [N2 [N3 N4]]] [J [D ->]]]]]]].
      pose proof (CH a b ta tb (Nat.lt_le_incl _ _ N1) N2 N3). pose proof (stamp_between ta tb (i - a) (b - a) ltac:(lia) ltac:(lia) ltac:(lia)).
      destruct (Nat.eq_dec j b) as [->|NE]; [assert (tb = y) by congruence; lia|].
      assert (b < j)%nat as IB by (destruct (lt_dec j b); [rewrite N4 in KY by lia; discriminate|lia]).
      pose proof (CH b j tb y (Nat.lt_le_incl _ _ IB) N3 KY). lia.
    + destruct (V4 i x KX X) as [a [b [ta [tb [[N1 [N2 [N3 N4]]] [J [D ->]]]]]]].
      destruct (V4 j y KY Y) as [a' [b' [ta' [tb' [[M1 [M2 [M3 M4]]] [J' [D' ->]]]]]]].
      pose proof (CH a b ta tb (Nat.lt_le_incl _ _ N1) N2 N3). pose proof (CH a' b' ta' tb' (Nat.lt_le_incl _ _ M1) M2 M3).
      pose proof (stamp_between ta tb (i - a) (b - a) ltac:(lia) ltac:(lia) ltac:(lia)).
      pose proof (stamp_between ta' tb' (j - a') (b' - a') ltac:(lia) ltac:(lia) ltac:(lia)).
      destruct (lt_dec j b) as [JB|JB].
      * assert (a' = a) as ->.
        { destruct (Nat.lt_trichotomy a a') as [Q|[Q|Q]]; auto; [rewrite N4 in M2 by lia|rewrite M4 in N2 by lia]; discriminate. }
        assert (b' = b) as ->.
        { destruct (Nat.lt_trichotomy b b') as [Q|[Q|Q]]; auto; [rewrite M4 in N3 by lia|rewrite N4 in M3 by lia]; discriminate. }
        assert (ta' = ta) as -> by congruence. assert (tb' = tb) as -> by congruence. apply stamp_mono; lia.
      * assert (b <= a')%nat as BA.
        { destruct (le_lt_dec b a') as [|Q]; auto. assert (j <> b) by (intros ->; congruence). rewrite M4 in N3 by lia. discriminate. }
        destruct (Nat.eq_dec b a') as [->|NE]; [assert (tb = ta') by congruence; lia|].
        pose proof (CH b a' tb ta' ltac:(lia) N3 M2). lia.
Qed.
Print Assumptions float_times.

(** C164.  In whatever order the stamps are: the same rows are filled as with exact arithmetic ([interp_times]), and a filled
    stamp differs by at most one microsecond. *)
Definition close (a b : option Z) : Prop :=
  match a, b with None, None => True | Some x, Some y => (Z.abs (x - y) <= 1)%Z | _, _ => False end.

Lemma stamp_close : forall ld dt k n, (k <= n)%nat -> (0 < n)%nat -> (Z.abs (dt - ld) < 2 ^ 53)%Z ->
  (Z.abs (ld + round_div (Z.of_nat k * (dt - ld)) (Z.of_nat n) - f_stamp ld dt k n) <= 1)%Z.
Proof.
  intros ld dt k n K N D. pose proof (stamp_error ld dt k n K N D) as E.
  pose proof (round_div_spec (Z.of_nat k * (dt - ld)) (Z.of_nat n) ltac:(lia)) as Q.
  set (r := round_div _ _) in *. set (x := f_stamp ld dt k n) in *.
  assert (Rabs (IZR r - IZR (dt - ld) * (INR k / INR n)) <= / 2) as F.
  { assert (0 < INR n) as NP by (apply lt_0_INR; auto). apply (Rmult_le_reg_l (2 * INR n)); [lra|].
    rewrite <- (Rabs_pos_eq (2 * INR n)) at 1 by lra. rewrite <- Rabs_mult.
    replace (2 * INR n * (IZR r - IZR (dt - ld) * (INR k / INR n)))
      with (IZR (2 * (Z.of_nat n * r - Z.of_nat k * (dt - ld)))).
    - rewrite <- abs_IZR. replace (2 * INR n * / 2) with (INR n) by lra. rewrite INR_IZR_INZ. apply IZR_le. exact Q.
    - rewrite mult_IZR, minus_IZR, !mult_IZR, <- !INR_IZR_INZ. field. lra. }
  assert (Rabs (IZR (ld + r - x)) < 2) as G.
  { rewrite minus_IZR, plus_IZR. set (y := IZR (dt - ld) * (INR k / INR n)) in *.
    replace (IZR ld + IZR r - IZR x) with (IZR r - y - (IZR x - (IZR ld + y))) by ring.
    eapply Rle_lt_trans; [apply Rabs_triang|]. rewrite Rabs_Ropp. lra. }
  rewrite <- abs_IZR in G. apply lt_IZR in G. lia.
Qed.

Lemma set_close : forall i out out' a b, Forall2 close out out' -> close a b -> Forall2 close (set_nth out i a) (set_nth out' i b).
Proof.
  intros i out out' a b F C. revert i. induction F as [|x y o o' H F IH]; intros [|i]; cbn [set_nth]; constructor; auto.
Qed.

Lemma fill_close : forall li ld i dt out out', (Z.abs (dt - ld) < 2 ^ 53)%Z -> (li < i)%nat -> Forall2 close out out' ->
  Forall2 close (fill_times out li ld i dt) (f_fill_times out' li ld i dt).
Proof.
  intros li ld i dt out out' D L. unfold fill_times, f_fill_times.
  assert (forall j, In j (seq (S li) (i - S li)) -> (li < j < i)%nat) as B by (intros j J; apply in_seq in J; lia).
  revert B out out'. induction (seq (S li) (i - S li)) as [|j js IH]; intros B out out' F; cbn [fold_left]; auto.
  apply IH; [intros; apply B; right; auto|]. apply set_close; auto. pose proof (B j (or_introl eq_refl)). cbn [close]. apply stamp_close; lia.
Qed.

Theorem float_times_exact : forall mx ts, (mx < 2 ^ 53)%Z -> Forall2 close (interp_times mx ts) (f_interp_times mx ts).
Proof.
  intros mx ts M. unfold interp_times, f_interp_times.
  assert (forall rest i last out out', Forall2 close out out' -> (forall ld li, last = Some (ld, li) -> (li < i)%nat) ->
    Forall2 close (interp_loop mx rest i last out) (f_interp_loop mx rest i last out')) as G.
  { induction rest as [|[dt|] r IH]; intros i last out out' F B; cbn [interp_loop f_interp_loop]; auto.
    - destruct last as [[ld li]|].
      + destruct (Z.ltb_spec mx (Z.abs (dt - ld))).
        * apply IH; auto. intros d l E. specialize (B d l E). lia.
        * apply IH; [apply fill_close; auto; [lia|apply (B ld li); auto]|]. intros d l E. injection E as _ <-. lia.
      + apply IH; auto. intros d l E. injection E as _ <-. lia.
    - apply IH; auto. intros d l E. specialize (B d l E). lia. }
  apply G; [|discriminate]. induction ts as [|[t|] l IH]; constructor; auto; cbn; lia.
Qed.
Print Assumptions float_times_exact.

(** C164, refuted part: the stamps are not the nearest ones in the sense of exact arithmetic.  Over five missing rows between 0
    and 9 microseconds the first one gets 1, since 1/6 is rounded down; half of a microsecond is otherwise rounded to 2. *)
Theorem float_times_nearest_refuted :
  let ts := [Some 0; None; None; None; None; None; Some 9]%Z in
  nth_error (f_interp_times 9 ts) 1 = Some (Some 1%Z) /\ nth_error (interp_times 9 ts) 1 = Some (Some 2%Z).
Proof.
  cbv zeta. split; [|vm_compute; reflexivity].
  unfold f_interp_times. cbn [f_interp_loop]. change (9 <? Z.abs (9 - 0))%Z with false. cbn iota.
  destruct (fill_spec [Some 0; None; None; None; None; None; Some 9]%Z 0 0 6 9 ltac:(lia)) as [_ [_ F]].
  rewrite (F 1%nat) by (cbn; lia). do 2 f_equal. unfold f_stamp. change (6 - 0)%nat with 6%nat. change (1 - 0)%nat with 1%nat.
  assert (rnd (INR 1 / INR 6) = IZR 6004799503160661 * bpow radix2 (-55)) as ->.
  { replace (INR 1) with 1 by (simpl; lra). replace (INR 6) with 6 by (simpl; lra).
    apply rnd_to; [lia|small_bpow; lra|apply Rabs_def1; small_bpow; lra]. }
  change (9 - 0)%Z with 9%Z. rewrite (Znearest_imp _ _ 1); [reflexivity|]. apply Rabs_def1; small_bpow; lra.
Qed.
Print Assumptions float_times_nearest_refuted.

Example float_times_meets : chronological [Some 0; None; None; Some 10; None; Some 1000]%Z /\
  neighbours [Some 0; None; None; Some 10; None; Some 1000]%Z 0 3 0 10.
Proof.
  split.
  - intros i j x y L X Y. destruct i as [|[|[|[|[|[|i]]]]]]; cbn in X; try discriminate; try (destruct i; discriminate); injection X as <-;
      destruct j as [|[|[|[|[|[|j]]]]]]; cbn in Y; try discriminate; try (destruct j; discriminate); injection Y as <-; lia.
  - split; [lia|]. split; [reflexivity|]. split; [reflexivity|]. intros k K. destruct k as [|[|[|k]]]; try lia; reflexivity.
Qed.
