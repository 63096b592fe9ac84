(** * Properties of the injector (C57) *)

From Coq Require Import List Bool Arith ZArith Reals QArith Lra Lia.
From Verif Require Import Py Num ListX BaseModel BaseProps InjectModel.
Import ListNotations.
Open Scope R_scope.

(** [lo] and [hi] are the smallest and the largest wind speed of the rows. *)
Definition speed_range (rows : list (R * R * R)) (lo hi : R) : Prop :=
  (exists r, In r rows /\ fst (fst r) = lo) /\ (exists r, In r rows /\ fst (fst r) = hi) /\
  forall r, In r rows -> lo <= fst (fst r) <= hi.

Lemma range_of : forall rows, rows <> [] -> exists lo hi,
  nminimum (map (fun r : R * R * R => fst (fst r)) rows) = Ok lo /\
  nmaximum (map (fun r : R * R * R => fst (fst r)) rows) = Ok hi /\ speed_range rows lo hi.
Proof.
  intros rows NE. destruct rows as [|r0 rows]; [congruence|].
  destruct (nminimum (map (fun r : R * R * R => fst (fst r)) (r0 :: rows))) as [lo|e] eqn:E1; [|discriminate].
  destruct (nmaximum (map (fun r : R * R * R => fst (fst r)) (r0 :: rows))) as [hi|e] eqn:E2; [|discriminate].
  exists lo, hi. split; auto. split; auto.
  apply nminimum_spec in E1. apply nmaximum_spec in E2. destruct E1 as [A1 A2], E2 as [B1 B2].
  apply in_map_iff in A1, B1. destruct A1 as [a [A1 A3]], B1 as [b [B1 B3]].
  split; [exists a; auto|]. split; [exists b; auto|]. intros r Hr. split; [apply A2|apply B2]; apply in_map_iff; exists r; auto.
Qed.

(** C57: the injected points. *)
Theorem zeros_injected : forall n_zeros rows, rows <> [] -> (0 <= n_zeros)%Z ->
  exists pts weights lo hi, zero_inject n_zeros (InjRows rows) = Ok (pts, weights, (2 * n_zeros)%Z) /\
    speed_range rows lo hi /\
    Z.of_nat (length pts) = (2 * n_zeros)%Z /\ length weights = length pts /\
    (forall w, In w weights -> w = 1) /\
    (forall i, (i < Z.to_nat n_zeros)%nat -> exists w,
       nth_error pts i = Some (w, 0, 0) /\ nth_error pts (Z.to_nat n_zeros + i) = Some (w, 360, 0) /\
       (if (Z.to_nat n_zeros =? 1)%nat then w = lo else w = lo + INR i * ((hi - lo) / INR (Z.to_nat n_zeros - 1)))).
Proof.
  intros n_zeros rows NE HN. destruct (range_of rows NE) as [lo [hi [E1 [E2 RG]]]].
  unfold zero_inject. rewrite E1, E2. cbn [rbind]. rewrite (proj2 (Z.ltb_ge n_zeros 0) HN). rnum.
  eexists _, _, lo, hi. split; [reflexivity|]. split; auto.
  rewrite app_length, !map_length, linspace_length, repeat_length.
  split; [lia|]. split; [lia|]. split; [intros w Hw; eapply repeat_spec; eauto|].
  set (n := Z.to_nat n_zeros). intros i Hi.
  assert (exists w, nth_error (linspace lo hi n) i = Some w /\
     (if (n =? 1)%nat then w = lo else w = lo + INR i * ((hi - lo) / INR (n - 1)))) as [w [W1 W2]].
  { destruct (Nat.eqb_spec n 1) as [->|N1].
    - exists lo. split; auto. assert (i = 0)%nat as -> by lia. reflexivity.
    - eexists. split; [apply linspace_nth; lia|]. reflexivity. }
  exists w. split; [|split; [|auto]].
  - rewrite nth_error_app1 by (rewrite map_length, linspace_length; auto).
    apply (map_nth_error (fun w => (w, 0, 0))) in W1. exact W1.
  - rewrite nth_error_app2 by (rewrite map_length, linspace_length; lia). rewrite map_length, linspace_length.
    replace (n + i - n)%nat with i by lia. apply (map_nth_error (fun w => (w, 360, 0))) in W1. exact W1.
Qed.
Print Assumptions zeros_injected.

(** C57: data without rows, of another shape or no array is refused. *)
Theorem zeros_refused : forall n_zeros,
  @zero_inject R _ n_zeros InjOther = Raise TypeError /\ @zero_inject R _ n_zeros InjShape = Raise ValueError /\
  @zero_inject R _ n_zeros (InjRows []) = Raise ValueError.
Proof. auto. Qed.
Print Assumptions zeros_refused.

Example zeros_injected_meets :
  match zero_inject 3 (InjRows [(8, 45, 5); (4, 90, 6); (6, 30, 2)]%Q) with
  | Ok (pts, weights, 6%Z) =>
      length pts = 6%nat /\ length weights = 6%nat /\
      forallb (fun ab => match ab with ((a, b, c), (a', b', c')) => Qeq_bool a a' && Qeq_bool b b' && Qeq_bool c c' end)
        (combine pts [(4, 0, 0); (6, 0, 0); (8, 0, 0); (4, 360, 0); (6, 360, 0); (8, 360, 0)]%Q) = true
  | _ => False
  end.
Proof. vm_compute. auto. Qed.
