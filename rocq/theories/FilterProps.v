(** * Properties of the filters (C43, C44) *)

From Coq Require Import List Bool Arith ZArith QArith Reals Lra Lia Permutation Sorted.
From Verif Require Import Py Num PySort ListX FilterModel.
Import ListNotations.
Open Scope R_scope.

(** The number of removed points. *)
Definition removed (f : list bool) : nat := length (filter negb f).

(* ------------------------------------------------------------------ *)

Lemma Rsorted : forall l : list R, StronglySorted Rle (py_sorted nleb l).
Proof.
  intros l.
  assert (StronglySorted (fun x y : R => nleb x y = true) (py_sorted nleb l)) as S.
  { apply py_sorted_sorted; rnum; intros.
    - destruct (Rleb_spec x y); auto. right. apply Rleb_true. lra.
    - apply Rleb_le in H, H0. apply Rleb_true. lra. }
  induction S; constructor; auto. rewrite Forall_forall in *. intros x Hx. apply H in Hx. rnum. apply Rleb_le. auto.
Qed.

Lemma sorted_le : forall l i j, StronglySorted Rle l -> (i <= j)%nat -> (j < length l)%nat -> nth i l 0 <= nth j l 0.
Proof.
  intros l i j S. revert i j. induction S as [|x l S IH F]; intros i j L J; simpl in *; [lia|].
  destruct j as [|j]; [replace i with 0%nat by lia; lra|]. destruct i as [|i].
  - rewrite Forall_forall in F. apply F. apply nth_In. lia.
  - apply IH; lia.
Qed.

Lemma Int_part_bounds : forall h, 0 <= h -> INR (Z.to_nat (Int_part h)) <= h < INR (Z.to_nat (Int_part h)) + 1.
Proof.
  intros h H. destruct (base_Int_part h) as [B1 B2].
  assert (0 <= Int_part h)%Z by (apply Z.lt_succ_r, lt_IZR; rewrite succ_IZR; lra).
  rewrite INR_IZR_INZ, Z2Nat.id by auto. lra.
Qed.

(** The rank of the percentile. *)
Definition rank (percent : R) (n : nat) : R := percent / 100 * INR (n - 1).

(** The percentile lies between the entries around its rank. *)
Lemma percentile_between : forall (l : list R) percent, l <> [] -> 0 <= percent <= 100 ->
  let s := py_sorted nleb l in let q := percentile l percent in let h := rank percent (length l) in
  exists lo, (lo < length l)%nat /\ INR lo <= h < INR lo + 1 /\ nth lo s 0 <= q /\
    (INR lo = h -> q = nth lo s 0) /\
    ((S lo < length l)%nat -> q <= nth (S lo) s 0 /\
       (INR lo < h -> nth lo s 0 < nth (S lo) s 0 -> nth lo s 0 < q)) /\
    ((S lo = length l)%nat -> INR lo = h).
Proof.
  intros l percent NE P s q h.
  assert (1 <= length l)%nat as L by (destruct l; simpl; [contradiction|lia]).
  assert (length s = length l) as LS by apply py_sorted_length.
  assert (0 <= h) as H0. { unfold h, rank. apply Rmult_le_pos; [lra|apply pos_INR]. }
  assert (h <= INR (length l - 1)) as H1.
  { unfold h, rank. rewrite <- (Rmult_1_l (INR (length l - 1))) at 2. apply Rmult_le_compat_r; [apply pos_INR|lra]. }
  exists (Z.to_nat (Int_part h)). destruct (Int_part_bounds h H0) as [B1 B2].
  set (lo := Z.to_nat (Int_part h)) in *.
  assert (lo < length l)%nat as LO.
  { assert (INR lo <= INR (length l - 1)) as B by lra. apply INR_le in B. lia. }
  assert (q = nth lo s 0 + (h - INR lo) * (nth (Nat.min (S lo) (length l - 1)) s 0 - nth lo s 0)) as Eq.
  { unfold q, percentile. rnum. rewrite <- INR_IZR_INZ. fold (rank percent (length l)). fold h. fold lo.
    rewrite <- INR_IZR_INZ. reflexivity. }
  assert (nth lo s 0 <= nth (Nat.min (S lo) (length l - 1)) s 0) as M.
  { apply sorted_le; [apply Rsorted|lia|lia]. }
  split; auto. split; [lra|]. split; [rewrite Eq; nra|]. split.
  - intros E. rewrite Eq, <- E. lra.
  - split.
    + intros L2. rewrite Nat.min_l in Eq, M by lia. split; [rewrite Eq; nra|].
      intros. rewrite Eq. nra.
    + intros L2. replace (length l - 1)%nat with lo in H1 by lia. lra.
Qed.

Lemma percentile_le_max : forall (l : list R) percent, l <> [] -> 0 <= percent <= 100 ->
  exists w, In w l /\ percentile l percent <= w.
Proof.
  intros l percent NE P. destruct (percentile_between l percent NE P) as [lo [L [B [A1 [A2 [A3 A4]]]]]].
  assert (forall i, (i < length l)%nat -> In (nth i (py_sorted nleb l) 0) l) as I.
  { intros i Hi. apply (py_sorted_In nleb l). apply nth_In. rewrite py_sorted_length. auto. }
  destruct (Nat.eq_dec (S lo) (length l)) as [E|N].
  - exists (nth lo (py_sorted nleb l) 0). split; auto. rewrite A2 by auto. lra.
  - exists (nth (S lo) (py_sorted nleb l) 0). split; [apply I; lia|]. apply A3. lia.
Qed.

Lemma quantile_map : forall percent (w : weights R), wlist w <> [] ->
  quantile_filter percent w = map (fun x => Rleb (percentile (wlist w) percent) x) (wlist w).
Proof. intros percent w H. unfold quantile_filter. destruct (wlist w); [contradiction|reflexivity]. Qed.

(** ** C43 *)

(** Every point gets an answer, at least one point is kept, and a point that is at least
    as heavy as a kept one is kept. *)
Theorem quantile_keeps_heaviest : forall percent (w : weights R), 0 <= percent <= 100 ->
  let l := wlist w in let f := quantile_filter percent w in
  length f = length l /\ (l <> [] -> In true f) /\
  forall i j x y, nth_error l i = Some x -> nth_error l j = Some y -> nth_error f i = Some true -> x <= y ->
    nth_error f j = Some true.
Proof.
  intros percent w P l f. unfold l, f in *. assert (wlist w = [] \/ wlist w <> []) as [E|NE] by (destruct (wlist w); [left; auto|right; discriminate]).
  - unfold quantile_filter. rewrite E. split; auto. split; [contradiction|]. intros [|i] j x y H; discriminate.
  - rewrite quantile_map by auto. split; [apply map_length|]. split.
    + intros _. destruct (percentile_le_max (wlist w) percent NE P) as [x [I L]].
      apply in_map_iff. exists x. split; auto. apply Rleb_true. auto.
    + intros i j x y Hx Hy. rewrite !nth_error_map, Hx, Hy. simpl. intros E L. injection E as E.
      apply Rleb_le in E. rewrite Rleb_true by lra. auto.
Qed.
Print Assumptions quantile_keeps_heaviest.

Lemma removed_sorted : forall percent (w : weights R), wlist w <> [] ->
  removed (quantile_filter percent w) =
  length (filter (fun x => negb (Rleb (percentile (wlist w) percent) x)) (py_sorted nleb (wlist w))).
Proof.
  intros percent w NE. rewrite quantile_map by auto. unfold removed.
  generalize (percentile (wlist w) percent). intros q.
  assert (forall l l' : list R, Permutation l l' ->
    length (filter (fun x => negb (Rleb q x)) l) = length (filter (fun x => negb (Rleb q x)) l')) as PL.
  { induction 1; simpl; auto; repeat (destruct (negb _); simpl); auto; lia. }
  rewrite (PL _ _ (py_sorted_perm nleb (wlist w))).
  clear NE. induction (wlist w) as [|x r IH]; simpl; auto. destruct (negb (Rleb q x)); simpl; rewrite ?IH; auto.
Qed.

(** Partial: the number of removed points exceeds [percent] per cent of [n - 1] by less
    than one, and not at all if this is a whole number. *)
Theorem quantile_removes_partial : forall percent (w : weights R), 0 <= percent <= 100 ->
  let n := length (wlist w) in let k := removed (quantile_filter percent w) in
  n <> 0%nat ->
  INR k < percent / 100 * INR (n - 1) + 1 /\
  (forall m : nat, percent / 100 * INR (n - 1) = INR m -> INR k <= percent / 100 * INR n).
Proof.
  intros percent w P n k N0.
  assert (wlist w <> []) as NE by (intros E; unfold n in N0; rewrite E in N0; apply N0; auto).
  unfold k. rewrite removed_sorted by auto.
  destruct (percentile_between (wlist w) percent NE P) as [lo [L [B [A1 [A2 [A3 A4]]]]]].
  set (s := py_sorted nleb (wlist w)) in *. set (q := percentile (wlist w) percent) in *.
  assert (length s = n) as LS by apply py_sorted_length. fold n in L, B, A2, A3, A4. fold (rank percent n).
  assert (forall m, (forall i, (m <= i < n)%nat -> q <= nth i s 0) ->
            (length (filter (fun x => negb (Rleb q x)) s) <= m)%nat) as C.
  { intros m H. rewrite <- (firstn_skipn m s), filter_app, app_length.
    rewrite (filter_nil _ _ (skipn m s)).
    - assert (forall (p : R -> bool) l, (length (filter p l) <= length l)%nat) as FL.
      { induction l; simpl; auto. destruct (p a); simpl; lia. }
      eapply Nat.le_trans; [apply Nat.add_le_mono_r, FL|]. rewrite firstn_length. simpl. lia.
    - intros x Hx. apply In_nth_error in Hx. destruct Hx as [i Hi]. rewrite nth_error_skipn in Hi.
      assert (m + i < length s)%nat as J by (apply nth_error_Some; congruence).
      rewrite Rleb_true; auto. apply nth_error_nth with (d := 0) in Hi. rewrite <- Hi. apply H. lia. }
  assert (forall i j, (i <= j)%nat -> (j < n)%nat -> nth i s 0 <= nth j s 0) as MON.
  { intros i j I J. apply sorted_le; [apply Rsorted|auto|lia]. }
  assert (INR lo = rank percent n -> (length (filter (fun x => negb (Rleb q x)) s) <= lo)%nat) as C1.
  { intros E. apply C. intros i I. rewrite A2 by auto. apply MON; lia. }
  assert ((length (filter (fun x => negb (Rleb q x)) s) <= S lo)%nat) as C2.
  { apply C. intros i I. apply Rle_trans with (nth (S lo) s 0); [apply A3; lia|apply MON; lia]. }
  split.
  - destruct (Req_dec (INR lo) (rank percent n)) as [E|NEQ].
    + specialize (C1 E). apply le_INR in C1. unfold rank in *. lra.
    + apply le_INR in C2. rewrite S_INR in C2. unfold rank in *. lra.
  - intros m E. unfold rank in *.
    assert (lo = m) as ->.
    { rewrite E in B. assert (lo < S m)%nat by (apply INR_lt; rewrite S_INR; lra).
      assert (m < S lo)%nat by (apply INR_lt; rewrite S_INR; lra). lia. }
    specialize (C1 (eq_sym E)). apply le_INR in C1. rewrite <- E in C1. eapply Rle_trans; [apply C1|].
    apply Rmult_le_compat_l; [lra|]. apply le_INR. lia.
Qed.
Print Assumptions quantile_removes_partial.

(** Among different weights at least that many points are removed. *)
Theorem quantile_removes_enough : forall percent (w : weights R), 0 <= percent <= 100 ->
  let n := length (wlist w) in let k := removed (quantile_filter percent w) in
  n <> 0%nat -> NoDup (wlist w) -> percent / 100 * INR (n - 1) <= INR k.
Proof.
  intros percent w P n k N0 ND.
  assert (wlist w <> []) as NE by (intros E; unfold n in N0; rewrite E in N0; apply N0; auto).
  unfold k. rewrite removed_sorted by auto.
  destruct (percentile_between (wlist w) percent NE P) as [lo [L [B [A1 [A2 [A3 A4]]]]]].
  set (s := py_sorted nleb (wlist w)) in *. set (q := percentile (wlist w) percent) in *.
  assert (length s = n) as LS by apply py_sorted_length. fold n in L, B, A2, A3, A4. fold (rank percent n).
  assert (NoDup s) as NDs by (eapply Permutation_NoDup; [apply Permutation_sym, py_sorted_perm|auto]).
  assert (forall i j, (i < j)%nat -> (j < n)%nat -> nth i s 0 < nth j s 0) as MON.
  { intros i j I J. assert (nth i s 0 <= nth j s 0) as M by (apply sorted_le; [apply Rsorted|lia|lia]).
    destruct (Req_dec (nth i s 0) (nth j s 0)) as [E|NEQ]; [|lra].
    exfalso. apply NoDup_nth in E; auto; lia. }
  assert (forall m, (m <= n)%nat -> (forall i, (i < m)%nat -> nth i s 0 < q) ->
            (m <= length (filter (fun x => negb (Rleb q x)) s))%nat) as C.
  { intros m M H. rewrite <- (firstn_skipn m s), filter_app, app_length.
    rewrite (filter_all _ _ (firstn m s)); [rewrite firstn_length; lia|].
    intros x Hx. apply In_nth_error in Hx. destruct Hx as [i Hi].
    assert (i < length (firstn m s))%nat as J by (apply nth_error_Some; congruence).
    rewrite firstn_length in J. rewrite Rleb_false; auto.
    rewrite <- (firstn_skipn m s) in H. assert (i < m)%nat as IM by lia. specialize (H i IM).
    rewrite app_nth1 in H by (rewrite firstn_length; lia).
    apply nth_error_nth with (d := 0) in Hi. rewrite Hi in H. auto. }
  destruct (Req_dec (INR lo) (rank percent n)) as [E|NEQ].
  - rewrite <- E. apply le_INR. apply C; [lia|]. intros i I. rewrite A2 by auto. apply MON; lia.
  - assert (S lo < n)%nat as LT by (destruct (Nat.eq_dec (S lo) n) as [E|]; [exfalso; apply NEQ, A4; auto|lia]).
    apply Rle_trans with (INR (S lo)); [rewrite S_INR; lra|]. apply le_INR. apply C; [lia|].
    intros i I. apply Rle_lt_trans with (nth lo s 0).
    + destruct (Nat.eq_dec i lo) as [->|]; [lra|]. apply Rlt_le, MON; lia.
    + apply A3; [lia|lra|apply MON; lia].
Qed.
Print Assumptions quantile_removes_enough.

Example quantile_case : quantile_filter 50%Q (WArray [4; 1; 3; 2; 5]%Q) = [true; false; true; false; true].
Proof. reflexivity. Qed.

(** Ten per cent of three points: one third of them is removed. *)
Theorem quantile_removes_refuted : exists percent (w : weights Q),
  (0 <= percent <= 100)%Q /\
  (percent / 100 * inject_Z (Z.of_nat (length (wlist w))) <
   inject_Z (Z.of_nat (removed (quantile_filter percent w))))%Q.
Proof. exists 10%Q, (WArray [1; 2; 3]%Q). split; [split; vm_compute; discriminate|]. vm_compute. reflexivity. Qed.
Print Assumptions quantile_removes_refuted.

Theorem quantile_rejects : forall percent : R,
  (quantile_new percent = Ok percent <-> 0 <= percent <= 100) /\
  (~ 0 <= percent <= 100 -> quantile_new percent = Raise ValueError).
Proof.
  intros percent. unfold quantile_new. rnum.
  destruct (Rltb_spec percent 0), (Rltb_spec 100 percent); simpl; split; try split; intros; try discriminate; auto; lra.
Qed.
Print Assumptions quantile_rejects.

(* ------------------------------------------------------------------ *)
(** ** C44 *)

Theorem bound_filter_exact : forall lower upper (l : list R) b, bound_new lower upper = Ok b ->
  exists f, bound_filter b (WArray l) = Ok f /\ length f = length l /\
    forall i w, nth_error l i = Some w -> exists k, nth_error f i = Some k /\ (k = true <-> lower <= w <= upper).
Proof.
  intros lower upper l b E. unfold bound_new in E. rnum. destruct (Rltb upper lower); [discriminate|].
  injection E as <-. simpl. eexists. split; [reflexivity|]. split; [apply map_length|].
  intros i w H. rewrite nth_error_map, H. simpl. eexists. split; [reflexivity|].
  rewrite andb_true_iff, !Rleb_le. tauto.
Qed.
Print Assumptions bound_filter_exact.

Theorem bound_rejects : forall lower upper : R,
  (upper < lower -> bound_new lower upper = Raise ValueError) /\
  (lower <= upper -> bound_new lower upper = Ok (lower, upper)).
Proof.
  intros lower upper. unfold bound_new. rnum. destruct (Rltb_spec upper lower); split; intros; auto; lra.
Qed.
Print Assumptions bound_rejects.

Example bound_filter_case :
  bound_new (1 # 2)%Q 1%Q = Ok (1 # 2, 1)%Q /\
  bound_filter (1 # 2, 1)%Q (WArray [0; 1 # 2; 3 # 4; 1; 2]%Q) = Ok [false; true; true; true; false].
Proof. split; reflexivity. Qed.

(** Weights that come as a list, as those of the [FluctuationWeigher], raise TypeError. *)
Theorem bound_filter_list_refuted : exists (b : R * R) l, bound_new (fst b) (snd b) = Ok b /\
  bound_filter b (WList l) = Raise TypeError.
Proof. exists (0, 1), [1]. split; [|reflexivity]. apply bound_rejects. simpl. lra. Qed.
Print Assumptions bound_filter_list_refuted.

(** The statistics count the removed and the kept points. *)
Theorem filter_statistics_counts : forall f,
  filter_statistics f = (removed f, count_occ bool_dec f true).
Proof.
  intros f. unfold filter_statistics, removed. f_equal.
  assert (length (filter negb f) + count_occ bool_dec f true = length f)%nat; [|lia].
  induction f as [|b f IH]; simpl; auto. destruct b; simpl; [|lia].
  destruct (bool_dec true true); [lia|contradiction].
Qed.
Print Assumptions filter_statistics_counts.
