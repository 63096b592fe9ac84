(** * The value of Shepard interpolation (C39) *)

From Coq Require Import List Bool Arith ZArith Reals Lra Lia.
From Verif Require Import Py Num ListX NhoodModel NhoodSpec InterpModel InterpSpec InterpProofs.
Import ListNotations.
Open Scope R_scope.

(* ------------------------------------------------------------------ *)
(** ** What the property says *)

Section Spec.
  (** [n] points; point [i] has wind speed [x i], wind angle [y i], boat speed [z i] and
      distance [d i] from the query ([gx], [gy]).  [dd i j] is the distance of the
      points [i] and [j], [near i j] says that point [j] is in the neighbourhood of
      point [i]. *)
  Variable n : nat.
  Variables x y z d : nat -> R.
  Variables gx gy : R.
  Variable dd : nat -> nat -> R.
  Variable near : nat -> nat -> bool.

  (** Sum over all points, over all points but [i], over the neighbours of [i]. *)
  Definition total (f : nat -> R) : R := Rsum (map f (seq 0 n)).
  Definition total_but (i : nat) (f : nat -> R) : R :=
    Rsum (map f (filter (fun j => negb (j =? i)) (seq 0 n))).
  Definition total_near (i : nat) (f : nat -> R) : R :=
    Rsum (map f (filter (fun j => negb (j =? i) && near i j) (seq 0 n))).

  (** Shepard's weight for the distance [d i] if [r] is the largest distance. *)
  Definition base (r : R) (i : nat) : R :=
    if Rle_dec (d i) (r / 3) then 1 / d i else 27 / (4 * r) * (d i / r - 1) ^ 2.

  (** The direction term as the code computes it (its second factor uses the wind speed
      of point [j] where the angle is meant). *)
  Definition turn (i j : nat) : R :=
    ((gx - x i) * (gx - x j) + (gy - y i) * (gy - x j)) / (d i * d j).

  Definition weight (r : R) (i : nat) : R :=
    base r i ^ 2 * (1 + total_but i (fun j => base r j * (1 - turn i j)) / total (base r)).

  (** Slope of the boat speed at point [i] along the coordinate [c]. *)
  Definition slope_at (w : nat -> R) (c : nat -> R) (i : nat) : R :=
    total_near i (fun j => w j * (z j - z i) * (c j - c i) / (dd i j) ^ 2) / total_near i w.

  Definition largest (f : nat -> R) (m : R) : Prop :=
    (exists i, (i < n)%nat /\ f i = m) /\ forall i, (i < n)%nat -> f i <= m.
  Definition smallest (f : nat -> R) (m : R) : Prop :=
    (exists i, (i < n)%nat /\ f i = m) /\ forall i, (i < n)%nat -> m <= f i.

  (** [v] is the weighted mean of the boat speeds, each corrected along its slope. *)
  Definition shepard_value (slope v : R) : Prop :=
    exists r hi lo steep,
      let w := weight r in
      let dx := slope_at w x in
      let dy := slope_at w y in
      let scale := slope * (hi - lo) / sqrt steep in
      largest d r /\ largest z hi /\ smallest z lo /\ largest (fun i => dx i ^ 2 + dy i ^ 2) steep /\
      v = total (fun i => w i * (z i + (dx i * (gx - x i) + dy i * (gy - y i)) * (scale / (scale + d i))))
          / total w.
End Spec.

(* ------------------------------------------------------------------ *)
(** ** Lists over indices *)

Lemma combine_map2 : forall A B C (f : A -> B) (g : A -> C) l,
  combine (map f l) (map g l) = map (fun i => (f i, g i)) l.
Proof. induction l; simpl; congruence. Qed.

Lemma np_delete_map : forall A B (f : A -> B) l i, np_delete (map f l) i = map f (np_delete l i).
Proof. intros. unfold np_delete. rewrite map_app, <- firstn_map, <- skipn_map. reflexivity. Qed.

Lemma np_delete_seq : forall n i, (i < n)%nat ->
  np_delete (seq 0 n) i = filter (fun j => negb (j =? i)) (seq 0 n).
Proof.
  intros n i L. unfold np_delete. replace n with (i + S (n - S i))%nat at 1 2 3 by lia.
  rewrite seq_app. simpl (0 + i)%nat. cbn [seq].
  rewrite firstn_app, skipn_app, seq_length, Nat.sub_diag. replace (S i - i)%nat with 1%nat by lia.
  rewrite (firstn_all2 (seq 0 i)) by (rewrite seq_length; lia).
  rewrite (skipn_all2 (seq 0 i)) by (rewrite seq_length; lia).
  cbn [firstn skipn app]. rewrite app_nil_r, filter_app. cbn [filter]. rewrite Nat.eqb_refl. cbn [negb].
  assert (forall a m, ((a + m <= i) \/ (i < a))%nat -> filter (fun j => negb (j =? i)) (seq a m) = seq a m) as F.
  { clear. intros a m. revert a. induction m as [|m IH]; intros a H; cbn [seq filter]; auto.
    destruct (Nat.eqb_spec a i); [lia|]. cbn [negb]. rewrite IH; auto. lia. }
  rewrite !F by lia. reflexivity.
Qed.

Lemma mask_map : forall A B (f : A -> B) (p : A -> bool) l,
  mask_list (map f l) (map p l) = map f (filter p l).
Proof. induction l as [|a l IH]; simpl; auto. destruct (p a); simpl; congruence. Qed.

Lemma filter_filter : forall A (p q : A -> bool) l, filter p (filter q l) = filter (fun a => q a && p a) l.
Proof.
  induction l as [|a l IH]; simpl; auto. destruct (q a); simpl; auto. destruct (p a); rewrite IH; auto.
Qed.

Lemma as_indices : forall (l : list (pt3 R)) dflt, l = map (fun i => nth i l dflt) (seq 0 (length l)).
Proof.
  intros l dflt. apply nth_ext with dflt dflt.
  - rewrite map_length, seq_length. auto.
  - intros i L. rewrite (nth_indep (map _ _) dflt (nth 0 l dflt)) by (rewrite map_length, seq_length; auto).
    rewrite (map_nth (fun j => nth j l dflt)), seq_nth by auto. reflexivity.
Qed.

Lemma enumerate_map_seq : forall A (f : nat -> A) n,
  enumerate (map f (seq 0 n)) = map (fun i => (i, f i)) (seq 0 n).
Proof.
  intros A f n. unfold enumerate. rewrite map_length, seq_length.
  rewrite <- (map_id (seq 0 n)) at 1. apply combine_map2.
Qed.

Lemma mapM_div_ok : forall A (f g : A -> R) l r, mapM (fun a => np_div (f a) (g a)) l = Ok r ->
  r = map (fun a => f a / g a) l.
Proof.
  induction l as [|a l IH]; cbn [mapM]; intros r E; [inversion E; auto|].
  unfold np_div in E at 1. rnum. destruct (Reqb (g a) 0); cbn [rbind] in E; [discriminate|].
  destruct (mapM (fun a => np_div (f a) (g a)) l) as [ys|]; cbn [rbind] in E; [|discriminate].
  inversion E. simpl. f_equal. auto.
Qed.

Lemma np_div_inv : forall a b v : R, np_div a b = Ok v -> v = a / b.
Proof. intros a b v E. unfold np_div in E. rnum. destruct (Reqb b 0); inversion E; auto. Qed.

Lemma largest_spec : forall n (f : nat -> R) m, nmaximum (map f (seq 0 n)) = Ok m -> largest n f m.
Proof.
  intros n f m E. apply nmaximum_spec in E. destruct E as [I U]. split.
  - apply in_map_iff in I. destruct I as [i [Ei I]]. apply in_seq in I. exists i. split; [lia|auto].
  - intros i L. apply U. apply in_map_iff. exists i. split; auto. apply in_seq. lia.
Qed.
Lemma smallest_spec : forall n (f : nat -> R) m, nminimum (map f (seq 0 n)) = Ok m -> smallest n f m.
Proof.
  intros n f m E. apply nminimum_spec in E. destruct E as [I U]. split.
  - apply in_map_iff in I. destruct I as [i [Ei I]]. apply in_seq in I. exists i. split; [lia|auto].
  - intros i L. apply U. apply in_map_iff. exists i. split; auto. apply in_seq. lia.
Qed.

Lemma mapM_inv : forall A B (f : A -> result B) (g : A -> B) l r, mapM f l = Ok r ->
  (forall a v, In a l -> f a = Ok v -> v = g a) -> r = map g l.
Proof.
  induction l as [|a l IH]; cbn [mapM]; intros r E G; [inversion E; auto|].
  destruct (f a) as [v|] eqn:F; cbn [rbind] in E; [|discriminate].
  destruct (mapM f l) as [ys|]; cbn [rbind] in E; [|discriminate]. inversion E. simpl. f_equal.
  - apply G; simpl; auto.
  - apply IH; auto. intros b w I W. apply G; simpl; auto.
Qed.

Lemma mapM_map : forall A B C (f : B -> result C) (g : A -> B) l, mapM f (map g l) = mapM (fun a => f (g a)) l.
Proof. induction l as [|a l IH]; cbn [mapM map]; auto. rewrite IH. auto. Qed.

(* ------------------------------------------------------------------ *)
(** ** The interpolator computes this value *)

Section Value.
  Variable norm : R * R -> R.
  Variable norm_all : list (R * R) -> result (list R).
  Hypothesis RW : rowwise norm norm_all.
  Variable nhood : list (pt3 R) -> result (list bool).
  Variable inside : pt3 R -> bool.
  Hypothesis NH : forall l, nhood l = Ok (map inside l).
  Variable norm3 : list (pt3 R) -> result (list R).
  Variable len : pt3 R -> R.
  Hypothesis N3 : forall l, norm3 l = Ok (map len l).
  Variable pts : list (pt3 R).
  Variable g : R * R.
  Variables tol slope : R.
  Hypothesis TOL : 0 < tol.
  Hypothesis FAR : forall p, In p pts -> tol <= dist_to norm g p.

  Let n := length pts.
  Let P i := nth i pts (0, 0, 0).
  Let x i := pws (P i).
  Let y i := pwa (P i).
  Let z i := pbs (P i).
  Let d i := dist_to norm g (P i).
  Let dd i j := len (sub3 (P j) (P i)).
  Let near i j := inside (sub3 (P j) (P i)).
  Let I := seq 0 n.

  Lemma pts_P : pts = map P I.
  Proof. apply as_indices. Qed.

  Lemma enum_I : forall A (f : nat -> A), enumerate (map f I) = map (fun i => (i, f i)) I.
  Proof. intros. apply enumerate_map_seq. Qed.

  Lemma enum_pts : enumerate pts = map (fun i => (i, P i)) I.
  Proof. rewrite <- enum_I. f_equal. apply pts_P. Qed.

  Lemma delete_I : forall i, (i < n)%nat -> np_delete I i = filter (fun j => negb (j =? i)) I.
  Proof. intros. apply np_delete_seq. auto. Qed.

  Lemma P_far : forall i, In i I -> tol <= d i.
  Proof. intros i H. apply in_seq in H. apply FAR, nth_In. unfold n in H. lia. Qed.

  Lemma weight_base : forall r i, largest n d r -> In i I -> shepard_weight r (d i) = base d r i.
  Proof.
    intros r i [_ U] H. pose proof (P_far i H) as F. apply in_seq in H. specialize (U i ltac:(lia)).
    unfold shepard_weight, base. rnum. rewrite Rltb_true by lra. cbn [andb].
    destruct (Rle_dec (d i) (r / 3)) as [L|L].
    - rewrite Rleb_true by auto. auto.
    - rewrite Rleb_false by lra. rewrite Rltb_true by lra. rewrite Rleb_true by auto. cbn [andb]. ring.
  Qed.

  Lemma include_value : forall r w, include_direction pts g (map d I) (map (base d r) I) = Ok w ->
    w = map (weight n x y d (fst g) (snd g) r) I.
  Proof.
    intros r w E. unfold include_direction in E.
    replace (combine (combine pts (map d I)) (map (base d r) I)) with (map (fun i => ((P i, d i), base d r i)) I) in E
      by (rewrite pts_P at 1; rewrite !combine_map2; auto).
    rewrite enum_I, mapM_map in E.
    apply (mapM_inv _ _ _ (weight n x y d (fst g) (snd g) r)) in E; auto. intros i v H F. clear E.
    assert (i < n)%nat as L by (apply in_seq in H; lia).
    match type of F with rbind ?m _ = _ => destruct m as [c|] eqn:C end; cbn [rbind] in F; [|discriminate].
    match type of F with rbind ?m _ = _ => destruct m as [t|] eqn:T end; cbn [rbind] in F; [|discriminate].
    inversion F as [F']. clear F F'. apply np_div_inv in T. unfold weight, total, total_but.
    rewrite pts_P in C at 1. rewrite !np_delete_map, !delete_I, combine_map2 in C by auto.
    rewrite mapM_map in C. unfold direction_term in C. rnum. apply mapM_div_ok in C. rewrite C in T.
    rewrite np_delete_map, delete_I, combine_map2, map_map in T by auto.
    rewrite !nsum_R in T. rewrite T. rnum. unfold turn. cbn [fst snd]. change (seq 0 n) with I. unfold x, y. ring.
  Qed.

  Lemma deriv_value : forall (w : nat -> R) sel i v, In i I ->
    let near_i := filter (fun j => negb (j =? i) && near i j) I in
    deriv sel (map P near_i) (P i) (map (fun j => dd i j) near_i) (map w near_i) = Some v ->
    v = slope_at n z dd near w (fun j => sel (P j)) i.
  Proof.
    intros w sel i v H near_i E. unfold deriv in E. rewrite !combine_map2 in E. rewrite mapM_map in E.
    match type of E with match rbind ?m _ with _ => _ end = _ => destruct m as [t|] eqn:T end; cbn [rbind] in E; [|discriminate].
    rnum. apply (mapM_div_ok _ (fun j => w j * (pbs (P j) - pbs (P i)) * (sel (P j) - sel (P i))) (fun j => dd i j * dd i j)) in T.
    destruct (np_div (nsum t) (nsum (map w near_i))) as [q|] eqn:Q; [|discriminate]. apply np_div_inv in Q.
    inversion E; subst. rewrite !nsum_R. unfold slope_at, total_near. fold I. fold near_i. f_equal.
    f_equal. apply map_ext. intros j. unfold z. simpl. rewrite Rmult_1_r. reflexivity.
  Qed.

  Definition cut (o : option R) : R := match o with Some v => v | None => 0 end.

  Lemma slope_value : forall (w : nat -> R) zd zs,
    I <> [] ->
    determine_slope sqrt nhood norm3 pts g (map d I) (map w I) slope = Ok zd ->
    mapM (fun o => match o with Some v => Ok v | None => Raise NonFinite end) zd = Ok zs ->
    exists hi lo steep, largest n z hi /\ smallest n z lo /\
      largest n (fun i => slope_at n z dd near w x i ^ 2 + slope_at n z dd near w y i ^ 2) steep /\
      let scale := slope * (hi - lo) / sqrt steep in
      zs = map (fun i => (slope_at n z dd near w x i * (fst g - x i) + slope_at n z dd near w y i * (snd g - y i)) *
                         (scale / (scale + d i))) I.
  Proof.
    intros w zd zs NE E ZS. unfold determine_slope in E.
    match type of E with rbind ?m _ = _ => destruct m as [der|] eqn:D end; cbn [rbind] in E; [|discriminate].
    destruct (nmaximum (map pbs pts)) as [hi|] eqn:HI; cbn [rbind] in E; [|discriminate].
    destruct (nminimum (map pbs pts)) as [lo|] eqn:LO; cbn [rbind] in E; [|discriminate].
    set (near_of i := filter (fun j => negb (j =? i) && near i j) I).
    set (D1 i := deriv pws (map P (near_of i)) (P i) (map (fun j => dd i j) (near_of i)) (map w (near_of i))).
    set (D2 i := deriv pwa (map P (near_of i)) (P i) (map (fun j => dd i j) (near_of i)) (map w (near_of i))).
    assert (der = map (fun i => (D1 i, D2 i)) I) as ->.
    { rewrite enum_pts, mapM_map in D.
      apply (mapM_inv _ _ _ _ _ _ D). intros i v H F.
      assert (i < n)%nat as L by (apply in_seq in H; lia).
      rewrite NH in F. cbn [rbind] in F. rewrite N3 in F. cbn [rbind] in F. inversion F as [F']. clear F F'.
      assert (np_delete pts i = map P (filter (fun j => negb (j =? i)) I)) as E1.
      { rewrite pts_P at 1. rewrite np_delete_map, delete_I by auto. auto. }
      assert (np_delete (map w I) i = map w (filter (fun j => negb (j =? i)) I)) as E2.
      { rewrite np_delete_map, delete_I by auto. auto. }
      rewrite E1, E2. rewrite !map_map. change (fun j => inside (sub3 (P j) (P i))) with (near i).
      rewrite !mask_map, !filter_filter, map_map. reflexivity. }
    clear D. replace (map pbs pts) with (map z I) in HI, LO by (rewrite pts_P at 1; rewrite map_map; auto).
    set (dim := match mapM (fun q => match q with (Some a, Some b) => Ok (a * a + b * b)%num | _ => Raise NonFinite end)
                           (map (fun i => (D1 i, D2 i)) I) with
      | Ok sq => match nmaximum sq with
                 | Ok m => match np_div (slope * (hi - lo))%num (sqrt m) with Ok v => Some v | Raise _ => None end
                 | Raise _ => None end
      | Raise _ => None end).
    assert (zd = map (fun q => let '((pt, e), xy) := q in
        match xy, dim with
        | (Some a, Some b), Some s =>
            match np_div s (s + e)%num with
            | Ok f => Some ((a * (fst g - pws pt) + b * (snd g - pwa pt)) * f)%num
            | Raise _ => None
            end
        | _, _ => None
        end) (combine (combine pts (map d I)) (map (fun i => (D1 i, D2 i)) I))) as -> by (inversion E; reflexivity).
    clear E.
    replace (combine (combine pts (map d I)) (map (fun i => (D1 i, D2 i)) I))
      with (map (fun i => ((P i, d i), (D1 i, D2 i))) I) in ZS by (rewrite pts_P at 1; rewrite !combine_map2; auto).
    rewrite map_map, mapM_map in ZS.
    assert (forall i, In i I -> exists a b s, D1 i = Some a /\ D2 i = Some b /\ dim = Some s) as SOME.
    { intros i H. apply In_nth_error in H. destruct H as [k Hk]. destruct (mapM_nth _ _ _ _ _ ZS _ _ Hk) as [v [_ V]].
      cbn beta iota in V. destruct (D1 i) as [a|]; [|discriminate]. destruct (D2 i) as [b|]; [|discriminate].
      destruct dim as [s|]; [|discriminate]. eauto 6. }
    assert (exists steep, largest n (fun i => slope_at n z dd near w x i ^ 2 + slope_at n z dd near w y i ^ 2) steep /\
              dim = Some (slope * (hi - lo) / sqrt steep)) as [steep [ST DIM]].
    { assert (exists i, In i I) as [i0 H0] by (destruct I as [|i l]; [contradiction|exists i; left; auto]).
      destruct (SOME i0 H0) as [_ [_ [s [_ [_ DS]]]]]. unfold dim in DS |- *.
      rewrite mapM_map in DS |- *.
      match type of DS with match ?m with _ => _ end = _ => destruct m as [sq|] eqn:SQ end; [|discriminate].
      assert (sq = map (fun i => slope_at n z dd near w x i ^ 2 + slope_at n z dd near w y i ^ 2) I) as ->.
      { apply (mapM_inv _ _ _ _ _ _ SQ). intros i v H F.
        destruct (D1 i) as [a|] eqn:A; [|discriminate]. destruct (D2 i) as [b|] eqn:B; [|discriminate].
        apply (deriv_value w pws i a H) in A. apply (deriv_value w pwa i b H) in B. inversion F. rnum.
        fold x in A. fold y in B. change (fun j => pws (P j)) with x in A. change (fun j => pwa (P j)) with y in B.
        rewrite <- A, <- B. ring. }
      destruct (nmaximum _) as [m|] eqn:M in DS; [|discriminate]. rewrite M.
      destruct (np_div (slope * (hi - lo))%num (sqrt m)) as [v|] eqn:V; [|discriminate].
      exists m. split; [apply largest_spec; exact M|]. apply np_div_inv in V. rnum. rewrite V. auto. }
    exists hi, lo, steep. split; [apply largest_spec; exact HI|]. split; [apply smallest_spec; exact LO|]. split; [exact ST|].
    cbn zeta. apply (mapM_inv _ _ _ _ _ _ ZS). intros i v H F.
    destruct (SOME i H) as [a [b [s [A [B S]]]]]. cbn beta iota in F. rewrite A, B, S in F.
    destruct (np_div s (s + d i)%num) as [f|] eqn:Q; [|discriminate]. apply np_div_inv in Q. rnum. inversion F.
    rewrite DIM in S. inversion S. subst s.
    apply (deriv_value w pws i a H) in A. apply (deriv_value w pwa i b H) in B.
    change (fun j => pws (P j)) with x in A. change (fun j => pwa (P j)) with y in B. rewrite <- A, <- B, Q. reflexivity.
  Qed.

  Lemma shepard_formula : forall v, shepard norm_all sqrt nhood norm3 tol slope pts g = Ok v ->
    shepard_value n x y z d (fst g) (snd g) dd near slope v.
  Proof.
    intros v E. unfold shepard in E. rewrite (distances_ok norm norm_all RW) in E. cbn [rbind] in E.
    rewrite at_zero_none in E by (intros p H; specialize (FAR p H); lra).
    assert (map (dist_to norm g) pts = map d I) as DI by (rewrite pts_P at 1; rewrite map_map; auto).
    rewrite DI in E. unfold set_weights in E.
    destruct (nmaximum (map d I)) as [r|] eqn:M; cbn [rbind] in E; [|discriminate].
    assert (largest n d r) as LR by (apply largest_spec; exact M).
    assert (map (shepard_weight r) (map d I) = map (base d r) I) as WB.
    { rewrite map_map. apply map_ext_in. intros i H. apply weight_base; auto. }
    rewrite WB in E.
    assert (within_tol tol (map d I) pts = None) as WT.
    { unfold within_tol. replace (combine (map d I) pts) with (map (fun i => (d i, P i)) I)
        by (rewrite pts_P at 1; rewrite combine_map2; auto).
      replace (filter _ (map (fun i => (d i, P i)) I)) with (@nil (R * pt3 R)); auto.
      symmetry. apply filter_nil. intros q H. apply in_map_iff in H. destruct H as [i [<- H]]. cbn [fst]. rnum.
      apply Rltb_false. apply P_far. auto. }
    rewrite WT in E.
    destruct (include_direction pts g (map d I) (map (base d r) I)) as [w|] eqn:ID.
    2: { match type of E with rbind ?m _ = _ => destruct m end; cbn [rbind] in E; discriminate. }
    apply include_value in ID. subst w. set (w := weight n x y d (fst g) (snd g) r) in *.
    match type of E with rbind ?m _ = _ => destruct m as [zd|] eqn:ZD end; cbn [rbind] in E; [|discriminate].
    destruct (normalise (map w I)) as [nw|] eqn:NW; cbn [rbind] in E; [|discriminate].
    match type of E with rbind ?m _ = _ => destruct m as [zs|] eqn:ZS end; cbn [rbind] in E; [|discriminate].
    assert (I <> []) as NE by (intros X; rewrite X in M; discriminate).
    destruct (slope_value w zd zs NE ZD ZS) as [hi [lo [steep [H1 [H2 [H3 H4]]]]]].
    exists r, hi, lo, steep. cbn zeta in H4 |- *. fold w. split; [exact LR|]. split; [exact H1|]. split; [exact H2|]. split; [exact H3|].
    unfold normalise in NW. rewrite mapM_map in NW. apply mapM_div_ok in NW. rewrite nsum_R in NW.
    inversion E as [V]. rewrite NW, H4. replace (map pbs pts) with (map z I) by (rewrite pts_P at 1; rewrite map_map; auto).
    rewrite combine_map2, map_map, dotp_map. cbn [fst snd]. unfold total. fold I. rnum.
    rewrite <- Rsum_div. apply Rsum_ext. intros i _. unfold Rdiv. ring.
  Qed.
End Value.

(** Away from the points the interpolator returns Shepard's weighted mean, with the
    direction term as it stands in the code.  Missing: when there is a value at all. *)
Theorem shepard_formula_partial : forall norm norm_all nhood inside norm3 len (pts : list (pt3 R)) g tol slope v,
  rowwise norm norm_all -> (forall l, nhood l = Ok (map inside l)) -> (forall l, norm3 l = Ok (map len l)) ->
  0 < tol -> (forall p, In p pts -> tol <= dist_to norm g p) ->
  shepard norm_all sqrt nhood norm3 tol slope pts g = Ok v ->
  let pt i := nth i pts (0, 0, 0) in
  let diff j i := (pws (pt j) - pws (pt i), pwa (pt j) - pwa (pt i), pbs (pt j) - pbs (pt i)) in
  shepard_value (length pts) (fun i => pws (pt i)) (fun i => pwa (pt i)) (fun i => pbs (pt i))
    (fun i => norm (pws (pt i) - fst g, pwa (pt i) - snd g)) (fst g) (snd g)
    (fun i j => len (diff j i)) (fun i j => inside (diff j i)) slope v.
Proof.
  intros norm norm_all nhood inside norm3 len pts g tol slope v RW NH N3 T F E.
  exact (shepard_formula norm norm_all RW nhood inside NH norm3 len N3 pts g tol slope T F v E).
Qed.
Print Assumptions shepard_formula_partial.

(** Within the tolerance it returns the mean of the points there, if anything. *)
Theorem shepard_tolerance_partial : forall norm norm_all nsqrt nhood norm3 (pts : list (pt3 R)) g tol slope v,
  rowwise norm norm_all -> (forall p, In p pts -> dist_to norm g p <> 0) ->
  (exists p, In p pts /\ dist_to norm g p < tol) ->
  shepard norm_all nsqrt nhood norm3 tol slope pts g = Ok v ->
  exists near, (exists keep, near = filter keep pts /\ forall p, keep p = true <-> dist_to norm g p < tol) /\
    v = Rsum (map pbs near) / INR (length near).
Proof.
  intros norm norm_all nsqrt nhood norm3 pts g tol slope v RW NZ [p [Ip Lp]] E.
  unfold shepard in E. rewrite (distances_ok norm norm_all RW) in E. cbn [rbind] in E.
  rewrite at_zero_none in E by auto.
  destruct (set_weights (map (dist_to norm g) pts)) as [w|]; cbn [rbind] in E; [|discriminate].
  match type of E with rbind ?m _ = _ => destruct m as [zd|] end; cbn [rbind] in E; [|discriminate].
  exists (filter (fun q => Rltb (dist_to norm g q) tol) pts). split.
  { eexists. split; [reflexivity|]. intros q. cbn beta. destruct (Rltb_spec (dist_to norm g q) tol); split; auto; discriminate. }
  assert (map snd (filter (fun q => nltb (fst q) tol) (combine (map (dist_to norm g) pts) pts)) =
          filter (fun q => Rltb (dist_to norm g q) tol) pts) as W.
  { clear. induction pts as [|q l IH]; auto. cbn [map combine filter fst]. rnum.
    destruct (Rltb (dist_to norm g q) tol); cbn [map snd]; rewrite IH; auto. }
  unfold within_tol in E. rewrite W in E. 
  destruct (filter (fun q => Rltb (dist_to norm g q) tol) pts) as [|q l] eqn:F.
  - assert (In p (filter (fun q => Rltb (dist_to norm g q) tol) pts)) as X
      by (apply filter_In; split; auto; apply Rltb_true; auto). rewrite F in X. destruct X.
  - inversion E. rewrite nsum_R. rnum. rewrite INR_IZR_INZ. reflexivity.
Qed.
Print Assumptions shepard_tolerance_partial.

(** Three points on a line with the 1-norm: the value is 19 / 51. *)
Definition line_norm (p : R * R) : R := Rabs (fst p) + Rabs (snd p).
Definition line_len (p : pt3 R) : R := Rabs (pws p) + Rabs (pwa p).
Definition line_pts : list (pt3 R) := [(1, 0, 1); (2, 0, 2); (3, 0, 3)].

Lemma line_extremes : nmaximum [1; 2; 3] = Ok 3 /\ nminimum [1; 2; 3] = Ok 1.
Proof.
  split; [apply nmaximum_spec|apply nminimum_spec]; (split; [simpl; auto|]; intros q [<-|[<-|[<-|[]]]]; lra).
Qed.

Lemma line_weights : set_weights [1; 2; 3] = Ok [1; / 4; 0].
Proof.
  unfold set_weights. rewrite (proj1 line_extremes). cbn [rbind map].
  assert (shepard_weight 3 1 = 1) as W1.
  { unfold shepard_weight. rnum. rewrite Rltb_true, Rleb_true by lra. simpl. field. }
  assert (shepard_weight 3 2 = / 4) as W2.
  { unfold shepard_weight. rnum. rewrite (Rltb_true 0 2), (Rleb_false 2 (3 / 3)), (Rltb_true (3 / 3) 2), (Rleb_true 2 3) by lra. simpl. field. }
  assert (shepard_weight 3 3 = 0) as W3.
  { unfold shepard_weight. rnum. rewrite (Rltb_true 0 3), (Rleb_false 3 (3 / 3)), (Rltb_true (3 / 3) 3), (Rleb_true 3 3) by lra. simpl. field. }
  rewrite W1, W2, W3. reflexivity.
Qed.

Lemma line_direction : include_direction line_pts (0, 0) [1; 2; 3] [1; / 4; 0] = Ok [1; / 16; 0].
Proof.
  unfold line_pts.
  unfold include_direction, enumerate, np_delete, direction_term, np_div, pws, pwa, nsum.
  cbn [length seq combine mapM firstn skipn app fst snd]. rnum. rewrite !Reqb_false by lra.
  cbn [rbind mapM map combine fst snd fold_left]. rnum. rewrite !Reqb_false by lra. cbn [rbind].
  cbn [map fold_left fst snd]. repeat f_equal; field. 
Qed.

Lemma line_slope :
  determine_slope sqrt (fun l => Ok (map (fun _ => true) l)) (fun l => Ok (map line_len l))
    line_pts (0, 0) [1; 2; 3] [1; / 16; 0] 1 = Ok [Some (-2/3); Some (-1); Some (-6/5)].
Proof.
  assert (Rabs 0 = 0) as A0 by apply Rabs_R0. destruct line_extremes as [MX MN]. unfold line_pts.
  unfold determine_slope, enumerate, np_delete, sub3, pws, pwa, pbs.
  cbn [length seq combine mapM firstn skipn app fst snd map rbind mask_list].
  rewrite MX, MN. cbn [rbind].
  unfold line_len, deriv, np_div, pws, pwa, pbs, nsum. cbn [length seq combine mapM firstn skipn app fst snd map rbind mask_list fold_left]. rnum.
  replace (0 - 0) with 0 by lra. rewrite A0.
  rewrite (Rabs_right (2 - 1)), (Rabs_right (3 - 1)), (Rabs_right (3 - 2)), (Rabs_left (1 - 2)), (Rabs_left (1 - 3)), (Rabs_left (2 - 3)) by lra.
  repeat (progress (repeat match goal with |- context [Reqb ?a ?b] => rewrite (Reqb_false a b) by lra end;
    cbn [rbind fold_left mapM])).
  match goal with |- context [nmaximum ?l] => assert (nmaximum l = Ok 1) as M1 end.
  { match goal with |- nmaximum [?a; ?b; ?c] = _ => assert (a = 1) as -> by field; assert (b = 1) as -> by field; assert (c = 1) as -> by field end.
    apply nmaximum_spec. split; [simpl; auto|]. intros q [<-|[<-|[<-|[]]]]; lra. }
  rewrite M1, sqrt_1.
  repeat (progress (repeat match goal with |- context [Reqb ?a ?b] => rewrite (Reqb_false a b) by lra end;
    cbn [combine map])).
  match goal with |- Ok [Some ?a; Some ?b; Some ?c] = _ =>
    assert (a = -2 / 3) as -> by field; assert (b = -1) as -> by field; assert (c = -6 / 5) as -> by field end.
  reflexivity. 
Qed.

Lemma line_value : forall tol,
  shepard (fun l => Ok (map line_norm l)) sqrt (fun l => Ok (map (fun _ => true) l)) (fun l => Ok (map line_len l))
    tol 1 line_pts (0, 0) =
  match within_tol tol [1; 2; 3] line_pts with Some v => Ok v | None => Ok (19 / 51) end.
Proof.
  intros tol. assert (Rabs 0 = 0) as A0 by apply Rabs_R0.
  assert (distances (fun l => Ok (map line_norm l)) line_pts (0, 0) = Ok [1; 2; 3]) as D.
  { unfold distances, line_pts. cbn [map]. unfold line_norm, pws, pwa. cbn [fst snd]. rnum.
    rewrite !Rminus_0_r, A0, (Rabs_right 1), (Rabs_right 2), (Rabs_right 3) by lra. rewrite !Rplus_0_r. auto. }
  unfold shepard. rewrite D. cbn [rbind]. unfold line_pts at 1. cbn [at_zero]. rnum. rewrite !Reqb_false by lra.
  rewrite line_weights. cbn [rbind]. rewrite line_direction, line_slope. cbn [rbind].
  destruct (within_tol tol [1; 2; 3] line_pts); auto.
  unfold normalise, nsum, line_pts. cbn [fold_left mapM]. rnum. unfold np_div. rnum. rewrite !Reqb_false by lra.
  cbn [rbind mapM map combine]. unfold dotp, nsum, pbs. cbn [combine map fold_left fst snd]. rnum. f_equal. field.
Qed.

Lemma line_far : forall p, In p line_pts -> 1 <= dist_to line_norm (0, 0) p.
Proof.
  assert (Rabs 0 = 0) as A0 by apply Rabs_R0.
  intros p [<-|[<-|[<-|[]]]]; unfold dist_to, line_norm, pws, pwa; simpl;
  rewrite !Rminus_0_r, A0; rewrite Rabs_right; lra.
Qed.

Example shepard_formula_case :
  (forall p, In p line_pts -> / 10 <= dist_to line_norm (0, 0) p) /\
  shepard (fun l => Ok (map line_norm l)) sqrt (fun l => Ok (map (fun _ => true) l)) (fun l => Ok (map line_len l))
    (/ 10) 1 line_pts (0, 0) = Ok (19 / 51).
Proof.
  split.
  - intros p H. apply line_far in H. lra.
  - rewrite line_value. unfold within_tol, line_pts. cbn [combine filter fst]. rnum. rewrite !Rltb_false by lra. reflexivity.
Qed.

(** With the tolerance 5 / 2 it is the mean of the first two points. *)
Example shepard_tolerance_case :
  (forall p, In p line_pts -> dist_to line_norm (0, 0) p <> 0) /\
  shepard (fun l => Ok (map line_norm l)) sqrt (fun l => Ok (map (fun _ => true) l)) (fun l => Ok (map line_len l))
    (5 / 2) 1 line_pts (0, 0) = Ok (3 / 2).
Proof.
  split.
  - intros p H. apply line_far in H. lra.
  - rewrite line_value. unfold within_tol, line_pts. cbn [combine filter fst]. rnum.
    rewrite (Rltb_true 1), (Rltb_true 2), (Rltb_false 3) by lra. unfold nsum, pbs. simpl. f_equal. field.
Qed.
