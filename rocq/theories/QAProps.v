(** * C68, C93: quality assurance *)

From Coq Require Import List Bool Arith ZArith Reals Lra Lia Psatz.
From Verif Require Import Py Num ListX WPointsModel InterpModel InterpProofs TableModel CloudModel CloudProps BaseModel
  ExtModel ExtProps QAModel.
Import ListNotations.
Open Scope list_scope.
Open Scope R_scope.

(** The absolute difference of each test point to the diagram. *)
Definition errors (diagram : R -> R -> result R) (test_data : list (pt3 R)) (es : list R) : Prop :=
  Forall2 (fun p e => exists v, diagram (pws p) (pwa p) = Ok v /\ e = Rabs (pbs p - v)) test_data es.

(** [lo], [hi], [mean] and [mean2] are the smallest, the largest, the mean and
    the mean square of the numbers [l]. *)
Definition summarises (l : list R) (hi lo mean mean2 : R) : Prop :=
  largest l hi /\ least l lo /\
  INR (length l) * mean = Rsum l /\ INR (length l) * mean2 = Rsum (map (fun e => e * e) l).

Lemma np_mean_ok : forall l : list R, l <> [] -> np_mean l = Ok (Rsum l / INR (length l)).
Proof.
  intros l N. unfold np_mean, np_div. rnum. rewrite nsum_R, <- INR_IZR_INZ.
  rewrite Reqb_false; [reflexivity|]. apply not_0_INR. destruct l; [congruence|discriminate].
Qed.

Lemma INR_len_pos : forall A (l : list A), l <> [] -> 0 < INR (length l).
Proof. intros A [|a l] H; [congruence|]. apply lt_0_INR. simpl. lia. Qed.

Lemma Rsum_const : forall c (l : list R), Rsum (map (fun _ => c) l) = INR (length l) * c.
Proof.
  induction l; [simpl; lra|]. cbn [map Rsum length]. rewrite S_INR. rewrite IHl. lra.
Qed.


Lemma summary_order : forall l hi lo mean mean2, l <> [] -> summarises l hi lo mean mean2 ->
  lo <= mean <= hi /\ mean * mean <= mean2.
Proof.
  intros l hi lo mean mean2 N [[_ HI] [[_ LO] [M M2]]]. pose proof (INR_len_pos _ l N) as P.
  assert (Rsum (map (fun _ => lo) l) <= Rsum (map (fun x => x) l)) as A by (apply Rsum_le; auto).
  assert (Rsum (map (fun x => x) l) <= Rsum (map (fun _ => hi) l)) as B by (apply Rsum_le; auto).
  rewrite map_id, !Rsum_const in *.
  assert (0 <= Rsum (map (fun e => (e - mean) * (e - mean)) l)) as S.
  { apply Rsum_nonneg. intros. apply Rle_0_sqr. }
  assert (Rsum (map (fun e => (e - mean) * (e - mean)) l) =
          Rsum (map (fun e => e * e) l) + ((- 2 * mean) * Rsum l + INR (length l) * (mean * mean))) as E.
  { rewrite <- (map_id l) at 3. rewrite <- Rsum_scale. rewrite <- Rsum_const, <- !Rsum_plus.
    apply Rsum_ext. intros. ring. }
  rewrite E, <- M, <- M2 in S. split; [split|].
  - apply Rmult_le_reg_l with (INR (length l)); lra.
  - apply Rmult_le_reg_l with (INR (length l)); lra.
  - apply Rmult_le_reg_l with (INR (length l)); [auto|]. lra.
Qed.

Lemma map_square : forall l : list R, map square l = map (fun e => e * e) l.
Proof. intros. apply map_ext. intros. reflexivity. Qed.

Lemma four_figures : forall l : list R, l <> [] -> exists hi lo m m2,
  nmaximum l = Ok hi /\ nminimum l = Ok lo /\ np_mean l = Ok m /\ np_mean (map square l) = Ok m2 /\
  summarises l hi lo m m2.
Proof.
  intros l N. pose proof (INR_len_pos _ l N) as P.
  assert (exists hi, nmaximum l = Ok hi) as [hi H] by (destruct l; [congruence|eexists; reflexivity]).
  assert (exists lo, nminimum l = Ok lo) as [lo L] by (destruct l; [congruence|eexists; reflexivity]).
  exists hi, lo, (Rsum l / INR (length l)), (Rsum (map (fun e => e * e) l) / INR (length l)).
  split; [auto|]. split; [auto|]. split; [apply np_mean_ok; auto|]. split.
  - rewrite map_square. rewrite np_mean_ok by (destruct l; discriminate || congruence). rewrite map_length. reflexivity.
  - apply nmaximum_spec in H. apply nminimum_spec in L. repeat split; try tauto; field; lra.
Qed.

Lemma differences_errors : forall diagram td es, differences diagram td = Ok es <-> errors diagram td es.
Proof.
  intros diagram td. induction td as [|p td IH]; intros es.
  - simpl. split; intros H; [injection H as <-; constructor|inversion H; reflexivity].
  - unfold differences in *. cbn [mapM]. split.
    + intros H. destruct (diagram (pws p) (pwa p)) as [v|x] eqn:E; [|discriminate]. cbn [rbind] in H.
      destruct (mapM _ td) as [r|] eqn:R; [|discriminate]. cbn [rbind] in H. injection H as <-.
      constructor; [|apply IH; auto]. exists v. rewrite nabs_R. auto.
    + intros H. inversion H as [|? e ? r [v [E ->]] F]; subst. rewrite E. cbn [rbind].
      apply IH in F. rewrite F. cbn [rbind]. rewrite nabs_R. reflexivity.
Qed.

Lemma errors_length : forall diagram td es, errors diagram td es -> length es = length td.
Proof. intros diagram td es H. induction H; simpl; congruence. Qed.

Lemma errors_nonneg : forall diagram td es, errors diagram td es -> forall e, In e es -> 0 <= e.
Proof.
  intros diagram td es H. induction H as [|p e td es [v [_ ->]] F IH]; intros x [].
  - subst. apply Rabs_pos.
  - auto.
Qed.

(** C68.  The figures of the minimal check are the largest, the smallest, the
    mean and the mean square of the absolute differences between the boat
    speeds and the diagram; hence they are ordered. *)
Theorem minimal_figures_correct : forall diagram td f, minimal_check diagram td = Ok f ->
  exists es, errors diagram td es /\
    summarises es (max_error f) (min_error f) (average_error f) (average_quadratic_error f) /\
    0 <= min_error f <= average_error f /\ average_error f <= max_error f /\
    average_error f * average_error f <= average_quadratic_error f.
Proof.
  intros diagram td f H. unfold minimal_check in H.
  destruct (differences diagram td) as [es|] eqn:D; [|discriminate]. apply differences_errors in D.
  exists es. split; [auto|]. cbn [rbind] in H.
  assert (es <> []) as N by (destruct es; [discriminate|congruence]).
  destruct (four_figures es N) as [hi [lo [m [m2 [E1 [E2 [E3 [E4 S]]]]]]]].
  rewrite E1 in H. cbn [rbind] in H. rewrite E2 in H. cbn [rbind] in H. rewrite E3 in H. cbn [rbind] in H.
  rewrite E4 in H. cbn [rbind] in H. injection H as <-. cbn [max_error min_error average_error average_quadratic_error].
  split; [auto|]. pose proof (summary_order es hi lo m m2 N S) as [[O1 O2] O3]. repeat split; auto.
  destruct S as [_ [[I _] _]]. eapply errors_nonneg; eauto.
Qed.
Print Assumptions minimal_figures_correct.

(** C68.  The minimal check gives figures for every non-empty test set at which
    the diagram can be evaluated; an empty test set raises ValueError. *)
Theorem minimal_check_total : forall diagram td,
  (forall p, In p td -> exists v, diagram (pws p) (pwa p) = Ok v) ->
  (td <> [] -> exists f, minimal_check diagram td = Ok f) /\
  (td = [] -> minimal_check diagram td = Raise ValueError).
Proof.
  intros diagram td V. split; [|intros ->; reflexivity]. intros N.
  assert (exists es, errors diagram td es) as [es E].
  { clear N. induction td as [|p td IH]; [exists []; constructor|].
    destruct IH as [es E]; [intros; apply V; right; auto|].
    destruct (V p) as [v Ev]; [left; auto|]. exists (Rabs (pbs p - v) :: es). constructor; eauto. }
  pose proof (errors_length _ _ _ E) as L. apply differences_errors in E.
  assert (es <> []) as N' by (destruct es, td; try discriminate; congruence).
  destruct (four_figures es N') as [hi [lo [m [m2 [E1 [E2 [E3 [E4 S]]]]]]]].
  unfold minimal_check. rewrite E. cbn [rbind]. rewrite E1. cbn [rbind]. rewrite E2. cbn [rbind]. rewrite E3. cbn [rbind].
  rewrite E4. cbn [rbind]. eauto.
Qed.
Print Assumptions minimal_check_total.

Example minimal_check_meets : exists f,
  minimal_check (fun ws wa => Ok (ws / 2)) [(10, 90, 6); (8, 45, 7)] = Ok f /\
  max_error f = 3 /\ min_error f = 1 /\ average_error f = 2 /\ average_quadratic_error f = 5.
Proof.
  destruct (minimal_check_total (fun ws wa => Ok (ws / 2)) [(10, 90, 6); (8, 45, 7)]) as [A _].
  { intros p _. eauto. }
  destruct A as [f E]; [discriminate|]. exists f. split; [auto|].
  destruct (minimal_figures_correct _ _ _ E) as [es [ER [[[I1 H1] [[I2 H2] [M M2]]] _]]].
  inversion ER as [|? e1 ? es' [v1 [V1 E1]] F]; subst. inversion F as [|? e2 ? es'' [v2 [V2 E2]] F2]; subst.
  inversion F2; subst. injection V1 as <-. injection V2 as <-.
  unfold pws, pwa, pbs in *. cbn [fst snd] in *.
  replace (6 - 10 / 2) with 1 in * by lra. replace (7 - 8 / 2) with 3 in * by lra.
  rewrite (Rabs_right 1), (Rabs_right 3) in * by lra. simpl in *.
  pose proof (H1 3 (or_intror (or_introl eq_refl))). pose proof (H2 1 (or_introl eq_refl)).
  repeat split; [destruct I1 as [|[|[]]]|destruct I2 as [|[|[]]]| |]; lra.
Qed.

(* ---- the rounded winds ---- *)

(** [z] is the nearest integer to [x], the even one of two. *)
Definition nearest (x : R) (z : Z) : Prop :=
  Rabs (x - IZR z) < 1 / 2 \/ (Rabs (x - IZR z) = 1 / 2 /\ Z.even z = true).

Lemma py_round_nearest : forall x, nearest x (py_round x).
Proof.
  intros x. unfold nearest, py_round. rnum. pose proof (base_Int_part x) as [B1 B2].
  set (f := Int_part x) in *. destruct (Rltb_spec (2 * (x - IZR f)) 1).
  - left. apply Rabs_def1; lra.
  - destruct (Rltb_spec 1 (2 * (x - IZR f))).
    + left. rewrite plus_IZR. apply Rabs_def1; lra.
    + assert (x - IZR f = 1 / 2) as E by lra. right. destruct (Z.even f) eqn:V.
      * rewrite E, Rabs_right by lra. auto.
      * rewrite plus_IZR. replace (x - (IZR f + 1)) with (- (1 / 2)) by lra.
        rewrite Rabs_Ropp, Rabs_right by lra. split; [auto|]. rewrite Z.even_add, V. reflexivity.
Qed.

Lemma nearest_unique : forall x a b, nearest x a -> nearest x b -> a = b.
Proof.
  assert (forall x a b, nearest x a -> nearest x b -> (a < b)%Z -> False) as G.
  { intros x a b A B L. assert (IZR a + 1 <= IZR b) as L' by (rewrite <- plus_IZR; apply IZR_le; lia).
    unfold nearest, Rabs in *. destruct (Rcase_abs (x - IZR a)), (Rcase_abs (x - IZR b));
      destruct A as [A|[A Ea]], B as [B|[B Eb]]; try lra.
    assert (b = a + 1)%Z as ->. { apply eq_IZR. rewrite plus_IZR. lra. }
    rewrite Z.even_add, Ea in Eb. discriminate. }
  intros x a b A B. destruct (Z.lt_total a b) as [L|[E|L]]; [|auto|].
  - destruct (G x a b A B L).
  - destruct (G x b a B A L).
Qed.

(** The wind of a test point, rounded. *)
Definition rounded_wind (p : pt3 R) (k : Z * Z) : Prop := nearest (pws p) (fst k) /\ nearest (pwa p) (snd k).

Definition key_of (p : pt3 R) : Z * Z := (py_round (pws p), py_round (pwa p)).

Lemma key_of_rounded : forall p k, rounded_wind p k <-> key_of p = k.
Proof.
  intros p [a b]. unfold rounded_wind, key_of. cbn [fst snd]. split.
  - intros [A B]. f_equal; eapply nearest_unique; eauto; apply py_round_nearest.
  - intros H. injection H as <- <-. split; apply py_round_nearest.
Qed.

Lemma same_wind_eq : forall a b, same_wind a b = true <-> a = b.
Proof.
  intros [a1 a2] [b1 b2]. unfold same_wind. cbn [fst snd]. rewrite andb_true_iff, !Z.eqb_eq.
  split; [intros [-> ->]; auto|intros H; injection H; auto].
Qed.

Lemma note_keys : forall key b (l : list (seen R)) k,
  In k (map fst (note key b l)) <-> In k (map fst l) \/ k = key.
Proof.
  induction l as [|[k0 [lo hi]] l IH]; intros k; cbn [note map fst].
  - simpl. intuition.
  - destruct (same_wind k0 key) eqn:E; cbn [map fst].
    + apply same_wind_eq in E. subst. simpl. intuition.
    + simpl. rewrite IH. tauto.
Qed.

Lemma note_NoDup : forall key b (l : list (seen R)), NoDup (map fst l) -> NoDup (map fst (note key b l)).
Proof.
  induction l as [|[k0 [lo hi]] l IH]; intros N; cbn [note map fst].
  - constructor; [auto|constructor].
  - cbn [map fst] in N. apply NoDup_cons_iff in N. destruct N as [N0 N].
    destruct (same_wind k0 key) eqn:E; cbn [map fst]; constructor; auto.
    intros H. apply note_keys in H. destruct H as [H|H]; [auto|]. subst.
    assert (same_wind key key = true) by (apply same_wind_eq; auto). congruence.
Qed.

Lemma note_In : forall key b (l : list (seen R)) k lo hi, NoDup (map fst l) ->
  In (k, (lo, hi)) (note key b l) ->
  (k <> key /\ In (k, (lo, hi)) l) \/
  (k = key /\ ~ In key (map fst l) /\ lo = Some b /\ hi = Rmax b 0) \/
  (k = key /\ exists lo0 hi0, In (key, (lo0, hi0)) l /\ lo = Some (min_seen b lo0) /\ hi = Rmax b hi0).
Proof.
  assert (forall x y : R, nmax x y = Rmax x y) as NM by (intros; apply nmax_R).
  induction l as [|[k0 [lo0 hi0]] l IH]; intros k lo hi N H; cbn [note] in H.
  - destruct H as [H|[]]. injection H as <- <- <-. right. left. rewrite NM. auto.
  - cbn [map fst] in N. apply NoDup_cons_iff in N. destruct N as [N0 N].
    destruct (same_wind k0 key) eqn:E.
    + apply same_wind_eq in E. subst k0. destruct H as [H|H].
      * injection H as <- <- <-. right. right. split; [auto|]. exists lo0, hi0. rewrite NM. split; [left|]; auto.
      * left. split; [|right; auto]. intros ->. apply N0. apply in_map_iff. exists (key, (lo, hi)). auto.
    + assert (k0 <> key) as NE.
      { intros ->. assert (same_wind key key = true) by (apply same_wind_eq; auto). congruence. }
      destruct H as [H|H].
      * injection H as <- <- <-. left. split; [auto|left; auto].
      * destruct (IH k lo hi N H) as [[A B]|[[A [B C]]|[A [l0 [h0 [B C]]]]]].
        -- left. split; [auto|right; auto].
        -- right. left. split; [auto|]. split; [|auto]. cbn [map fst]. intros [D|D]; auto.
        -- right. right. split; [auto|]. exists l0, h0. split; [right; auto|auto].
Qed.

(** What the entry of a wind says about the points seen so far. *)
Definition entry_ok (done : list (pt3 R)) (k : Z * Z) (lo : option R) (hi : R) : Prop :=
  0 <= hi /\ exists m, lo = Some m /\
  (exists p, In p done /\ key_of p = k /\ pbs p = m) /\
  (forall p, In p done -> key_of p = k -> m <= pbs p <= hi) /\
  (hi = 0 \/ exists p, In p done /\ key_of p = k /\ pbs p = hi).

Lemma tuples_inv : forall rest done (l : list (seen R)),
  NoDup (map fst l) ->
  (forall k, In k (map fst l) <-> exists p, In p done /\ key_of p = k) ->
  (forall k lo hi, In (k, (lo, hi)) l -> entry_ok done k lo hi) ->
  let l' := fold_left (fun l p => note (key_of p) (pbs p) l) rest l in
  NoDup (map fst l') /\
  (forall k, In k (map fst l') <-> exists p, In p (done ++ rest) /\ key_of p = k) /\
  (forall k lo hi, In (k, (lo, hi)) l' -> entry_ok (done ++ rest) k lo hi).
Proof.
  induction rest as [|p rest IH]; intros done l N K E; cbv zeta; cbn [fold_left].
  - rewrite app_nil_r. auto.
  - replace (done ++ p :: rest) with ((done ++ [p]) ++ rest) by (rewrite <- app_assoc; reflexivity).
    apply IH.
    + apply note_NoDup. auto.
    + intros k. rewrite note_keys, K. split.
      * intros [[q [A B]]| ->]; [exists q|exists p]; rewrite in_app_iff; simpl; auto.
      * intros [q [A B]]. apply in_app_iff in A. destruct A as [A|[->|[]]]; [left; eauto|right; auto].
    + intros k lo hi H. apply note_In in H; [|auto].
      destruct H as [[NE H]|[[-> [NI [-> ->]]]|[-> [lo0 [hi0 [H [-> ->]]]]]]].
      * destruct (E _ _ _ H) as [A [m [-> [[q [Q1 [Q2 Q3]]] [B C]]]]]. split; [auto|]. exists m.
        split; [auto|]. split; [exists q; rewrite in_app_iff; auto|]. split.
        -- intros x Hx Kx. apply in_app_iff in Hx. destruct Hx as [Hx|[->|[]]]; [auto|congruence].
        -- destruct C as [C|[x [X1 X2]]]; [auto|]. right. exists x. rewrite in_app_iff. auto.
      * split; [apply Rmax_r|]. exists (pbs p). split; [auto|].
        split; [exists p; rewrite in_app_iff; simpl; auto|]. split.
        -- intros x Hx Kx. apply in_app_iff in Hx. destruct Hx as [Hx|[->|[]]].
           ++ destruct NI. apply K. exists x. auto.
           ++ split; [lra|apply Rmax_l].
        -- unfold Rmax. destruct (Rle_dec (pbs p) 0); [auto|]. right. exists p. rewrite in_app_iff. simpl. auto.
      * destruct (E _ _ _ H) as [A [m [-> [[q [Q1 [Q2 Q3]]] [B C]]]]].
        split; [eapply Rle_trans; [exact A|apply Rmax_r]|]. eexists. split; [reflexivity|].
        unfold min_seen. rnum. destruct (Rltb_spec m (pbs p)) as [L|L].
        -- split; [exists q; rewrite in_app_iff; auto|]. split.
           ++ intros x Hx Kx. apply in_app_iff in Hx. destruct Hx as [Hx|[->|[]]].
              ** destruct (B x Hx Kx). split; [auto|]. eapply Rle_trans; [eauto|apply Rmax_r].
              ** split; [lra|apply Rmax_l].
           ++ unfold Rmax. destruct (Rle_dec (pbs p) hi0).
              ** destruct C as [C|[x [X1 X2]]]; [auto|]. right. exists x. rewrite in_app_iff. auto.
              ** right. exists p. rewrite in_app_iff. simpl. auto.
        -- split; [exists p; rewrite in_app_iff; simpl; auto|]. split.
           ++ intros x Hx Kx. apply in_app_iff in Hx. destruct Hx as [Hx|[->|[]]].
              ** destruct (B x Hx Kx). split; [lra|]. eapply Rle_trans; [eauto|apply Rmax_r].
              ** split; [lra|apply Rmax_l].
           ++ unfold Rmax. destruct (Rle_dec (pbs p) hi0).
              ** destruct C as [C|[x [X1 X2]]]; [auto|]. right. exists x. rewrite in_app_iff. auto.
              ** right. exists p. rewrite in_app_iff. simpl. auto.
Qed.

(** [d] is the largest difference of the boat speeds of the test points at the
    rounded wind [k]. *)
Definition local_difference (td : list (pt3 R)) (k : Z * Z) (d : R) : Prop :=
  (exists p q, In p td /\ In q td /\ rounded_wind p k /\ rounded_wind q k /\ d = pbs p - pbs q) /\
  forall p q, In p td -> In q td -> rounded_wind p k -> rounded_wind q k -> pbs p - pbs q <= d.

Lemma tuples_ok : forall td : list (pt3 R),
  let l := tested_tuples td in
  NoDup (map fst l) /\
  (forall k, In k (map fst l) <-> exists p, In p td /\ rounded_wind p k) /\
  ((forall p, In p td -> 0 <= pbs p) -> forall s, In s l -> local_difference td (fst s) (spread s)).
Proof.
  intros td. cbv zeta. destruct (tuples_inv td [] []) as [A [B C]].
  - constructor.
  - intros k. simpl. split; [intros []|intros [p [[] _]]].
  - intros k lo hi [].
  - fold (tested_tuples td) in A, B, C. change (fold_left _ td []) with (tested_tuples td) in A, B, C.
    split; [auto|]. split.
    + intros k. rewrite B. simpl. split; intros [p [P1 P2]]; exists p; (split; [auto|]); apply key_of_rounded; auto.
    + intros NN [k [lo hi]] H. destruct (C _ _ _ H) as [P [m [-> [[q [Q1 [Q2 Q3]]] [D F]]]]]. cbn [app fst] in *.
      unfold spread. cbn [snd]. rnum.
      assert (exists p, In p td /\ key_of p = k /\ pbs p = hi) as [p [P1 [P2 P3]]].
      { destruct F as [->|F]; [|auto]. exists q. split; [auto|]. split; [auto|].
        pose proof (D q Q1 Q2). pose proof (NN q Q1). lra. }
      split.
      * exists p, q. rewrite !key_of_rounded. rewrite P3, Q3. auto.
      * intros a b Ha Hb Ka Kb. apply key_of_rounded in Ka. apply key_of_rounded in Kb.
        pose proof (D a Ha Ka). pose proof (D b Hb Kb). lra.
Qed.

(** The 20 wind speeds from 0 to 20. *)
Lemma zero_winds : forall sa : R * R,
  In sa (flat_map (fun ws => map (fun wa => (ws, wa)) [nofZ 0; nofZ 360]) (linspace (nofZ 0) (nofZ 20) 20)) <->
  (exists i, (i < 20)%nat /\ fst sa = INR i * (20 / 19)) /\ (snd sa = 0 \/ snd sa = 360).
Proof.
  intros [s a]. rewrite in_flat_map. cbn [fst snd].
  assert (forall x : R, In x (linspace (nofZ 0) (nofZ 20) 20) <-> exists i, (i < 20)%nat /\ x = INR i * (20 / 19)) as L.
  { intros x. unfold linspace. rewrite in_app_iff, in_map_iff. rnum. split.
    - intros [[i [<- Hi]]|[<-|[]]].
      + apply in_seq in Hi. exists i. split; [lia|]. rewrite INR_IZR_INZ. simpl (Z.of_nat 19). lra.
      + exists 19%nat. split; [lia|]. simpl INR. lra.
    - intros [i [Hi ->]]. destruct (Nat.eq_dec i 19) as [->|Hn].
      + right. left. simpl INR. lra.
      + left. exists i. split; [|apply in_seq; lia]. rewrite INR_IZR_INZ. simpl (Z.of_nat 19). lra. }
  split.
  - intros [x [Hx H]]. apply L in Hx. simpl in H. destruct H as [H|[H|[]]]; injection H as <- <-; auto.
  - intros [H1 H2]. exists s. split; [apply L; auto|]. simpl. destruct H2 as [->| ->]; auto.
Qed.

(** The values of the diagram in wind from ahead, at wind speeds 0 to 20. *)
Definition ahead_values (diagram : R -> R -> result R) (zs : list R) : Prop :=
  length zs = 40%nat /\
  (forall z, In z zs <-> exists i a v, (i < 20)%nat /\ (a = 0 \/ a = 360) /\
     diagram (INR i * (20 / 19)) a = Ok v /\ z = Rabs v).

Lemma zero_values_ok : forall diagram zs, zero_values diagram = Ok zs -> ahead_values diagram zs.
Proof.
  intros diagram zs H. unfold zero_values in H. set (g := flat_map _ _) in H. split.
  - apply mapM_length in H. rewrite H. reflexivity.
  - intros z. split.
    + intros Hz. apply In_nth_error in Hz. destruct Hz as [n Hn].
      assert (n < length g)%nat as Ln.
      { rewrite <- (mapM_length _ _ _ _ _ H). apply nth_error_Some. congruence. }
      destruct (nth_error g n) as [sa|] eqn:G; [|apply nth_error_None in G; lia].
      destruct (mapM_nth _ _ _ _ _ H n sa G) as [y [Y1 Y2]]. rewrite Hn in Y1. injection Y1 as <-.
      apply nth_error_In in G. apply zero_winds in G. destruct G as [[i [Hi Es]] Ea].
      destruct (diagram (fst sa) (snd sa)) as [v|] eqn:V; [|discriminate]. cbn [rbind] in Y2. injection Y2 as <-.
      exists i, (snd sa), v. rewrite <- Es, nabs_R. auto.
    + intros [i [a [v [Hi [Ha [V ->]]]]]].
      assert (In (INR i * (20 / 19), a) g) as G. { apply zero_winds. cbn [fst snd]. split; [exists i|]; auto. }
      apply In_nth_error in G. destruct G as [n G]. destruct (mapM_nth _ _ _ _ _ H n _ G) as [y [Y1 Y2]].
      cbn [fst snd] in Y2. rewrite V in Y2. cbn [rbind] in Y2. injection Y2 as Y2. rewrite nabs_R in Y2. subst.
      eapply nth_error_In; eauto.
Qed.

Lemma safe_Ok : forall A B (op : A -> result B) x v, op x = Ok v -> safe_operation op x = Ok (Some v).
Proof. intros. unfold safe_operation. rewrite H. reflexivity. Qed.

(** C68.  The figures of the conforming check: the same errors, the values in
    wind from ahead, the number of distinct rounded winds and the mean of the
    largest differences at each of them. *)
Theorem conforming_figures_correct : forall diagram td f, td <> [] -> conforming_check diagram td = Ok f ->
  exists es zs hi lo m m2 zhi zlo zm zm2 keys ds,
    f = mkConf (Some hi) (Some lo) (Some m) (Some m2) (Some zhi) (Some zlo) (Some zm) (Some zm2)
          (length keys) (Some (Rsum ds / INR (length ds))) /\
    errors diagram td es /\ summarises es hi lo m m2 /\
    ahead_values diagram zs /\ summarises zs zhi zlo zm zm2 /\
    0 <= lo <= m /\ m <= hi /\ m * m <= m2 /\ 0 <= zlo <= zm /\ zm <= zhi /\ zm * zm <= zm2 /\
    NoDup keys /\ (forall k, In k keys <-> exists p, In p td /\ rounded_wind p k) /\
    ((forall p, In p td -> 0 <= pbs p) -> Forall2 (local_difference td) keys ds).
Proof.
  intros diagram td f N H. unfold conforming_check in H.
  destruct (differences diagram td) as [es|] eqn:D; [|discriminate]. apply differences_errors in D. cbn [rbind] in H.
  destruct (zero_values diagram) as [zs|] eqn:Z; [|discriminate]. apply zero_values_ok in Z. cbn [rbind] in H.
  cbv zeta in H. pose proof (errors_length _ _ _ D) as L.
  assert (es <> []) as N1 by (destruct es, td; try discriminate; congruence).
  assert (zs <> []) as N2 by (destruct Z as [Z _]; destruct zs; [discriminate|congruence]).
  destruct (four_figures es N1) as [hi [lo [m [m2 [E1 [E2 [E3 [E4 S]]]]]]]].
  destruct (four_figures zs N2) as [zhi [zlo [zm [zm2 [F1 [F2 [F3 [F4 SZ]]]]]]]].
  destruct (tuples_ok td) as [T1 [T2 T3]]. set (tt := tested_tuples td) in *.
  assert (tt <> []) as N3.
  { destruct td as [|p td']; [congruence|]. assert (In (key_of p) (map fst tt)) as I.
    { apply T2. exists p. split; [left; auto|]. apply key_of_rounded. auto. }
    destruct tt; [destruct I|congruence]. }
  assert (np_mean (map spread tt) = Ok (Rsum (map spread tt) / INR (length (map spread tt)))) as M.
  { apply np_mean_ok. destruct tt; [congruence|discriminate]. }
  rewrite (safe_Ok _ _ _ _ _ E1), (safe_Ok _ _ _ _ _ E2), (safe_Ok _ _ _ _ _ E3), (safe_Ok _ _ _ _ _ E4),
    (safe_Ok _ _ _ _ _ F1), (safe_Ok _ _ _ _ _ F2), (safe_Ok _ _ _ _ _ F3), (safe_Ok _ _ _ _ _ F4),
    (safe_Ok _ _ _ _ _ M) in H. cbn [rbind] in H. injection H as <-.
  exists es, zs, hi, lo, m, m2, zhi, zlo, zm, zm2, (map fst tt), (map spread tt).
  pose proof (summary_order _ _ _ _ _ N1 S) as [[O1 O2] O3].
  pose proof (summary_order _ _ _ _ _ N2 SZ) as [[P1 P2] P3].
  split; [rewrite !map_length; reflexivity|]. split; [auto|]. split; [auto|]. split; [auto|]. split; [auto|].
  split. { split; [|auto]. destruct S as [_ [[I _] _]]. eapply errors_nonneg; eauto. }
  split; [auto|]. split; [auto|].
  split. { split; [|auto]. destruct SZ as [_ [[I _] _]]. apply (proj2 Z) in I. destruct I as [? [? [? [_ [_ [_ ->]]]]]]. apply Rabs_pos. }
  split; [auto|]. split; [auto|]. split; [auto|]. split; [auto|].
  intros NN. specialize (T3 NN). clear - T3.
  assert (forall l, (forall s, In s l -> In s tt) -> Forall2 (local_difference td) (map fst l) (map spread l)) as G.
  { induction l as [|s l IH]; intros I; cbn [map]; constructor; [apply T3; apply I; left; auto|].
    apply IH. intros x Hx. apply I. right. auto. }
  apply G. auto.
Qed.
Print Assumptions conforming_figures_correct.

(** C93 (partial: diagrams that can be evaluated at wind speed 0).  The
    conforming check gives figures for every non-empty test set. *)
Theorem conforming_check_total_partial : forall diagram td, td <> [] ->
  (forall p, In p td -> exists v, diagram (pws p) (pwa p) = Ok v) ->
  (forall s a, 0 <= s <= 20 -> a = 0 \/ a = 360 -> exists v, diagram s a = Ok v) ->
  exists f, conforming_check diagram td = Ok f.
Proof.
  intros diagram td N V Z. unfold conforming_check.
  assert (exists es, differences diagram td = Ok es) as [es E].
  { destruct (proj1 (minimal_check_total diagram td V) N) as [f F]. unfold minimal_check in F.
    destruct (differences diagram td); [eauto|discriminate]. }
  rewrite E. cbn [rbind]. apply differences_errors in E. pose proof (errors_length _ _ _ E) as L.
  assert (exists zs, zero_values diagram = Ok zs) as [zs EZ].
  { unfold zero_values. set (g := flat_map _ _).
    assert (forall sa, In sa g -> exists v, diagram (fst sa) (snd sa) = Ok v) as G.
    { intros sa H. apply zero_winds in H. destruct H as [[i [Hi Es]] Ha]. apply Z; [|auto]. rewrite Es.
      pose proof (pos_INR i). assert (INR i <= 19) by (replace 19 with (INR 19) by (simpl; lra); apply le_INR; lia). lra. }
    clearbody g. induction g as [|sa g IH]; [exists []; reflexivity|].
    destruct (G sa) as [v Hv]; [left; auto|]. destruct IH as [zs EZ]; [intros; apply G; right; auto|].
    cbn [mapM]. rewrite Hv. cbn [rbind]. rewrite EZ. cbn [rbind]. eauto. }
  rewrite EZ. cbn [rbind]. cbv zeta. apply zero_values_ok in EZ.
  assert (es <> []) as N1 by (destruct es, td; try discriminate; congruence).
  assert (zs <> []) as N2 by (destruct EZ as [EZ _]; destruct zs; [discriminate|congruence]).
  destruct (four_figures es N1) as [hi [lo [m [m2 [E1 [E2 [E3 [E4 S]]]]]]]].
  destruct (four_figures zs N2) as [zhi [zlo [zm [zm2 [F1 [F2 [F3 [F4 SZ]]]]]]]].
  assert (tested_tuples td <> []) as N3.
  { destruct (tuples_ok td) as [_ [T2 _]]. destruct td as [|p td']; [congruence|].
    assert (In (key_of p) (map fst (tested_tuples (p :: td')))) as I.
    { apply T2. exists p. split; [left; auto|]. apply key_of_rounded. auto. }
    intros Hc. rewrite Hc in I. destruct I. }
  assert (np_mean (map spread (tested_tuples td)) =
          Ok (Rsum (map spread (tested_tuples td)) / INR (length (map spread (tested_tuples td))))) as M.
  { apply np_mean_ok. destruct (tested_tuples td); [congruence|discriminate]. }
  rewrite (safe_Ok _ _ _ _ _ E1), (safe_Ok _ _ _ _ _ E2), (safe_Ok _ _ _ _ _ E3), (safe_Ok _ _ _ _ _ E4),
    (safe_Ok _ _ _ _ _ F1), (safe_Ok _ _ _ _ _ F2), (safe_Ok _ _ _ _ _ F3), (safe_Ok _ _ _ _ _ F4),
    (safe_Ok _ _ _ _ _ M). cbn [rbind]. eauto.
Qed.
Print Assumptions conforming_check_total_partial.

(** A test set with two points near wind (10, 90) and one near (8, 45). *)
Definition trial : list (pt3 R) := [(10, 90, 6); (8, 45, 3); (10, 90, 2)].

Example conforming_meets : exists f, conforming_check (fun ws wa => Ok (ws / 2)) trial = Ok f.
Proof.
  apply conforming_check_total_partial; [discriminate| |]; intros; eauto.
Qed.

Lemma nearest_IZR : forall z, nearest (IZR z) z.
Proof. intros. left. rewrite Rminus_diag_eq by auto. rewrite Rabs_R0. lra. Qed.

(** C93 refuted: a point cloud cannot be evaluated at wind speed 0, so the
    check raises ValueError for every cloud; and the reported local difference
    is not the maximal one of the documentation but the mean over the winds. *)
Theorem conforming_check_refuted :
  (forall nhood interp cloud td es,
     errors (cloud_call nhood interp cloud) td es ->
     conforming_check (cloud_call nhood interp cloud) td = Raise ValueError) /\
  (exists diagram td f d, conforming_check diagram td = Ok f /\
     average_local_test_data_difference f = Some d /\
     exists k d', local_difference td k d' /\ d < d').
Proof.
  split.
  - intros nhood interp cloud td es E. apply differences_errors in E. unfold conforming_check. rewrite E. cbn [rbind].
    assert (zero_values (cloud_call nhood interp cloud) = Raise ValueError) as ->; [|reflexivity].
    unfold zero_values, linspace. cbn [seq map app flat_map].
    match goal with |- mapM ?f (?x :: ?l) = _ => change (mapM f (x :: l)) with (do y <- f x; do ys <- mapM f l; Ok (y :: ys)) end.
    cbn [fst snd]. rewrite cloud_nonpositive; [reflexivity|]. rnum. simpl. lra.
  - destruct conforming_meets as [f F]. pose proof F as F'.
    apply conforming_figures_correct in F'; [|discriminate].
    destruct F' as [es [zs [hi [lo [m [m2 [zhi [zlo [zm [zm2 [keys [ds [-> [_ [_ [_ [_ [_ [_ [_ [_ [_ [_ [ND [K LD]]]]]]]]]]]]]]]]]]]]]]]]].
    exists (fun ws wa => Ok (ws / 2)), trial. eexists. exists (Rsum ds / INR (length ds)).
    split; [exact F|]. split; [reflexivity|].
    assert (forall p, In p trial -> 0 <= pbs p) as NN.
    { intros p [<-|[<-|[<-|[]]]]; unfold pbs; simpl; lra. }
    specialize (LD NN).
    assert (forall p k, rounded_wind p k -> forall s a b, p = (IZR s, IZR a, b) -> k = (s, a)) as RW.
    { intros p [x y] [A B] s a b ->. unfold pws, pwa in *. cbn [fst snd] in *.
      f_equal; eapply nearest_unique; eauto; apply nearest_IZR. }
    assert (rounded_wind (10, 90, 6) (10, 90)%Z) as R1 by (split; apply nearest_IZR).
    assert (rounded_wind (10, 90, 2) (10, 90)%Z) as R3 by (split; apply nearest_IZR).
    assert (rounded_wind (8, 45, 3) (8, 45)%Z) as R2 by (split; apply nearest_IZR).
    assert (In (10, 90)%Z keys) as I1 by (apply K; exists (10, 90, 6); simpl; auto).
    assert (In (8, 45)%Z keys) as I2 by (apply K; exists (8, 45, 3); simpl; auto).
    assert (forall k, In k keys -> k = (10, 90)%Z \/ k = (8, 45)%Z) as I3.
    { intros k H. apply K in H. destruct H as [p [Hp Rp]].
      destruct Hp as [<-|[<-|[<-|[]]]]; [left|right|left]; eapply RW; eauto. }
    assert (forall d, local_difference trial (10, 90)%Z d -> d = 4) as D1.
    { intros d [[p [q [P [Q [RP [RQ ->]]]]]] U].
      assert (pbs (10, 90, 6) - pbs (10, 90, 2) <= pbs p - pbs q) as U'.
      { apply U; simpl; auto. } unfold pbs in U' at 1 2. cbn [snd] in U'.
      destruct P as [<-|[<-|[<-|[]]]]; destruct Q as [<-|[<-|[<-|[]]]]; unfold pbs in *; cbn [snd] in *; lra. }
    assert (forall d, local_difference trial (8, 45)%Z d -> d = 0) as D2.
    { intros d [[p [q [P [Q [RP [RQ ->]]]]]] U].
      destruct P as [<-|[<-|[<-|[]]]]; destruct Q as [<-|[<-|[<-|[]]]]; unfold pbs; cbn [snd]; try lra;
      match goal with
      | H : rounded_wind (_, _, ?b) _ |- _ => pose proof (RW _ _ H 10%Z 90%Z b eq_refl); discriminate
      end. }
    exists (10, 90)%Z, 4.
    assert (exists d, local_difference trial (10, 90)%Z d) as [d Hd].
    { clear - LD I1. induction LD as [|k d keys ds H F IH]; [destruct I1|]. destruct I1 as [->|I1]; eauto. }
    rewrite (D1 d Hd) in Hd. split; [exact Hd|].
    (* two keys, differences 4 and 0 *)
    assert (length keys = 2%nat /\ Rsum ds = 4) as [LK SD].
    { destruct keys as [|k1 keys]; [destruct I1|]. destruct keys as [|k2 keys].
      { exfalso. destruct I1 as [I1|[]]; destruct I2 as [I2|[]]. congruence. }
      destruct keys as [|k3 keys].
      - inversion LD as [|? d1 ? ? L1 LD1]; subst. inversion LD1 as [|? d2 ? ? L2 LD2]; subst. inversion LD2; subst.
        split; [reflexivity|]. simpl.
        inversion ND as [|? ? ND1 _]; subst.
        destruct (I3 k1) as [->| ->]; [left; auto| |]; destruct (I3 k2) as [->| ->]; try (right; left; reflexivity);
          try (exfalso; apply ND1; left; reflexivity);
          repeat match goal with
          | H : local_difference trial (10, 90)%Z _ |- _ => apply D1 in H
          | H : local_difference trial (8, 45)%Z _ |- _ => apply D2 in H
          end; lra.
      - exfalso. inversion ND as [|? ? ND1 ND2]; subst. inversion ND2 as [|? ? ND3 ND4]; subst.
        destruct (I3 k1) as [->| ->]; [left; auto| |]; destruct (I3 k2) as [->| ->]; try (right; left; reflexivity);
        destruct (I3 k3) as [->| ->]; try (right; right; left; reflexivity); simpl in *; tauto. }
    assert (length ds = 2%nat) as ->.
    { rewrite <- LK. clear - LD. induction LD; simpl; congruence. }
    rewrite SD. simpl. lra.
Qed.
Print Assumptions conforming_check_refuted.
