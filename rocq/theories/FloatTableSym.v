(** * Tables with binary64 wind angles: symmetrisation

    [symmetrize] with the rounded difference [360 - wa]; numbers as in FloatTable.v. *)

From Coq Require Import List Bool Arith ZArith Reals Lra Lia Permutation Sorted.
From Flocq Require Import Core.
From Verif Require Import Py Num PySort ListX InterpModel TableModel TableSpec TableProofs TableProofs2 TableProofs3 TableProofs4
  FloatMod FloatUnit FloatSteps FloatAverage FloatSmooth FloatMirror FloatTable.
Import ListNotations.
Open Scope R_scope.

Local Instance valid_exp_fts : Valid_exp fexp.
Proof. apply FLT_exp_valid. reflexivity. Qed.

(** [symmetrize].  _polardiagramtable.py 493-565, 808-817, as [table_symmetrize] in TableModel.v. *)
Definition f_table_symmetrize (t : table R) : result (table R) :=
  let wa := t_wa t ++ map (f_sub 360) (rev (t_wa t)) in
  let bs := t_bs t ++ rev (t_bs t) in
  let '(wa, bs) :=
    if nmem 180 (t_wa t) then
      let mid := index_of 180 wa in (np_delete wa mid, np_delete bs mid)
    else (wa, bs) in
  let '(wa, bs) := if nmem 0 (t_wa t) then (removelast wa, removelast bs) else (wa, bs) in
  f_table_new (t_ws t) wa bs.

(** ** Specification *)

(** Different angles have different mirror images, and no angle is the mirror image of another one. *)
Definition distinct_mirrors (wa : list R) : Prop :=
  (forall a b, In a wa -> In b wa -> mirror a = mirror b -> a = b) /\
  (forall a b, In a wa -> In b wa -> mirror a = b -> a = b).

(** ** Rows *)

Definition fmir (p : R * list R) : R * list R := (f_sub 360 (fst p), snd p).

Lemma f_symmetrize_pairs : forall t, table_ok t -> no_duplicates t ->
  exists PP, PP = drop_key 180 (combine (t_wa t) (t_bs t)) ++
                  map fmir (rev (drop_key 0 (combine (t_wa t) (t_bs t)))) /\
  f_table_symmetrize t = f_table_new (t_ws t) (map fst PP) (map snd PP).
Proof.
  intros t [T1 [T2 [T3 [T4 [SL SR]]]]] [N1 N2].
  set (P := combine (t_wa t) (t_bs t)).
  assert (map fst P = t_wa t) as MF by (apply ListX.map_fst_combine; auto).
  assert (map snd P = t_bs t) as MS by (apply ListX.map_snd_combine; auto).
  eexists. split; [reflexivity|]. unfold f_table_symmetrize.
  set (Q := P ++ map fmir (rev P)).
  assert (t_wa t ++ map (f_sub 360) (rev (t_wa t)) = map fst Q) as ->.
  { unfold Q. rewrite map_app, map_map. f_equal; auto. rewrite <- MF, <- map_rev, map_map. auto. }
  assert (t_bs t ++ rev (t_bs t) = map snd Q) as ->.
  { unfold Q. rewrite map_app, map_map. f_equal; auto. rewrite <- MS, <- map_rev. auto. }
  set (Q1 := drop_key 180 P ++ map fmir (rev P)).
  assert ((if nmem 180 (t_wa t) then
             (np_delete (map fst Q) (index_of 180 (map fst Q)), np_delete (map snd Q) (index_of 180 (map fst Q)))
           else (map fst Q, map snd Q)) = (map fst Q1, map snd Q1)) as ->.
  { destruct (nmem 180 (t_wa t)) eqn:M.
    - apply nmem_R in M. rewrite !np_delete_map.
      assert (np_delete Q (index_of 180 (map fst Q)) = Q1) as ->; auto.
      unfold Q, Q1. rewrite map_app, index_of_app by (rewrite MF; auto).
      rewrite np_delete_app.
      + rewrite delete_key; auto; rewrite MF; auto.
      + pose proof (index_of_lt 180 (map fst P)) as L. rewrite map_length in L. apply L. rewrite MF. auto.
    - unfold Q1. rewrite drop_key_absent; auto. rewrite MF. intros I. apply nmem_R in I. congruence. }
  cbv zeta beta iota.
  assert ((if nmem 0 (t_wa t) then (removelast (map fst Q1), removelast (map snd Q1))
           else (map fst Q1, map snd Q1)) =
          (map fst (drop_key 180 P ++ map fmir (rev (drop_key 0 P))),
           map snd (drop_key 180 P ++ map fmir (rev (drop_key 0 P))))) as ->; auto.
  destruct (nmem 0 (t_wa t)) eqn:M.
  - apply nmem_R in M. rewrite !removelast_map.
    assert (removelast Q1 = drop_key 180 P ++ map fmir (rev (drop_key 0 P))) as ->; auto.
    unfold Q1. destruct P as [|[a r] P'] eqn:EP.
    { simpl in MF. rewrite <- MF in M. destruct M. }
    assert (a = 0) as ->.
    { rewrite <- MF in M, T2. simpl in M, T2. destruct M as [M|M]; auto.
      inversion T2 as [|? ? S F]; subst. rewrite Forall_forall in F. specialize (F 0 M).
      assert (0 <= a < 360) by (apply T4; rewrite <- MF; left; auto). lra. }
    assert (drop_key 0 ((0, r) :: P') = P') as ->.
    { unfold drop_key. simpl. rewrite Reqb_refl. simpl. apply ListX.filter_all. intros [z q] H. simpl.
      destruct (Reqb_spec z 0); auto. subst. exfalso.
      rewrite <- MF in N2. simpl in N2. inversion N2 as [|? ? NI N']; subst. apply NI.
      change 0 with (fst (0, q)). apply in_map. auto. }
    simpl rev. rewrite map_app. simpl map at 2. rewrite app_assoc. apply removelast_last.
  - unfold Q1. rewrite (drop_key_absent 0); auto. rewrite MF. intros I. apply nmem_R in I. congruence.
Qed.


Lemma f_in_pairs : forall (PP : list (R * list R)) ws s a v,
  (exists i j, listed ws (map np_mod360 (map fst PP)) (map snd PP) i j s a v) <->
  exists x r, In (x, r) PP /\ a = np_mod360 x /\ In (s, v) (combine ws r).
Proof.
  intros. rewrite listed_In.
  assert (combine (map np_mod360 (map fst PP)) (map snd PP) = map (fun p => (np_mod360 (fst p), snd p)) PP) as ->.
  { induction PP as [|[x r] PP IH]; simpl; auto. rewrite IH. auto. }
  split.
  - intros [r [H1 H2]]. apply in_map_iff in H1. destruct H1 as [[x r'] [E H1]]. simpl in E.
    inversion E; subst. eauto.
  - intros [x [r [H1 [-> H2]]]]. exists r. split; auto. apply in_map_iff. exists (x, r). auto.
Qed.

Lemma mirror_180 : mirror 180 = 180.
Proof.
  unfold mirror. rewrite sub_exact; replace (360 - 180) with 180 by lra; [apply mod_small; lra|].
  apply (format_int 180). lia.
Qed.

Lemma f_symmetrize_ok : forall t, table_ok t -> no_duplicates t -> t_wa t <> [] -> t_ws t <> [] ->
  exists t', f_table_symmetrize t = Ok t' /\ t_ws t' = t_ws t /\
    Permutation (map fst (drop_key 180 (combine (t_wa t) (t_bs t))) ++
      map (fun p => mirror (fst p)) (rev (drop_key 0 (combine (t_wa t) (t_bs t))))) (t_wa t') /\
    (forall s a v, entry t' s a v <-> (entry t s a v \/ exists b, entry t s b v /\ a = mirror b)).
Proof.
  intros t OK ND NA NS. destruct (f_symmetrize_pairs t OK ND) as [PP [EP ->]].
  destruct OK as [T1 [T2 [T3 [T4 [SL SR]]]]]. destruct ND as [N1 N2].
  set (P := combine (t_wa t) (t_bs t)) in *.
  assert (map fst P = t_wa t) as MF by (apply ListX.map_fst_combine; auto).
  assert (map snd P = t_bs t) as MS by (apply ListX.map_snd_combine; auto).
  assert (P <> []) as NP by (intros E; rewrite E in MF; simpl in MF; congruence).
  assert (PP <> []) as NPP.
  { subst PP. destruct P as [|[a r] P']; [contradiction|]. unfold drop_key. simpl.
    destruct (Reqb_spec a 180); simpl; [|discriminate]. subst. rewrite Reqb_false by lra. simpl.
    rewrite map_app. intros E. apply app_eq_nil in E. destruct E as [_ E]. apply app_eq_nil in E.
    destruct E as [_ E]. discriminate. }
  assert (forall p, In p PP -> In p P \/ exists q, In q P /\ p = fmir q) as SUB.
  { intros p Hp. subst PP. apply in_app_or in Hp. destruct Hp as [Hp|Hp].
    - left. apply drop_key_In in Hp. tauto.
    - right. apply in_map_iff in Hp. destruct Hp as [q [<- Hq]]. apply in_rev in Hq.
      apply drop_key_In in Hq. exists q. tauto. }
  assert (shaped (length (map fst PP)) (length (t_ws t)) (map snd PP)) as SH.
  { split; [rewrite !map_length; auto|]. intros r Hr. apply in_map_iff in Hr. destruct Hr as [p [<- Hp]].
    assert (In (snd p) (t_bs t)); auto.
    rewrite <- MS. destruct (SUB p Hp) as [H|[q [H ->]]]; simpl; apply in_map; auto. }
  assert (map fst PP <> []) as NF by (destruct PP; [contradiction|discriminate]).
  destruct (f_table_new_ok (t_ws t) (map fst PP) (map snd PP) NF NS T3 SH) as [t' [E [P1 [P2 EN]]]].
  assert (StronglySorted Rle (t_ws t')) as SW.
  { revert E. unfold f_table_new. rewrite (build_ws_iter (t_ws t) NS T3). cbn [rbind].
    destruct (map fst PP) as [|a0 l0] eqn:EF; [congruence|]. rewrite <- EF in *. destruct (has_shape _ _ _); [|discriminate].
    destruct (sort_table_ok (t_ws t) (map np_mod360 (map fst PP)) (map snd PP)) as [w1 [a1 [b1 [E1 [_ [_ [S1 _]]]]]]].
    { rewrite EF. discriminate. } { auto. } { rewrite map_length. auto. }
    rewrite E1. cbn [rbind]. intros Q. injection Q as <-. exact S1. }
  exists t'. split; auto.
  assert (t_ws t' = t_ws t) as EW.
  { apply (sorted_perm_unique _ Rle); auto; [intros; lra|apply Permutation_sym; auto]. }
  split; auto.
  assert (forall a r, In (a, r) P -> 0 <= a < 360) as RP.
  { intros a r H. apply T4. rewrite <- MF. change a with (fst (a, r)). apply in_map. auto. }
  assert (forall s a v, entry t s a v <-> exists r, In (a, r) P /\ In (s, v) (combine (t_ws t) r)) as ET.
  { intros. unfold entry. apply listed_In. }
  split.
  { rewrite EP in P2. rewrite !map_app in P2. rewrite !map_map in P2.
    assert (map (fun x => np_mod360 (fst x)) (drop_key 180 P) = map fst (drop_key 180 P)) as E1.
    { apply map_ext_in. intros [x r] H. apply drop_key_In in H. apply mod_small. eapply RP. apply H. }
    rewrite E1 in P2. exact P2. }
  intros s a v. rewrite EN, f_in_pairs. split.
  - intros [x [r [H1 [-> H2]]]]. subst PP. apply in_app_or in H1. destruct H1 as [H1|H1].
    + apply drop_key_In in H1. left. apply ET. exists r. rewrite mod_small by (eapply RP; apply H1). tauto.
    + apply in_map_iff in H1. destruct H1 as [[b r'] [E1 H1]]. unfold fmir in E1. simpl in E1.
      inversion E1; subst. apply in_rev in H1. apply drop_key_In in H1.
      right. exists b. split; [apply ET; exists r; tauto|reflexivity].
  - intros H. assert (exists b, entry t s b v /\ (a = b \/ a = mirror b)) as [b [Hb Ha]].
    { destruct H as [H|[b [H1 H2]]]; eauto. }
    apply ET in Hb. destruct Hb as [r [Ib Iv]]. pose proof (RP b r Ib) as Rb.
    assert (b <> 180 -> In (b, r) PP) as K1.
    { intros N. subst PP. apply in_or_app. left. apply drop_key_In. auto. }
    assert (b <> 0 -> In (f_sub 360 b, r) PP) as K2.
    { intros N. subst PP. apply in_or_app. right. apply in_map_iff. exists (b, r). split; auto.
      apply in_rev. rewrite rev_involutive. apply drop_key_In. auto. }
    destruct Ha as [->| ->].
    + destruct (Req_EM_T b 180) as [->|N].
      * exists (f_sub 360 180), r. split; [apply K2; lra|]. split; auto. symmetry. apply mirror_180.
      * exists b, r. split; auto. rewrite mod_small by lra. auto.
    + destruct (Req_EM_T b 0) as [->|N].
      * exists 0, r. split; [apply K1; lra|]. split; auto. rewrite mirror_0. symmetry. apply mod_small. lra.
      * exists (f_sub 360 b), r. split; auto.
Qed.

(** C159.  The symmetrised table has the entries of the table and their mirror images, rounded, and nothing else. *)
Theorem float_table_mirrors : forall t, table_ok t -> no_duplicates t -> t_wa t <> [] -> t_ws t <> [] ->
  exists t', f_table_symmetrize t = Ok t' /\ t_ws t' = t_ws t /\
    (forall s a v, entry t s a v -> entry t' s a v) /\
    (forall s b v, entry t s b v -> exists a, near_mirror b a /\ 0 <= a < 360 /\ entry t' s a v) /\
    (forall s a v, entry t' s a v -> 0 <= a < 360 /\ (entry t s a v \/ exists b, entry t s b v /\ near_mirror b a)).
Proof.
  intros t OK ND NA NS. destruct (f_symmetrize_ok t OK ND NA NS) as [t' [E [EW [_ EN]]]]. exists t'.
  assert (forall s b v, entry t s b v -> 0 <= b < 360) as RB.
  { intros s b v [i [j [_ [H _]]]]. apply OK. eapply nth_error_In; eauto. }
  split; auto. split; auto. split; [intros; apply EN; auto|]. split.
  - intros s b v H. pose proof (RB _ _ _ H). exists (mirror b). split; [apply mirror_near; lra|].
    split; [apply mirror_range; lra|]. apply EN. eauto.
  - intros s a v H. apply EN in H. destruct H as [H|[b [H ->]]]; pose proof (RB _ _ _ H); [auto|].
    split; [apply mirror_range; lra|]. right. exists b. split; auto. apply mirror_near. lra.
Qed.
Print Assumptions float_table_mirrors.

Lemma f_symmetrize_distinct : forall t t', table_ok t -> no_duplicates t -> t_wa t <> [] -> t_ws t <> [] ->
  distinct_mirrors (t_wa t) -> f_table_symmetrize t = Ok t' -> no_duplicates t'.
Proof.
  intros t t' OK ND NA NS [D1 D2] ET. destruct (f_symmetrize_ok t OK ND NA NS) as [t0 [E [EW [PM _]]]].
  assert (t0 = t') as -> by congruence. destruct OK as [T1 [T2 [T3 [T4 [SL SR]]]]]. destruct ND as [N1 N2].
  set (P := combine (t_wa t) (t_bs t)) in *.
  assert (map fst P = t_wa t) as MF by (apply ListX.map_fst_combine; auto).
  assert (forall a r, In (a, r) P -> In a (t_wa t)) as IP.
  { intros a r H. rewrite <- MF. change a with (fst (a, r)). apply in_map. auto. }
  split; [rewrite EW; auto|]. eapply Permutation_NoDup; [exact PM|]. apply NoDup_app_intro.
  - apply drop_key_NoDup. rewrite MF. auto.
  - rewrite <- (map_map fst mirror).
    assert (forall l, NoDup l -> (forall a, In a l -> In a (t_wa t)) -> NoDup (map mirror l)) as IN.
    { induction l as [|x l IH]; intros NL I; simpl; constructor; inversion NL; subst.
      - intros H. apply in_map_iff in H. destruct H as [y [Q Y]]. apply D1 in Q; [congruence|apply I; right; auto|apply I; left; auto].
      - apply IH; auto. intros; apply I; right; auto. }
    apply IN.
    + rewrite map_rev. apply NoDup_rev. apply drop_key_NoDup. rewrite MF. auto.
    + intros a H. apply in_map_iff in H. destruct H as [[x r] [<- H]]. apply in_rev in H. apply drop_key_In in H. eapply IP. apply H.
  - intros a H1 H2. apply in_map_iff in H1. destruct H1 as [[x r] [E1 H1]]. apply in_map_iff in H2. destruct H2 as [[y q] [E2 H2]].
    apply drop_key_In in H1. apply in_rev in H2. apply drop_key_In in H2. cbn [fst] in *.
    destruct H1 as [H1 X]. destruct H2 as [H2 Y]. subst a.
    assert (y = x) by (apply D2; eauto). subst y.
    (* an angle that is its own mirror image is 0 or 180 *)
    pose proof (T4 x (IP _ _ H1)) as B. pose proof (sub_range x ltac:(lra)) as SB.
    assert (f_sub 360 x = x \/ (f_sub 360 x = 360 /\ x = 0)) as [F|[_ F]].
    { unfold mirror in E2. destruct (Req_dec (f_sub 360 x) 360) as [Q|Q]; [rewrite Q, mod_360 in E2; right; auto|].
      rewrite mod_small in E2 by lra. auto. }
    + assert (binary64 180) as F180 by (apply (format_int 180); lia). unfold f_sub in F.
      destruct (Rtotal_order x 180) as [L|[L|L]]; [|contradiction|].
      * pose proof (rnd_ge 180 (360 - x) F180 ltac:(lra)). lra.
      * pose proof (rnd_le (360 - x) 180 F180 ltac:(lra)). lra.
    + contradiction.
Qed.

(** C159.  If different angles have different mirror images and none is the mirror image of another one, every entry is
    found under its angle and under 360 minus this angle, as computed. *)
Theorem float_table_symmetric : forall t, table_ok t -> no_duplicates t -> t_wa t <> [] -> t_ws t <> [] ->
  distinct_mirrors (t_wa t) ->
  exists t', f_table_symmetrize t = Ok t' /\
    forall s a v, entry t s a v -> f_getitem t' [s] [a] = Ok v /\ f_getitem t' [s] [f_sub 360 a] = Ok v.
Proof.
  intros t OK ND NA NS D. destruct (f_symmetrize_ok t OK ND NA NS) as [t' [E [EW [_ EN]]]]. exists t'. split; auto.
  pose proof (f_symmetrize_distinct t t' OK ND NA NS D E) as ND'. intros s a v H.
  pose proof H as [i [j [H1 [H2 _]]]]. apply nth_error_In in H1, H2.
  assert (0 <= s) by (pose proof OK as [_ [_ [T3 _]]]; apply T3; auto). assert (0 <= a < 360) by (pose proof OK as [_ [_ [_ [T4 _]]]]; apply T4; auto). split.
  - apply f_getitem_entry; auto. rewrite mod_small by auto. apply EN. auto.
  - apply f_getitem_entry; auto. apply EN. right. exists a. auto.
Qed.
Print Assumptions float_table_symmetric.

(** C159.  If moreover the differences 360 - wa need no rounding, the symmetrised table is symmetric at all of its winds. *)
Theorem float_table_symmetric_partial : forall t, table_ok t -> no_duplicates t -> t_wa t <> [] -> t_ws t <> [] ->
  (forall a, In a (t_wa t) -> binary64 a /\ binary64 (360 - a)) -> one_sided (t_wa t) ->
  exists t', f_table_symmetrize t = Ok t' /\
    forall s a v, entry t' s a v -> f_getitem t' [s] [a] = Ok v /\ f_getitem t' [s] [f_sub 360 a] = Ok v.
Proof.
  intros t OK ND NA NS F OS.
  assert (forall a, In a (t_wa t) -> 0 <= a < 360) as B by apply OK.
  assert (forall a, In a (t_wa t) -> mirror (mirror a) = a) as M2.
  { intros a I. apply mirror_exact; auto; apply F; auto. }
  assert (distinct_mirrors (t_wa t)) as D.
  { split; intros a b I J Q; [rewrite <- (M2 a I), <- (M2 b J); congruence|]. apply OS; auto. split; auto.
    pose proof (B a I) as BA. unfold mirror in Q. rewrite sub_exact in Q by (apply F; auto).
    destruct (Req_dec a 0) as [->|N].
    - replace (360 - 0) with 360 in * by lra. rewrite mod_360 in Q. exists 1%Z. lra.
    - rewrite mod_small in Q by lra. exists 0%Z. lra. }
  destruct (f_symmetrize_ok t OK ND NA NS) as [t' [E [EW [_ EN]]]]. exists t'. split; auto.
  pose proof (f_symmetrize_distinct t t' OK ND NA NS D E) as ND'. intros s a v H.
  pose proof H as [i [j [H1 [H2 _]]]]. apply nth_error_In in H1, H2. rewrite EW in H1.
  assert (0 <= s) by (pose proof OK as [_ [_ [T3 _]]]; apply T3; auto).
  pose proof (proj1 (EN s a v) H) as C.
  assert (0 <= a < 360) as BA.
  { destruct C as [[i0 [j0 [_ [C _]]]]|[b [[i0 [j0 [_ [C _]]]] ->]]]; apply nth_error_In in C; auto. apply mirror_range.
    pose proof (B b C). lra. }
  split; apply f_getitem_entry; auto; [rewrite mod_small; auto|]. apply EN.
  change (np_mod360 (f_sub 360 a)) with (mirror a). destruct C as [C|[b [C ->]]]; [right; eauto|].
  left. rewrite M2; auto. destruct C as [i0 [j0 [_ [C _]]]]. eapply nth_error_In; eauto.
Qed.
Print Assumptions float_table_symmetric_partial.

(** ** Counterexamples *)

Lemma one_mirrors : forall a, 0 <= a < 360 -> distinct_mirrors [a].
Proof. intros a B. split; intros x y [<-|[]] [<-|[]] _; reflexivity. Qed.

(** C159 is false for other angles: the table with an entry at 0.1 degrees has, symmetrised, an entry at 359.9 degrees, but
    none at 360 - 359.9 degrees. *)
Theorem float_table_symmetric_refuted : exists t t' a, one_angle tenth = Ok t /\ f_table_symmetrize t = Ok t' /\
  f_getitem t' [10] [a] = Ok 2 /\ 0 <= a < 360 /\ f_getitem t' [10] [f_sub 360 a] = Raise ValueError.
Proof.
  assert (0 <= tenth < 360) as B by (unfold tenth; small_bpow; lra).
  assert (mirror tenth <> tenth) as NT by (rewrite tenth_mirror; unfold tenth; small_bpow; lra).
  assert (mirror (mirror tenth) = 360 - IZR 6331427757385318 * bpow radix2 (-44)) as M2.
  { rewrite tenth_mirror. unfold mirror. rewrite sub_exact.
    - apply mod_small. small_bpow. lra.
    - apply sub_far; [apply multiple_format; lia|small_bpow; lra]. }
  assert (mirror (mirror tenth) <> tenth) as N1 by (rewrite M2; unfold tenth; small_bpow; lra).
  assert (mirror (mirror tenth) <> mirror tenth) as N2 by (rewrite M2, tenth_mirror; small_bpow; lra).
  set (t := mkTable [10] [tenth] [[2]] false).
  assert (table_ok t) as OK.
  { split; [repeat constructor|]. split; [repeat constructor|]. split; [intros s [<-|[]]; lra|]. split; [intros a [<-|[]]; auto|].
    split; auto. intros r [<-|[]]. reflexivity. }
  assert (no_duplicates t) as ND by (split; repeat constructor; simpl; auto).
  assert (entry t 10 tenth 2) as EN0 by (exists 0%nat, 0%nat; split; [reflexivity|]; split; [reflexivity|]; exists [2]; auto).
  destruct (f_symmetrize_ok t OK ND ltac:(discriminate) ltac:(discriminate)) as [t' [E [EW [PM EN]]]].
  destruct (float_table_symmetric t OK ND ltac:(discriminate) ltac:(discriminate) (one_mirrors _ B)) as [t1 [E1 G]].
  assert (t1 = t') as -> by congruence. exists t, t', (mirror tenth).
  split; [rewrite one_angle_table, mod_small by auto; reflexivity|]. split; auto.
  pose proof (f_symmetrize_distinct t t' OK ND ltac:(discriminate) ltac:(discriminate) (one_mirrors _ B) E) as ND'.
  pose proof (mirror_range tenth ltac:(lra)) as MR.
  split; [apply f_getitem_entry; auto; [lra|]; rewrite mod_small by auto; apply EN; right; exists tenth; auto|].
  split; auto. apply f_getitem_missing. right. right. change (np_mod360 (f_sub 360 (mirror tenth))) with (mirror (mirror tenth)).
  intros I. eapply Permutation_in in I; [|apply Permutation_sym; exact PM]. apply in_app_or in I.
  destruct I as [I|I]; apply in_map_iff in I; destruct I as [[x r] [Q I]].
  - apply drop_key_In in I. destruct I as [[I|[]] _]. injection I as <- <-. cbn [fst] in Q. auto.
  - apply in_rev in I. apply drop_key_In in I. destruct I as [[I|[]] _]. injection I as <- <-. cbn [fst] in Q. auto.
Qed.
Print Assumptions float_table_symmetric_refuted.

(** ** Angles with the same mirror image *)

Lemma count_indices : forall (res : list R) y, length (filter (fun ix => nmem (snd ix) [y]) (enumerate res)) = count_occ Req_EM_T res y.
Proof.
  intros res y. unfold enumerate. generalize 0%nat.
  induction res as [|x res IH]; intros n; simpl; auto. unfold nmem in *. simpl in *. rnum.
  destruct (Reqb_spec y x) as [Q|Q]; destruct (Req_EM_T x y) as [E|E]; try congruence; simpl; rewrite IH; auto.
Qed.

Lemma f_getitem_twice : forall t s x, NoDup (t_ws t) -> 0 <= s -> In s (t_ws t) ->
  (2 <= count_occ Req_EM_T (t_wa t) (np_mod360 x))%nat -> f_getitem t [s] [x] = Raise TypeError.
Proof.
  intros t s x N P I C. unfold f_getitem. apply In_nth_error in I. destruct I as [j J].
  rewrite (get_indices_one normalize_ws (t_ws t) s s j); auto.
  - cbn [rbind]. unfold get_indices, f_normalize_wa. cbn [rbind map forallb].
    assert (In (np_mod360 x) (t_wa t)) as I by (apply (count_occ_In Req_EM_T); lia).
    rewrite (proj2 (nmem_R _ _) I). cbn [andb rbind].
    assert (2 <= length (map fst (filter (fun ix => nmem (snd ix) [np_mod360 x]) (enumerate (t_wa t)))))%nat as L.
    { rewrite map_length, count_indices. auto. }
    destruct (map fst _) as [|i [|k l]]; simpl in L; try lia. reflexivity.
  - unfold normalize_ws. simpl. rnum. rewrite Rltb_false by lra. reflexivity.
Qed.

Lemma count_two : forall A (f : A -> R) l p q m, In p l -> In q l -> p <> q -> f p = m -> f q = m ->
  (2 <= count_occ Req_EM_T (map f l) m)%nat.
Proof.
  induction l as [|x l IH]; intros p q m HP HQ N EP EQ; [destruct HP|].
  assert (forall z, In z l -> f z = m -> (1 <= count_occ Req_EM_T (map f l) m)%nat) as ONE.
  { intros z Z EZ. apply (count_occ_In Req_EM_T). rewrite <- EZ. apply in_map. auto. }
  simpl. destruct HP as [->|HP], HQ as [->|HQ].
  - congruence.
  - destruct (Req_EM_T (f p) m) as [_|Q]; [|contradiction]. specialize (ONE q HQ EQ). lia.
  - destruct (Req_EM_T (f q) m) as [_|Q]; [|contradiction]. specialize (ONE p HP EP). lia.
  - specialize (IH p q m HP HQ N EP EQ). destruct (Req_EM_T (f x) m); lia.
Qed.

(** C159.  Entries of different angles with the same mirror image cannot be read at that image. *)
Theorem float_table_merged : forall t a b s, table_ok t -> no_duplicates t -> In s (t_ws t) ->
  In a (t_wa t) -> In b (t_wa t) -> a <> b -> mirror a = mirror b ->
  exists t', f_table_symmetrize t = Ok t' /\ f_getitem t' [s] [f_sub 360 a] = Raise TypeError.
Proof.
  intros t a b s OK ND IS IA IB N M.
  assert (t_wa t <> []) as NA by (intros Q; rewrite Q in IA; destruct IA).
  assert (t_ws t <> []) as NS by (intros Q; rewrite Q in IS; destruct IS).
  destruct (f_symmetrize_ok t OK ND NA NS) as [t' [E [EW [PM EN]]]]. exists t'. split; auto.
  destruct OK as [T1 [T2 [T3 [T4 [SL SR]]]]]. destruct ND as [N1 N2].
  apply f_getitem_twice; [rewrite EW; auto|auto|rewrite EW; auto|].
  change (np_mod360 (f_sub 360 a)) with (mirror a).
  rewrite <- (proj1 (Permutation_count_occ Req_EM_T _ _) PM). rewrite count_occ_app.
  set (P := combine (t_wa t) (t_bs t)) in *.
  assert (map fst P = t_wa t) as MF by (apply ListX.map_fst_combine; auto).
  assert (forall z, In z (t_wa t) -> exists r, In (z, r) P) as IP.
  { intros z Z. rewrite <- MF in Z. apply in_map_iff in Z. destruct Z as [[z' r] [<- Z]]. exists r. auto. }
  assert (forall c d, In c (t_wa t) -> In d (t_wa t) -> c = 0 -> d <> 0 -> mirror d = mirror c ->
    (2 <= count_occ Req_EM_T (map fst (drop_key 180 P)) (mirror c) +
      count_occ Req_EM_T (map (fun p => mirror (fst p)) (rev (drop_key 0 P))) (mirror c))%nat) as ZERO.
  { intros c d C D -> DZ MD. destruct (IP 0 C) as [r IC]. destruct (IP d D) as [q ID].
    assert (1 <= count_occ Req_EM_T (map fst (drop_key 180 P)) (mirror 0))%nat as O1.
    { apply (count_occ_In Req_EM_T). rewrite mirror_0. change 0 with (fst (0, r)). apply in_map. apply drop_key_In. split; [auto|cbn [fst]; lra]. }
    assert (1 <= count_occ Req_EM_T (map (fun p => mirror (fst p)) (rev (drop_key 0 P))) (mirror 0))%nat as O2.
    { apply (count_occ_In Req_EM_T). rewrite <- MD. apply in_map_iff. exists (d, q). split; auto.
      apply in_rev. rewrite rev_involutive. apply drop_key_In. auto. }
    lia. }
  destruct (Req_EM_T a 0) as [A0|A0]; [apply (ZERO a b); auto; congruence|].
  destruct (Req_EM_T b 0) as [B0|B0]; [rewrite M; apply (ZERO b a); auto|].
  destruct (IP a IA) as [r HA]. destruct (IP b IB) as [q HB].
  assert (2 <= count_occ Req_EM_T (map (fun p => mirror (fst p)) (rev (drop_key 0 P))) (mirror a))%nat; [|lia].
  apply (count_two _ _ _ (a, r) (b, q)); auto.
  - apply in_rev. rewrite rev_involutive. apply drop_key_In. auto.
  - apply in_rev. rewrite rev_involutive. apply drop_key_In. auto.
  - congruence.
Qed.
Print Assumptions float_table_merged.

(** Symmetrising thus loses recorded entries: a table with the angles 0 and 2^-46 degrees. *)
Theorem float_table_merged_refuted : exists t t', table_ok t /\ no_duplicates t /\ (forall a, In a (t_wa t) -> binary64 a) /\
  f_getitem t [10] [0] = Ok 2 /\ f_table_symmetrize t = Ok t' /\ f_getitem t' [10] [0] = Raise TypeError.
Proof.
  set (e := bpow radix2 (-46)). assert (0 < e < / 1000) as B by (unfold e; small_bpow; lra).
  set (t := mkTable [10] [0; e] [[2]; [3]] false).
  assert (table_ok t) as OK.
  { split; [repeat constructor|]. split; [repeat constructor; lra|]. split; [intros s [<-|[]]; lra|].
    split; [intros a [<-|[<-|[]]]; lra|]. split; auto. intros r [<-|[<-|[]]]; reflexivity. }
  assert (no_duplicates t) as ND.
  { split; [repeat constructor; simpl; auto|]. constructor; [simpl; intros [Q|[]]; lra|repeat constructor; simpl; auto]. }
  assert (mirror 0 = mirror e) as ME.
  { rewrite mirror_0. unfold mirror, f_sub.
    assert (rnd (360 - e) = IZR 6333186975989760 * bpow radix2 (-44)) as E.
    { unfold e. apply rnd_to; [lia|small_bpow; lra|apply Rabs_def1; small_bpow; lra]. }
    rewrite E. replace (IZR 6333186975989760 * bpow radix2 (-44)) with 360 by (small_bpow; lra). symmetry. apply mod_360. }
  destruct (float_table_merged t 0 e 10 OK ND) as [t' [E G]]; auto; try (simpl; tauto); [lra|].
  exists t, t'. split; auto. split; auto. split.
  { intros a [<-|[<-|[]]]; [apply format_0|]. unfold e. apply generic_format_bpow. unfold fexp, FLT_exp. lia. }
  split.
  { apply f_getitem_entry; auto; [lra|]. rewrite mod_small by lra.
    exists 0%nat, 0%nat. split; [reflexivity|]. split; [reflexivity|]. exists [2]. auto. }
  split; auto.
  assert (f_sub 360 0 = 360) as S0 by (rewrite sub_exact; replace (360 - 0) with 360 by lra; auto; apply format_360).
  rewrite S0 in G. unfold f_getitem, get_indices, f_normalize_wa in *. cbn [map] in *.
  rewrite mod_360 in G. rewrite mod_small by lra. exact G.
Qed.
Print Assumptions float_table_merged_refuted.

(** A table with whole and half degrees. *)
Example float_table_meets : let t := mkTable [6; 10] [0; 105 / 2; 180] [[0; 1]; [5; 7]; [4; 6]] false in
  table_ok t /\ no_duplicates t /\ (forall a, In a (t_wa t) -> binary64 a /\ binary64 (360 - a)) /\ one_sided (t_wa t).
Proof.
  cbv zeta. split; [|split; [|split]].
  - split; [repeat constructor; lra|]. split; [repeat constructor; lra|]. split; [intros s [<-|[<-|[]]]; lra|].
    split; [intros a [<-|[<-|[<-|[]]]]; lra|]. split; auto. intros r [<-|[<-|[<-|[]]]]; reflexivity.
  - split; repeat constructor; simpl; intros Q; repeat destruct Q as [Q|Q]; auto; lra.
  - assert (forall m, (Z.abs m < 2 ^ 53)%Z -> binary64 (IZR m * bpow radix2 (-1))) as H by (intros; apply multiple_format; lia).
    intros a [<-|[<-|[<-|[]]]].
    + split; [replace 0 with (IZR 0 * bpow radix2 (-1)) by (small_bpow; lra)|replace (360 - 0) with (IZR 720 * bpow radix2 (-1)) by (small_bpow; lra)]; apply H; lia.
    + split; [replace (105 / 2) with (IZR 105 * bpow radix2 (-1)) by (small_bpow; lra)|replace (360 - 105 / 2) with (IZR 615 * bpow radix2 (-1)) by (small_bpow; lra)]; apply H; lia.
    + split; [replace 180 with (IZR 360 * bpow radix2 (-1)) by (small_bpow; lra)|replace (360 - 180) with (IZR 360 * bpow radix2 (-1)) by (small_bpow; lra)]; apply H; lia.
  - intros a b IA IB [RB [k K]].
    assert (forall x : R, In x [0; 105 / 2; 180] -> x = 0 \/ x = 105 / 2 \/ x = 180) as C by (intros x [<-|[<-|[<-|[]]]]; auto).
    destruct (C a IA) as [-> | [-> | ->]], (C b IB) as [-> | [-> | ->]]; auto; exfalso;
      assert (IZR k <= 0 \/ 1 <= IZR k) as KK by (destruct (Z_le_gt_dec k 0); [left; apply IZR_le; lia|right; apply (IZR_le 1); lia]);
      assert (IZR k <= 1 \/ 2 <= IZR k) as K2 by (destruct (Z_le_gt_dec k 1); [left; apply IZR_le; lia|right; apply (IZR_le 2); lia]);
      assert (IZR k <= -1 \/ 0 <= IZR k) as K3 by (destruct (Z_le_gt_dec k (-1)); [left; apply IZR_le; lia|right; apply (IZR_le 0); lia]); lra.
Qed.
