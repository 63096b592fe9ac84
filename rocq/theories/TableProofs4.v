From Coq Require Import List Bool Arith ZArith Reals Lra Lia Permutation Sorted.
From Verif Require Import Py Num PySort ListX WPointsModel NhoodModel NhoodSpec NhoodProofs InterpModel
  InterpSpec InterpProofs TableModel TableSpec TableProofs TableProofs2 TableProofs3.
Import ListNotations.
Open Scope R_scope.

(* ---- interpolation ---- *)

Lemma mask_repeat : forall A (pts : list A) (x : R) m, length m = length pts ->
  mask_list (repeat x (length pts)) m = repeat x (length (mask_list pts m)).
Proof.
  induction pts as [|a pts IH]; intros x [|c m] L; simpl in *; try discriminate; auto.
  destruct c; simpl; rewrite IH by lia; auto.
Qed.

Lemma interpolate_marks : forall nhood interp (Near : R * R -> Prop) (pts : list (pt3 R)) s a,
  (forall l, exists m, nhood l = Ok m /\ marks m l Near) ->
  exists ps, (forall p, In p ps <-> In p pts /\ Near (pws p - s, pwa p - a)) /\
    interpolate_from nhood interp pts s a = interp ps (repeat 1 (length ps)) (s, a).
Proof.
  intros nhood interp Near pts s a H. unfold interpolate_from. rnum.
  destruct (H (map (fun p => (pws p - s, pwa p - a)) pts)) as [m [E [l [-> [L M]]]]].
  rewrite map_length in L.
  destruct (np_mask_marks _ pts (fun p => Near (pws p - s, pwa p - a)) l L) as [ps [E1 I]].
  { intros i p Hp. apply M. apply (map_nth_error (fun p => (pws p - s, pwa p - a))). auto. }
  exists ps. split; auto. rewrite E. cbn [rbind]. rewrite E1. cbn [rbind].
  unfold np_mask in *. rewrite repeat_length, L, Nat.eqb_refl in *. cbn [rbind].
  injection E1 as <-. rewrite mask_repeat by auto. reflexivity.
Qed.

Lemma first_at_dec : forall norm g (pts : list (pt3 R)),
  (exists p, first_at norm g pts p) \/ (forall p, In p pts -> dist_to norm g p <> 0).
Proof.
  induction pts as [|a pts IH]; [right; intros p []|].
  destruct (Req_EM_T (dist_to norm g a) 0) as [E|N].
  - left. exists a, [], pts. split; auto.
  - destruct IH as [[p [l1 [l2 [E [Z F]]]]]|IH].
    + left. exists p, (a :: l1), l2. subst. split; auto. split; auto.
      intros q [<-|Hq]; auto.
    + right. intros p [<-|Hp]; auto.
Qed.

Lemma amean_default_any : forall norm norm_all params (pts : list (pt3 R)) wts g,
  rowwise norm norm_all -> pts <> [] -> length wts = length pts ->
  exists v, amean norm_all 1 (default_distr params) pts wts g = Ok v /\ in_range (map pbs pts) v.
Proof.
  intros norm norm_all params pts wts g RW NE L.
  destruct (first_at_dec norm g pts) as [[p F]|N].
  - exists (pbs p). split; [apply (amean_first norm norm_all RW); auto|].
    intros lo hi B. apply B. apply in_map. destruct F as [l1 [l2 [-> _]]]. apply in_or_app. right. left. auto.
  - destruct (amean_default norm norm_all RW params pts wts g N L NE) as [w [_ [_ [E B]]]]. eauto.
Qed.

(* ---- symmetrize ---- *)

Definition mir (p : R * list R) : R * list R := (360 - fst p, snd p).

Lemma np_delete_map : forall A B (f : A -> B) l i, np_delete (map f l) i = map f (np_delete l i).
Proof. intros. unfold np_delete. rewrite map_app, firstn_map, skipn_map. auto. Qed.

Lemma removelast_map : forall A B (f : A -> B) l, removelast (map f l) = map f (removelast l).
Proof.
  induction l as [|a l IH]; simpl; auto. destruct l as [|b l]; auto.
  cbn [map] in *. rewrite IH. reflexivity.
Qed.

Lemma np_delete_app : forall A (l1 l2 : list A) i, (i < length l1)%nat ->
  np_delete (l1 ++ l2) i = np_delete l1 i ++ l2.
Proof.
  intros A l1 l2 i H. unfold np_delete. rewrite firstn_app, skipn_app.
  replace (i - length l1)%nat with O by lia. replace (S i - length l1)%nat with O by lia.
  simpl. rewrite app_nil_r, app_assoc. auto.
Qed.

Lemma index_of_lt : forall (x : R) l, In x l -> (index_of x l < length l)%nat.
Proof.
  induction l as [|y l IH]; simpl; intros H; [destruct H|]. rnum.
  destruct (Reqb_spec y x); [lia|]. destruct H; [congruence|]. specialize (IH H). lia.
Qed.

Lemma index_of_app : forall (x : R) l1 l2, In x l1 -> index_of x (l1 ++ l2) = index_of x l1.
Proof.
  induction l1 as [|y l1 IH]; simpl; intros l2 H; [destruct H|]. rnum.
  destruct (Reqb_spec y x); auto. destruct H; [congruence|]. f_equal. auto.
Qed.

Definition drop_key (x : R) (P : list (R * list R)) : list (R * list R) :=
  filter (fun p => negb (Reqb (fst p) x)) P.

Lemma delete_key : forall (x : R) (P : list (R * list R)), NoDup (map fst P) -> In x (map fst P) ->
  np_delete P (index_of x (map fst P)) = drop_key x P.
Proof.
  induction P as [|[y r] P IH]; intros N I; [destruct I|]. simpl in *. rnum.
  inversion N as [|? ? NI N']; subst. destruct (Reqb_spec y x) as [E|E]; simpl.
  - subst. unfold drop_key. symmetry. apply ListX.filter_all. intros [z q] H. simpl.
    destruct (Reqb_spec z x); auto. subst. exfalso. apply NI. change x with (fst (x, q)).
    apply in_map. auto.
  - destruct I as [I|I]; [congruence|]. unfold np_delete in *. simpl. f_equal. apply IH; auto.
Qed.

Lemma drop_key_absent : forall x P, ~ In x (map fst P) -> drop_key x P = P.
Proof.
  intros x P N. unfold drop_key. apply ListX.filter_all. intros [z q] H. simpl.
  destruct (Reqb_spec z x); auto. subst. exfalso. apply N. change x with (fst (x, q)). apply in_map. auto.
Qed.

Lemma drop_key_In : forall x P p, In p (drop_key x P) <-> In p P /\ fst p <> x.
Proof.
  intros. unfold drop_key. rewrite filter_In. destruct (Reqb_spec (fst p) x); simpl; intuition discriminate.
Qed.

(** The rows handed to the constructor. *)
Lemma symmetrize_pairs : forall t, table_ok t -> no_duplicates t ->
  exists PP, PP = drop_key 180 (combine (t_wa t) (t_bs t)) ++
                  map mir (rev (drop_key 0 (combine (t_wa t) (t_bs t)))) /\
  table_symmetrize t = table_new (RIter (t_ws t)) (RIter (map fst PP)) (Some (Nd2 (map snd PP))).
Proof.
  intros t [T1 [T2 [T3 [T4 [SL SR]]]]] [N1 N2].
  set (P := combine (t_wa t) (t_bs t)).
  assert (map fst P = t_wa t) as MF by (apply ListX.map_fst_combine; auto).
  assert (map snd P = t_bs t) as MS by (apply ListX.map_snd_combine; auto).
  eexists. split; [reflexivity|]. unfold table_symmetrize. rnum.
  set (Q := P ++ map mir (rev P)).
  assert (t_wa t ++ map (fun a => 360 - a) (rev (t_wa t)) = map fst Q) as ->.
  { unfold Q. rewrite map_app, map_map. f_equal; auto. rewrite <- MF, <- map_rev, map_map. auto. }
  assert (t_bs t ++ rev (t_bs t) = map snd Q) as ->.
  { unfold Q. rewrite map_app, map_map. f_equal; auto. rewrite <- MS, <- map_rev. auto. }
  set (Q1 := drop_key 180 P ++ map mir (rev P)).
  assert ((if nmem 180 (t_wa t) then
             (np_delete (map fst Q) (index_of 180 (map fst Q)), np_delete (map snd Q) (index_of 180 (map fst Q)))
           else (map fst Q, map snd Q)) = (map fst Q1, map snd Q1)) as ->.
  { destruct (nmem 180 (t_wa t)) eqn:M.
    - apply nmem_R in M. rewrite !np_delete_map.
      assert (np_delete Q (index_of 180 (map fst Q)) = Q1) as ->; auto.
      unfold Q, Q1. rewrite map_app, index_of_app by (rewrite MF; auto).
      rewrite np_delete_app.
      + rewrite delete_key; auto; rewrite MF; auto.
      + pose proof (index_of_lt 180 (map fst P)) as L. rewrite map_length in L. apply L. rewrite MF. auto.
    - unfold Q1. rewrite drop_key_absent; auto. rewrite MF. intros I. apply nmem_R in I. congruence. }
  cbv zeta beta iota.
  assert ((if nmem 0 (t_wa t) then (removelast (map fst Q1), removelast (map snd Q1))
           else (map fst Q1, map snd Q1)) =
          (map fst (drop_key 180 P ++ map mir (rev (drop_key 0 P))),
           map snd (drop_key 180 P ++ map mir (rev (drop_key 0 P))))) as ->; auto.
  destruct (nmem 0 (t_wa t)) eqn:M.
  - apply nmem_R in M. rewrite !removelast_map.
    assert (removelast Q1 = drop_key 180 P ++ map mir (rev (drop_key 0 P))) as ->; auto.
    unfold Q1. destruct P as [|[a r] P'] eqn:EP.
    { simpl in MF. rewrite <- MF in M. destruct M. }
    assert (a = 0) as ->.
    { rewrite <- MF in M, T2. simpl in M, T2. destruct M as [M|M]; auto.
      inversion T2 as [|? ? S F]; subst. rewrite Forall_forall in F. specialize (F 0 M).
      assert (0 <= a < 360) by (apply T4; rewrite <- MF; left; auto). lra. }
    assert (drop_key 0 ((0, r) :: P') = P') as ->.
    { unfold drop_key. simpl. rewrite Reqb_refl. simpl. apply ListX.filter_all. intros [z q] H. simpl.
      destruct (Reqb_spec z 0); auto. subst. exfalso.
      rewrite <- MF in N2. simpl in N2. inversion N2 as [|? ? NI N']; subst. apply NI.
      change 0 with (fst (0, q)). apply in_map. auto. }
    simpl rev. rewrite map_app. simpl map at 2. rewrite app_assoc. apply removelast_last.
  - unfold Q1. rewrite (drop_key_absent 0); auto. rewrite MF. intros I. apply nmem_R in I. congruence.
Qed.

Lemma in_pairs : forall (PP : list (R * list R)) ws s a v,
  (exists i j, listed ws (map (fun x => nmod x 360) (map fst PP)) (map snd PP) i j s a v) <->
  exists x r, In (x, r) PP /\ a = nmod x 360 /\ In (s, v) (combine ws r).
Proof.
  intros. rewrite listed_In.
  assert (combine (map (fun x => nmod x 360) (map fst PP)) (map snd PP) =
          map (fun p => (nmod (fst p) 360, snd p)) PP) as ->.
  { induction PP as [|[x r] PP IH]; simpl; auto. rewrite IH. auto. }
  split.
  - intros [r [H1 H2]]. apply in_map_iff in H1. destruct H1 as [[x r'] [E H1]]. simpl in E.
    inversion E; subst. eauto.
  - intros [x [r [H1 [-> H2]]]]. exists r. split; auto. apply in_map_iff. exists (x, r). auto.
Qed.

Lemma drop_key_NoDup : forall x P, NoDup (map fst P) -> NoDup (map fst (drop_key x P)).
Proof.
  intros x P. unfold drop_key. induction P as [|p P IH]; simpl; intros N; auto.
  inversion N as [|? ? NI N']; subst. destruct (negb (Reqb (fst p) x)); simpl; auto.
  constructor; auto. intros I. apply NI. apply in_map_iff in I. destruct I as [q [E I]].
  apply filter_In in I. rewrite <- E. apply in_map. tauto.
Qed.

Lemma symmetrize_ok : forall t, table_ok t -> no_duplicates t -> t_wa t <> [] -> t_ws t <> [] ->
  exists t', table_symmetrize t = Ok t' /\ table_ok t' /\ t_ws t' = t_ws t /\
    (forall s a v, entry t' s a v <->
       (entry t s a v \/ exists b, entry t s b v /\ reduced (360 - b) a)) /\
    (one_sided (t_wa t) -> no_duplicates t').
Proof.
  intros t OK ND NA NS. destruct (symmetrize_pairs t OK ND) as [PP [EP ->]].
  pose proof OK as OK0. destruct OK as [T1 [T2 [T3 [T4 [SL SR]]]]]. destruct ND as [N1 N2].
  set (P := combine (t_wa t) (t_bs t)) in *.
  assert (map fst P = t_wa t) as MF by (apply ListX.map_fst_combine; auto).
  assert (map snd P = t_bs t) as MS by (apply ListX.map_snd_combine; auto).
  assert (P <> []) as NP by (intros E; rewrite E in MF; simpl in MF; congruence).
  assert (PP <> []) as NPP.
  { subst PP. destruct P as [|[a r] P']; [contradiction|]. unfold drop_key. simpl.
    destruct (Reqb_spec a 180); simpl; [|discriminate]. subst. rewrite Reqb_false by lra. simpl.
    rewrite map_app. intros E. apply app_eq_nil in E. destruct E as [_ E]. apply app_eq_nil in E.
    destruct E as [_ E]. discriminate. }
  assert (forall p, In p PP -> In p P \/ exists q, In q P /\ p = mir q) as SUB.
  { intros p Hp. subst PP. apply in_app_or in Hp. destruct Hp as [Hp|Hp].
    - left. apply drop_key_In in Hp. tauto.
    - right. apply in_map_iff in Hp. destruct Hp as [q [<- Hq]]. apply in_rev in Hq.
      apply drop_key_In in Hq. exists q. tauto. }
  destruct (table_new_ok (t_ws t) (map fst PP) (map snd PP)) as [t' [E [OK' [P1 [P2 [_ EN]]]]]].
  { destruct PP; [contradiction|discriminate]. }
  { auto. }
  { auto. }
  { split; [rewrite !map_length; auto|]. intros r Hr. apply in_map_iff in Hr. destruct Hr as [p [<- Hp]].
    assert (In (snd p) (t_bs t)).
    { rewrite <- MS. destruct (SUB p Hp) as [H|[q [H ->]]]; simpl; apply in_map; auto. }
    auto. }
  exists t'. split; auto. split; auto.
  assert (t_ws t' = t_ws t) as EW.
  { apply (sorted_perm_unique _ Rle); auto.
    - intros; lra.
    - apply OK'.
    - apply Permutation_sym. auto. }
  split; auto.
  assert (forall a r, In (a, r) P -> 0 <= a < 360) as RP.
  { intros a r H. apply T4. rewrite <- MF. change a with (fst (a, r)). apply in_map. auto. }
  assert (forall s a v, entry t s a v <-> exists r, In (a, r) P /\ In (s, v) (combine (t_ws t) r)) as ET.
  { intros. unfold entry. apply listed_In. }
  split.
  - intros s a v. rewrite EN, in_pairs. split.
    + intros [x [r [H1 [-> H2]]]]. subst PP. apply in_app_or in H1. destruct H1 as [H1|H1].
      * apply drop_key_In in H1. left. apply ET. exists r.
        rewrite nmod_small by (eapply RP; apply H1). tauto.
      * apply in_map_iff in H1. destruct H1 as [[b r'] [E1 H1]]. unfold mir in E1. simpl in E1.
        inversion E1; subst. apply in_rev in H1. apply drop_key_In in H1.
        right. exists b. split; [apply ET; exists r; tauto|]. apply reduced_iff. auto.
    + intros H. assert (exists b, entry t s b v /\ (a = b \/ reduced (360 - b) a)) as [b [Hb Ha]].
      { destruct H as [H|[b [H1 H2]]]; eauto. }
      apply ET in Hb. destruct Hb as [r [Ib Iv]]. pose proof (RP b r Ib) as Rb.
      (* rows kept on either side *)
      assert (b <> 180 -> In (b, r) PP) as K1.
      { intros N. subst PP. apply in_or_app. left. apply drop_key_In. auto. }
      assert (b <> 0 -> In (360 - b, r) PP) as K2.
      { intros N. subst PP. apply in_or_app. right. apply in_map_iff. exists (b, r). split; auto.
        apply in_rev. rewrite rev_involutive. apply drop_key_In. auto. }
      destruct Ha as [->|Ha].
      * destruct (Req_EM_T b 180) as [->|N].
        -- exists (360 - 180), r. split; [apply K2; lra|]. split; auto.
           replace (360 - 180) with 180 by lra. rewrite nmod_small by lra. auto.
        -- exists b, r. split; auto. rewrite nmod_small by lra. auto.
      * apply reduced_iff in Ha. destruct (Req_EM_T b 0) as [->|N].
        -- exists 0, r. split; [apply K1; lra|]. split; auto. rewrite Ha.
           replace (360 - 0) with (0 + 360 * IZR 1) by lra. apply nmod_shift.
        -- exists (360 - b), r. split; auto.
  - intros OS. split; [rewrite EW; auto|].
    eapply Permutation_NoDup; [exact P2|]. subst PP. rewrite !map_app.
    apply NoDup_app_intro.
    + assert (map (fun x => nmod x 360) (map fst (drop_key 180 P)) = map fst (drop_key 180 P)) as ->.
      { rewrite <- (map_id (map fst (drop_key 180 P))) at 2. apply map_ext_in. intros a H.
        apply in_map_iff in H. destruct H as [[x r] [<- H]]. apply drop_key_In in H.
        apply nmod_small. eapply RP. apply H. }
      apply drop_key_NoDup. rewrite MF. auto.
    + rewrite !map_map.
      assert (map (fun x => nmod (fst (mir x)) 360) (rev (drop_key 0 P)) =
              map (fun x => 360 - x) (map fst (rev (drop_key 0 P)))) as ->.
      { rewrite map_map. apply map_ext_in. intros [x r] H. apply in_rev in H. apply drop_key_In in H.
        simpl in H. unfold mir. simpl. apply nmod_small. pose proof (RP x r (proj1 H)).
        destruct H as [_ H]. lra. }
      apply FinFun.Injective_map_NoDup; [intros x y Hxy; lra|].
      rewrite map_rev. apply NoDup_rev. apply drop_key_NoDup. rewrite MF. auto.
    + intros a H1 H2. rewrite map_map in H1. rewrite !map_map in H2.
      apply in_map_iff in H1. destruct H1 as [[x r] [E1 H1]].
      apply in_map_iff in H2. destruct H2 as [[y q] [E2 H2]].
      apply drop_key_In in H1. apply in_rev in H2. apply drop_key_In in H2. simpl in *.
      destruct H1 as [H1 X180]. destruct H2 as [H2 Y0].
      pose proof (RP x r H1) as RX. pose proof (RP y q H2) as RY.
      rewrite nmod_small in E1 by lra. rewrite nmod_small in E2 by lra.
      assert (y = x).
      { apply OS.
        - rewrite <- MF. change y with (fst (y, q)). apply in_map. auto.
        - rewrite <- MF. change x with (fst (x, r)). apply in_map. auto.
        - split; auto. exists 0%Z. lra. }
      lra.
Qed.
