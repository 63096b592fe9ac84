(** * Proofs about the dictionaries of statistics *)

From Coq Require Import String List Bool Arith Lia.
From Verif Require Import Dict StatsModel StatsSpec.
Import ListNotations.
Open Scope string_scope.
Open Scope list_scope.

Section Proofs.
  Variable V : Type.
  Notation store := (store V).

  Lemma update_nodup : forall (e d : dict V), NoDup (dkeys d) -> NoDup (dkeys (update d e)).
  Proof.
    induction e as [|[k v] e IH]; intros d H; simpl; auto.
    apply IH. apply dset_NoDup; auto.
  Qed.
  Lemma kwargs_nodup : forall e : dict V, NoDup (dkeys (kwargs e)).
  Proof. intros. apply update_nodup. constructor. Qed.

  Lemma dset_same : forall k (v : V) d, dget k d = Some v -> dset k v d = d.
  Proof.
    induction d as [|[k' v'] d IH]; simpl; [discriminate|].
    destruct (String.eqb_spec k' k).
    - intros H; inversion H; subst; auto.
    - intros H. rewrite IH; auto.
  Qed.
  Lemma update_part : forall (e d : dict V), NoDup (dkeys d) -> (forall kv, In kv e -> In kv d) -> update d e = d.
  Proof.
    induction e as [|[k v] e IH]; intros d H Hs; simpl; auto.
    rewrite dset_same.
    - apply IH; auto. intros. apply Hs. right; auto.
    - apply NoDup_dget; auto. apply Hs. left; auto.
  Qed.
  Lemma update_self : forall d : dict V, NoDup (dkeys d) -> update d d = d.
  Proof. intros. apply update_part; auto. Qed.

  (** The addresses in use. *)
  Definition known (s : store) (a : addr) : Prop := match a with New n => n < next s | _ => True end.
  Definition keeps (s s' : store) : Prop :=
    next s <= next s' /\ forall a, known s a -> heap s' a = heap s a.
  Definition sound (s : store) : Prop :=
    (forall c, known s (attr s c)) /\ (forall c c', attr s c = attr s c' -> c = c') /\
    (forall a, NoDup (dkeys (heap s a))) /\ (forall c i, attr s c <> Empty i).
  Definition rel (s : store) (now : nat -> dict V) : Prop :=
    sound s /\ (forall c, heap s (attr s c) = now c) /\ (forall i, heap s (Empty i) = []).

  Lemma keeps_refl : forall s, keeps s s.
  Proof. intros; split; auto. Qed.
  Lemma known_keeps : forall s s' a, keeps s s' -> known s a -> known s' a.
  Proof. intros s s' [|?|n] [H _]; simpl; auto. lia. Qed.
  Lemma keeps_trans : forall s1 s2 s3, keeps s1 s2 -> keeps s2 s3 -> keeps s1 s3.
  Proof.
    intros s1 s2 s3 H1 H2. split.
    - destruct H1, H2; lia.
    - intros a K. rewrite (proj2 H2), (proj2 H1); auto. eapply known_keeps; eauto.
  Qed.

  (** [Q s x y]: the result [x] read in [s] is the value [y]. *)
  Definition rd1 (s : store) (a : addr) (d : dict V) : Prop := known s a /\ heap s a = d.
  Definition rd2 (s : store) (a : addr * addr) (d : dict V * dict V) : Prop :=
    rd1 s (fst a) (fst d) /\ rd1 s (snd a) (snd d).
  Definition rdl {X Y} (Q : store -> X -> Y -> Prop) (s : store) (l : list X) (m : list Y) : Prop := Forall2 (Q s) l m.
  Inductive rds (s : store) : stat addr -> stat (dict V) -> Prop :=
  | rds_one : forall a d, rd1 s a d -> rds s (One a) (One d)
  | rds_many : forall l m, rdl rd1 s l m -> rds s (Many l) (Many m).
  Definition rdo (s : store) (o : list (stat addr) * list (stat addr)) (v : list (stat (dict V)) * list (stat (dict V))) :=
    rdl rds s (fst o) (fst v) /\ rdl rds s (snd o) (snd v).

  Definition stable {X Y} (Q : store -> X -> Y -> Prop) : Prop :=
    forall s s' x y, keeps s s' -> Q s x y -> Q s' x y.
  Lemma stable1 : stable rd1.
  Proof. intros s s' a d K [H1 H2]. split; [eapply known_keeps; eauto|]. rewrite (proj2 K); auto. Qed.
  Lemma stable2 : stable rd2.
  Proof. intros s s' a d K [H1 H2]. split; eapply stable1; eauto. Qed.
  Lemma stablel : forall X Y (Q : store -> X -> Y -> Prop), stable Q -> stable (rdl Q).
  Proof. intros X Y Q HQ s s' l m K H. induction H; constructor; auto. eapply HQ; eauto. Qed.
  Lemma stables : stable rds.
  Proof.
    intros s s' x y K H. inversion H; subst; constructor.
    - eapply stable1; eauto.
    - eapply stablel; eauto. apply stable1.
  Qed.
  Lemma stableo : stable rdo.
  Proof. intros s s' x y K [H1 H2]. split; eapply stablel; eauto; apply stables. Qed.

  (** A program and its meaning on values. *)
  Definition sim {X Y} (f : prog store X) (g : prog (nat -> dict V) Y) (Q : store -> X -> Y -> Prop) : Prop :=
    forall s now, rel s now ->
    rel (snd (f s)) (snd (g now)) /\ keeps s (snd (f s)) /\ Q (snd (f s)) (fst (f s)) (fst (g now)).

  (** The rule for sequences: [P] holds before and is kept. *)
  Definition simp {X Y} (P : store -> Prop) (f : prog store X) (g : prog (nat -> dict V) Y) (Q : store -> X -> Y -> Prop) : Prop :=
    forall s now, rel s now -> P s ->
    rel (snd (f s)) (snd (g now)) /\ keeps s (snd (f s)) /\ Q (snd (f s)) (fst (f s)) (fst (g now)).
  Definition lasting (P : store -> Prop) : Prop := forall s s', keeps s s' -> P s -> P s'.

  Lemma simp_bind : forall X Y X' Y' (P : store -> Prop) (f : prog store X) (g : prog _ Y) Q
      (k : X -> prog store X') (l : Y -> prog _ Y') Q',
    lasting P -> sim f g Q ->
    (forall x y, simp (fun s => P s /\ Q s x y) (k x) (l y) Q') ->
    simp P (bind f k) (bind g l) Q'.
  Proof.
    intros X Y X' Y' P f g Q k l Q' HP Hf Hk s now R0 Hs.
    destruct (Hf s now R0) as [R1 [K1 Q1]].
    unfold bind. destruct (f s) as [x s1], (g now) as [y now1]. simpl in *.
    destruct (Hk x y s1 now1 R1) as [R2 [K2 Q2]]; [split; auto; eapply HP; eauto|].
    split; [auto|]. split; [eapply keeps_trans; eauto|auto].
  Qed.
  (** The same when the meaning does nothing. *)
  Lemma simp_bind_l : forall X Y X' (P : store -> Prop) (f : prog store X) (y : Y) Q
      (k : X -> prog store X') Y' (l : prog _ Y') Q',
    lasting P -> sim f (ret y) Q ->
    (forall x, simp (fun s => P s /\ Q s x y) (k x) l Q') ->
    simp P (bind f k) l Q'.
  Proof.
    intros X Y X' P f y Q k Y' l Q' HP Hf Hk s now R0 Hs.
    destruct (Hf s now R0) as [R1 [K1 Q1]]. simpl in *.
    unfold bind. destruct (f s) as [x s1]. simpl in *.
    destruct (Hk x s1 now R1) as [R2 [K2 Q2]]; [split; auto; eapply HP; eauto|].
    split; [auto|]. split; [eapply keeps_trans; eauto|auto].
  Qed.
  Lemma simp_ret : forall X Y (P : store -> Prop) (x : X) (y : Y) (Q : store -> X -> Y -> Prop),
    (forall s, P s -> Q s x y) -> simp P (ret x) (ret y) Q.
  Proof. intros X Y P x y Q H s now R0 Hs. simpl. split; [auto|]. split; [apply keeps_refl|auto]. Qed.
  Lemma simp_sim : forall X Y (f : prog store X) (g : prog _ Y) Q, simp (fun _ => True) f g Q -> sim f g Q.
  Proof. intros X Y f g Q H s now R0. apply H; auto. Qed.
  Lemma sim_simp : forall X Y (P : store -> Prop) (f : prog store X) (g : prog _ Y) Q, sim f g Q -> simp P f g Q.
  Proof. intros X Y P f g Q H s now R0 _. apply H; auto. Qed.

  Lemma lasting_true : lasting (fun _ => True).
  Proof. intros s s' _ _; auto. Qed.
  Lemma lasting_and : forall X Y (P : store -> Prop) (Q : store -> X -> Y -> Prop) x y,
    lasting P -> stable Q -> lasting (fun s => P s /\ Q s x y).
  Proof. intros X Y P Q x y HP HQ s s' K [H1 H2]. split; [eapply HP|eapply HQ]; eauto. Qed.

  Lemma sim_each : forall A X Y (f : A -> prog store X) (g : A -> prog _ Y) Q,
    stable Q -> (forall a, sim (f a) (g a) Q) -> forall l, sim (each f l) (each g l) (rdl Q).
  Proof.
    intros A X Y f g Q HQ H l. induction l as [|a l IH]; simpl.
    - apply simp_sim, simp_ret. constructor.
    - apply simp_sim. eapply simp_bind; [apply lasting_true|apply H|]. intros x y.
      eapply simp_bind; [apply lasting_and; [apply lasting_true|auto]|apply IH|]. intros xs ys.
      apply simp_ret. intros s [[_ H1] H2]. constructor; auto.
  Qed.

  (** *** The single steps *)
  Lemma sim_alloc : forall d : dict V, NoDup (dkeys d) -> sim (alloc d) (ret d) rd1.
  Proof.
    intros d Hd s now [[S1 [S2 [S3 S4]]] [R1 R2]]. simpl.
    assert (N : forall a, known s a -> a <> New (next s)) by (intros a K E; subst; simpl in K; lia).
    split.
    - split; [|split].
      + split; [|split; [exact S2|split]]; cbn [attr heap next].
        * intros c. specialize (S1 c). destruct (attr s c); simpl in *; auto.
        * intros a. destruct (addr_eq_dec a (New (next s))); auto.
        * exact S4.
      + intros c. cbn [heap attr next fst snd]. destruct (addr_eq_dec (attr s c) (New (next s))) as [E|_]; auto.
        exfalso. eapply N; eauto.
      + intros i. cbn [heap attr next fst snd]. destruct (addr_eq_dec (Empty i) (New (next s))) as [E|_]; [discriminate|auto].
    - split.
      + split; cbn [heap attr next fst snd]; [lia|]. intros a K. destruct (addr_eq_dec a (New (next s))) as [E|E]; [exfalso; eapply N; eauto|auto].
      + split; cbn [heap attr next fst snd]; [simpl; lia|]. destruct (addr_eq_dec (New (next s)) (New (next s))); [reflexivity|congruence].
  Qed.

  Lemma set_statistics_facts : forall c kw s now, rel s now ->
    rel (snd (set_statistics c kw s)) (put now c (kwargs kw)) /\ keeps s (snd (set_statistics c kw s)) /\
    attr (snd (set_statistics c kw s)) c = New (next s).
  Proof.
    intros c kw s now R0.
    destruct (sim_alloc (kwargs kw) (kwargs_nodup kw) s now R0) as [[[S1 [S2 [S3 S4]]] [R1 R2]] [K Q]].
    unfold set_statistics. destruct (alloc (kwargs kw) s) as [a s1] eqn:E. simpl in *.
    assert (Ea : a = New (next s) /\ attr s1 = attr s) by (inversion E; split; reflexivity).
    destruct Ea as [-> Ea].
    assert (N : forall c', attr s1 c' <> New (next s)).
    { intros c' E'. destruct R0 as [[H _] _]. specialize (H c'). rewrite Ea in E'. rewrite E' in H. simpl in H. lia. }
    split; [|split].
    - split; [|split].
      + split; [|split; [|split]]; cbn [attr heap next].
        * intros c'. destruct (Nat.eq_dec c' c); [apply Q|apply S1].
        * intros c1 c2. destruct (Nat.eq_dec c1 c), (Nat.eq_dec c2 c); intros H; subst; auto.
          -- exfalso. eapply N; eauto.
          -- exfalso. eapply N; eauto.
        * exact S3.
        * intros c' i. destruct (Nat.eq_dec c' c); [discriminate|apply S4].
      + intros c'. cbn [attr heap]. unfold put. destruct (Nat.eq_dec c' c); [apply Q|apply R1].
      + exact R2.
    - exact K.
    - cbn. destruct (Nat.eq_dec c c); congruence.
  Qed.

  Lemma rel_ext : forall s now now', rel s now -> (forall c, now c = now' c) -> rel s now'.
  Proof. intros s now now' [S [R1 R2]] H. split; [auto|]. split; auto. intros c. rewrite R1; auto. Qed.

  (** The dictionary after a call is the old one, if nothing is set, or a new one. *)
  Lemma method_facts : forall c l s now, rel s now ->
    rel (snd (method c l s)) (put now c (after (now c) l)) /\ keeps s (snd (method c l s)) /\
    (l = [] /\ snd (method c l s) = s \/ ~ known s (attr (snd (method c l s)) c)).
  Proof.
    assert (M : forall c (kw : dict V) l s, snd (method c (kw :: l) s) = snd (method c l (snd (set_statistics c kw s)))).
    { intros c kw l s. unfold method. cbn [each]. unfold bind.
      destruct (set_statistics c kw s) as [u s1]. cbn [snd]. destruct (each (set_statistics c) l s1). reflexivity. }
    intros c l. induction l as [|kw l IH]; intros s now R0.
    - simpl. split; [|split].
      + eapply rel_ext; eauto. intros c'. unfold put, after. simpl. destruct (Nat.eq_dec c' c); congruence.
      + apply keeps_refl.
      + left; auto.
    - rewrite M. destruct (set_statistics_facts c kw s now R0) as [R1 [K1 A1]].
      destruct (IH _ _ R1) as [R2 [K2 A2]]. split; [|split].
      + eapply rel_ext; eauto. intros c'. unfold put. destruct (Nat.eq_dec c' c); auto. subst.
        destruct (Nat.eq_dec c c) as [_|F]; [|congruence]. unfold after. simpl.
        destruct l as [|kw' l]; [reflexivity|]. simpl map. generalize (map kwargs l), (kwargs kw'). clear.
        intros m d. simpl. revert d. induction m as [|x m IH]; intros d; [reflexivity|]. apply IH.
      + eapply keeps_trans; eauto.
      + right. destruct A2 as [[-> ->]|A2].
        * rewrite A1. simpl. lia.
        * intros K. apply A2. eapply known_keeps; eauto.
  Qed.

  Lemma collect_eq : forall c l (s : store), collect c l s = (attr (snd (method c l s)) c, snd (method c l s)).
  Proof. intros. unfold collect, bind, latest. destruct (method c l s); reflexivity. Qed.

  Lemma rel_latest : forall s now c, rel s now -> rd1 s (attr s c) (now c).
  Proof. intros s now c [[S1 _] [R1 _]]. split; auto. Qed.

  Lemma sim_collect : forall c l, sim (collect c l) (vcollect c l) rd1.
  Proof.
    intros c l s now R0. rewrite collect_eq. simpl.
    destruct (method_facts c l s now R0) as [R1 [K1 _]]. split; [auto|]. split; [auto|].
    pose proof (rel_latest _ _ c R1) as H. unfold put in H at 1.
    destruct (Nat.eq_dec c c); [exact H|congruence].
  Qed.

  Lemma sim_optional : forall c l, sim (optional c l) (voptional c l) rd1.
  Proof. intros c [l|]; simpl; [apply sim_collect|]. apply sim_alloc. constructor. Qed.

  Lemma sim_method : forall c l, sim (method c l) (vcollect c l) (fun _ _ _ => True).
  Proof. intros c l s now R0. destruct (method_facts c l s now R0) as [R1 [K1 _]]. simpl. auto. Qed.

  Lemma sim_weigh : forall w f x, sim (weigh_and_filter w f x) (vweigh w f x) rd2.
  Proof.
    intros w f [|ow of]; apply simp_sim; simpl.
    - eapply simp_bind_l; [apply lasting_true|apply sim_alloc; constructor|]. intros a.
      eapply simp_bind_l; [apply lasting_and; [apply lasting_true|apply stable1]|apply sim_alloc; constructor|].
      intros b. apply simp_ret. intros s [[_ H1] H2]. split; auto.
    - eapply simp_bind; [apply lasting_true|apply sim_optional|]. intros a d.
      eapply simp_bind; [apply lasting_and; [apply lasting_true|apply stable1]|apply sim_optional|].
      intros b d'. apply simp_ret. intros s [[_ H1] H2]. split; auto.
  Qed.

  Lemma sim_remove : forall p x, sim (remove_influence p x) (vremove p x) rd1.
  Proof.
    intros p x s now R0. unfold remove_influence, vremove.
    destruct (fitted x) as [l|].
    - set (c := influence p).
      assert (EQ : forall s, (_ <- method c l; f <- latest c; r <- collect c (removed x);
          _ <- (fun s => write r (update (heap s r) (heap s f)) s); ret r) s =
        let s1 := snd (method c l s) in let s2 := snd (method c (removed x) s1) in
        (attr s2 c, snd (write (attr s2 c) (update (heap s2 (attr s2 c)) (heap s2 (attr s1 c))) s2))).
      { intros s0. unfold bind at 1. destruct (method c l s0) as [u s1]. unfold bind, latest at 1.
        rewrite collect_eq. reflexivity. }
      rewrite EQ. cbv zeta. clear EQ.
      destruct (method_facts c l s now R0) as [R1 [K1 A1]].
      destruct (method c l s) as [u s1]. cbn [snd] in *.
      destruct (method_facts c (removed x) s1 _ R1) as [R2 [K2 A2]].
      destruct (method c (removed x) s1) as [u2 s2]. cbn [snd fst] in *.
      assert (E : put (put now c (after (now c) l)) c (after (put now c (after (now c) l) c) (removed x)) c
                  = after (after (now c) l) (removed x)).
      { unfold put. destruct (Nat.eq_dec c c); congruence. }
      assert (Hr : heap s2 (attr s2 c) = after (after (now c) l) (removed x)).
      { rewrite <- E. apply R2. }
      assert (Hf : heap s2 (attr s1 c) = after (now c) l).
      { rewrite (proj2 K2) by apply R1. rewrite (proj1 (proj2 R1)). unfold put. destruct (Nat.eq_dec c c); congruence. }
      rewrite Hr, Hf. unfold write. cbn [fst snd].
      destruct R2 as [[S1 [S2 [S3 S4]]] [R2 R3]].
      split; [|split].
      + split; [|split].
        * split; [|split; [exact S2|split; [|exact S4]]]; cbn [attr heap next].
          -- intros c'. apply (S1 c').
          -- intros a. destruct (addr_eq_dec a (attr s2 c)); auto.
             apply update_nodup. rewrite <- Hr. apply S3.
        * intros c'. cbn [attr heap]. unfold put at 1. destruct (addr_eq_dec (attr s2 c') (attr s2 c)) as [E'|E'].
          -- apply S2 in E'. subst. destruct (Nat.eq_dec c c); congruence.
          -- destruct (Nat.eq_dec c' c) as [->|N]; [congruence|]. rewrite R2. unfold put.
             destruct (Nat.eq_dec c' c); congruence.
        * intros i. cbn [heap]. destruct (addr_eq_dec (Empty i) (attr s2 c)) as [E'|E']; auto.
          exfalso. eapply S4; eauto.
      + pose proof (keeps_trans _ _ _ K1 K2) as K. split; cbn [next heap]; [apply K|].
        intros a Ka. destruct (addr_eq_dec a (attr s2 c)) as [->|N]; [|apply K; auto].
        destruct A2 as [[E2 ->]|A2].
        * destruct A1 as [[E1 ->]|A1]; [|contradiction].
          rewrite E1, E2. unfold after. simpl. rewrite update_self; [symmetry; apply (proj1 (proj2 R0))|].
          rewrite <- (proj1 (proj2 R0)). apply R0.
        * exfalso. apply A2. eapply known_keeps; eauto.
      + split; cbn [heap].
        * apply (S1 c).
        * destruct (addr_eq_dec (attr s2 c) (attr s2 c)); congruence.
    - apply sim_collect; auto.
  Qed.

  Lemma sim_smoothing : forall p x, sim (smoothing p x) (vsmoothing p x) rds.
  Proof.
    intros p x. unfold smoothing, vsmoothing. destruct (smoothed x) as [l|]; apply simp_sim.
    - eapply simp_bind; [apply lasting_true|apply sim_each; [apply stable1|intros; apply sim_collect]|].
      intros a d. apply simp_ret. intros s [_ H]. constructor; auto.
    - eapply simp_bind_l; [apply lasting_true|apply sim_alloc; constructor|].
      intros a. apply simp_ret. intros s [_ H]. constructor; auto.
  Qed.

  Lemma rdl_fst : forall s l m, rdl rd2 s l m -> rdl rd1 s (map fst l) (map fst m).
  Proof. intros s l m H. induction H; simpl; constructor; auto. apply H. Qed.
  Lemma rdl_snd : forall s l m, rdl rd2 s l m -> rdl rd1 s (map snd l) (map snd m).
  Proof. intros s l m H. induction H; simpl; constructor; auto. apply H. Qed.

  Ltac lasts := repeat (apply lasting_and; [|first [apply stable1|apply stable2|apply stables|apply stableo
                          |apply stablel; first [apply stable1|apply stable2|apply stables]]]); apply lasting_true.
  Ltac go := eapply simp_bind; [lasts|first [apply sim_collect|apply sim_weigh|apply sim_remove|apply sim_smoothing
               |apply sim_optional|apply sim_each; [first [apply stable1|apply stable2]|intros; first [apply sim_collect|apply sim_weigh]]]
               |intros ? ?].
  Ltac gol := eapply simp_bind_l; [lasts|apply sim_alloc; try constructor|intros ?].

  Lemma sim_preprocess : forall p x, sim (preprocess p x) (vpreprocess p x) (fun s l m => rdl rds s l m /\ length l = 14).
  Proof.
    intros p x. apply simp_sim. unfold preprocess, vpreprocess.
    do 8 go. do 3 gol. apply simp_ret. intros s H.
    repeat match goal with H : _ /\ _ |- _ => destruct H end.
    repeat match goal with H : rd2 _ _ _ |- _ => destruct H end.
    split; [|reflexivity].
    unfold rdl. repeat apply Forall2_cons; try apply Forall2_nil;
      try (apply rds_many; first [assumption|apply rdl_fst; assumption|apply rdl_snd; assumption]);
      try (apply rds_one; assumption); assumption.
  Qed.

  Lemma sim_weaken : forall X Y (f : prog store X) (g : prog _ Y) (Q Q' : store -> X -> Y -> Prop),
    sim f g Q -> (forall s x y, Q s x y -> Q' s x y) -> sim f g Q'.
  Proof. intros X Y f g Q Q' H HQ s now R0. destruct (H s now R0) as [H1 [H2 H3]]. auto. Qed.

  Definition rdt (s : store) (o : list (stat addr) * addr) (v : list (stat (dict V)) * dict V) :=
    rdl rds s (fst o) (fst v) /\ rd1 s (snd o) (snd v).
  Lemma stablet : stable rdt.
  Proof. intros s s' x y K [H1 H2]. split; [eapply stablel; eauto; apply stables|eapply stable1; eauto]. Qed.

  Lemma empties : forall s now n k, rel s now ->
    rdl rds s (map (fun i => One (Empty i)) (seq k n)) (repeat (One []) n).
  Proof.
    intros s now n. induction n as [|n IH]; intros k R0; simpl; constructor.
    - constructor. split; simpl; auto. apply R0.
    - apply IH; auto.
  Qed.

  Lemma sim_testing : forall p x, sim (testing p x) (vtesting p x) rdt.
  Proof.
    intros p x. unfold testing, vtesting. destruct (tested x) as [[t q]|].
    - apply simp_sim.
      eapply simp_bind; [apply lasting_true|eapply sim_weaken; [apply sim_preprocess|intros s a b H; exact (proj1 H)]|].
      intros l m. eapply simp_bind_l;
        [apply lasting_and; [apply lasting_true|apply stablel, stables]
        |apply (sim_alloc (dset "execution time" (elapsed x) (kwargs q))); apply dset_NoDup, kwargs_nodup|].
      intros a. apply simp_ret. intros s [[_ H1] H2]. split; auto.
    - intros s now R0.
      destruct (sim_alloc (dset "execution time" (elapsed x) [])) with (s := s) (now := now) as [R1 [K1 Q1]];
        [apply dset_NoDup; constructor|auto|].
      unfold bind. destruct (alloc (dset "execution time" (elapsed x) []) s) as [a s1].
      cbn [snd fst ret] in *. split; [auto|]. split; [auto|]. split.
      + cbn [fst]. apply (empties s1 now 14 0 R1).
      + cbn [snd]. exact Q1.
  Qed.

  Lemma rdl_assemble : forall s l m a b c d e f, rdl rds s l m -> length l = 14 ->
    rd1 s a d -> rd1 s b e -> rd1 s c f -> rdl rds s (assemble l a b c) (vassemble m d e f).
  Proof.
    intros s l m a b c d e f H L Ha Hb Hc. unfold rdl in *.
    do 14 (destruct H as [|? ? ? ? ? H]; [discriminate L|]).
    destruct H; [|discriminate L]. simpl.
    repeat apply Forall2_cons; try apply Forall2_nil; try assumption; constructor; assumption.
  Qed.

  Definition rdp (s : store) (l : list (stat addr)) (m : list (stat (dict V))) := rdl rds s l m /\ length l = 14.
  Lemma stablep : stable rdp.
  Proof. intros s s' l m K [H1 H2]. split; auto. eapply stablel; eauto. apply stables. Qed.

  Lemma sim_execute : forall p x, sim (execute p x) (vexecute p x) rdo.
  Proof.
    intros p x. apply simp_sim. unfold execute, vexecute.
    eapply simp_bind with (Q := rdp); [apply lasting_true|apply sim_preprocess|]. intros t tv.
    eapply simp_bind; [apply lasting_and; [apply lasting_true|apply stablep]|apply sim_optional|]. intros i iv.
    eapply simp_bind; [do 2 (apply lasting_and; [|first [apply stablep|apply stable1]]); apply lasting_true|apply sim_collect|]. intros e ev.
    eapply simp_bind; [do 3 (apply lasting_and; [|first [apply stablep|apply stable1]]); apply lasting_true|apply sim_testing|]. intros q qv.
    apply simp_ret. intros s [[[[_ [H1 H1']] H2] H3] [H4 H5]]. split; [|exact H4].
    apply rdl_assemble; auto.
  Qed.

  Lemma sim_happen : forall e, match e with Enter _ _ _ => False | _ => True end ->
    sim (happen e) (vhappen e) (rdl rdo).
  Proof.
    intros [p x|p x|c l|a k v] H; try contradiction; apply simp_sim; unfold happen, vhappen.
    - eapply simp_bind; [apply lasting_true|apply sim_execute|]. intros o ov. apply simp_ret.
      intros s [_ H1]. constructor; [auto|constructor].
    - eapply simp_bind; [apply lasting_true|apply sim_preprocess|]. intros o ov. apply simp_ret.
      intros s _. constructor.
    - eapply simp_bind; [apply lasting_true|apply sim_method|]. intros o ov. apply simp_ret.
      intros s _. constructor.
  Qed.

  Lemma rdl_concat : forall s l m, rdl (rdl rdo) s l m -> rdl rdo s (concat l) (concat m).
  Proof. intros s l m H. induction H; simpl; [constructor|]. apply Forall2_app; auto. Qed.

  Lemma sim_each_in : forall A X Y (f : A -> prog store X) (g : A -> prog _ Y) Q (P : A -> Prop),
    stable Q -> (forall a, P a -> sim (f a) (g a) Q) -> forall l, Forall P l -> sim (each f l) (each g l) (rdl Q).
  Proof.
    intros A X Y f g Q P HQ H l Hl. induction Hl as [|a l Ha Hl IH]; simpl.
    - apply simp_sim, simp_ret. constructor.
    - apply simp_sim. eapply simp_bind; [apply lasting_true|apply H; auto|]. intros x y.
      eapply simp_bind; [apply lasting_and; [apply lasting_true|auto]|apply IH|]. intros xs ys.
      apply simp_ret. intros s [[_ H1] H2]. constructor; auto.
  Qed.

  Lemma sim_history : forall l, untouched l -> sim (history l) (vhistory l) (rdl rdo).
  Proof.
    intros l H. apply simp_sim. unfold history, vhistory.
    eapply simp_bind; [apply lasting_true| |].
    - eapply sim_each_in; [apply stablel, stableo|apply sim_happen|exact H].
    - intros o ov. apply simp_ret. intros s [_ H1]. apply rdl_concat; auto.
  Qed.

  Lemma rel_start : rel start (fun _ => []).
  Proof.
    split; [|split]; simpl; auto. split; [|split; [|split]]; simpl; auto.
    - intros c c' E. inversion E; auto.
    - intros a. constructor.
    - intros c i. discriminate.
  Qed.

  Lemma rds_see : forall s x y, rds s x y -> see s x = y.
  Proof.
    intros s x y H. inversion H as [a d [_ H1]|l m H1]; subst; simpl; auto.
    f_equal. clear H. induction H1 as [|? ? ? ? H]; simpl; auto. rewrite IHForall2. f_equal. apply H.
  Qed.
  Lemma rdl_see : forall s x y, rdl rds s x y -> map (see s) x = y.
  Proof. intros s x y H. induction H; simpl; auto. rewrite IHForall2. f_equal. apply rds_see; auto. Qed.
  Lemma rdo_see : forall s x y, rdo s x y -> see_output s x = y.
  Proof. intros s x [y1 y2] [H1 H2]. unfold see_output. f_equal; apply rdl_see; auto. Qed.
  Lemma rdlo_see : forall s x y, rdl rdo s x y -> map (see_output s) x = y.
  Proof. intros s x y H. induction H; simpl; auto. rewrite IHForall2. f_equal. apply rdo_see; auto. Qed.
End Proofs.
