(** * Properties of the pipeline (C62, C63, C64, C65, C91) *)

From Coq Require Import String.
From Coq Require Import List Bool Arith ZArith QArith Lia.
From Verif Require Import Py Dict DataModel WPointsModel PipeModel PipeSpec.
Import ListNotations.
Open Scope string_scope.
Open Scope list_scope.
Open Scope nat_scope.

(** Takes one [do] apart. *)
Tactic Notation "step" hyp(H) "as" simple_intropattern(p) ident(E) :=
  match type of H with
  | rbind ?e _ = Ok _ => destruct e as [p|?] eqn:E; cbn [rbind fst snd] in H; [|discriminate H]
  end.

Section Proofs.
  Context {W V Raw A U Wt Pol : Type}.
  Variable wone : Wt.
  Notation comp := (comp W V). Notation pstate := (pstate W V Raw).
  Notation pipeline := (pipeline W V Raw A U Wt Pol).

  Lemma collect_call : forall X Y (c : comp X Y) x w y st w', collect c x w = Ok (y, st, w') <-> call c x w y st w'.
  Proof.
    intros. unfold collect. split.
    - intros H. step H as [z w1] E. injection H as <- <- <-. constructor; auto.
    - intros H. destruct H. rewrite H. auto.
  Qed.

  Lemma map_each : forall X Y (c : comp X Y) data w l w',
    map_fields (fun x w => do r <- collect c x w; Ok (fst (fst r), snd (fst r), snd r)) data w = Ok (l, w') <->
    each c data w (map fst l) (map snd l) w'.
  Proof.
    induction data as [|x data IH]; intros w l w'; cbn [map_fields].
    - split; [intros [= <- <-]; constructor | inversion 1; destruct l; try discriminate; auto].
    - split.
      + intros H. step H as [[y st] w1] E. step H as [ys w2] E0. injection H as <- <-.
        step E as [[y' st'] w1'] E1. injection E as <- <- <-.
        apply IH in E0. apply collect_call in E1. cbn [map fst snd]. econstructor; eauto.
      + intros H. inversion H; subst. destruct l as [|[y' st'] l]; cbn in *; try discriminate.
        repeat match goal with E : _ :: _ = _ :: _ |- _ => injection E as; subst end.
        match goal with E : call _ _ _ _ _ _ |- _ => apply collect_call in E; rewrite E end. cbn [rbind fst snd].
        match goal with E : each _ data _ _ _ _ |- _ => apply IH in E; rewrite E end. reflexivity.
  Qed.

  Lemma each_length : forall X Y (c : comp X Y) data w ys sts w', each c data w ys sts w' -> length ys = length data /\ length sts = length data.
  Proof. induction 1; cbn; auto. lia. Qed.

  Lemma map_collect_each : forall X Y (c : comp X Y) data w ys st w',
    map_collect c data w = Ok (ys, st, w') <-> exists sts, st = PerField sts /\ each c data w ys sts w' /\ data <> [].
  Proof.
    intros. unfold map_collect. split.
    - intros H. step H as [l w1] E. apply map_each in E. step H as l2 E0.
      destruct l; [discriminate|]. injection E0 as <-. injection H as <- <- <-. eexists. split; [reflexivity|]. split; auto.
      intros ->. inversion E.
    - intros [sts [-> [H N]]]. pose proof (each_length _ _ _ _ _ _ _ _ H) as [L1 L2].
      assert (exists l, ys = map fst l /\ sts = map snd l) as [l [-> ->]].
      { exists (combine ys sts). clear -L1 L2. revert sts data L1 L2. induction ys; intros [|s sts] [|x data] L1 L2; cbn in *; try lia; auto.
        destruct (IHys sts data ltac:(lia) ltac:(lia)) as [E1 E2]. split; congruence. }
      apply map_each in H. rewrite H. cbn [rbind fst snd].
      destruct l; [destruct data; cbn in *; congruence|]. reflexivity.
  Qed.

  Lemma no_points_iff : forall d : pdata A U, is_empty_data d = true <-> no_points d.
  Proof.
    intros [rows|d|d]; cbn.
    - destruct rows; cbn; split; congruence.
    - split; [discriminate|tauto].
    - apply Z.eqb_eq.
  Qed.

  Lemma stage_iff : forall cw cf won fon (d : pdata A U) (w : W) q ws fs w',
    (forall dd, d <> PDict dd) ->
    weigh_and_filter (V := V) wone cw cf won fon d w = Ok (q, ws, fs, w') <-> stage wone won fon cw cf d w q ws fs w'.
  Proof.
    intros cw cf won fon d w q ws fs w' ND. unfold weigh_and_filter.
    destruct (is_empty_data d) eqn:E.
    - apply no_points_iff in E. split.
      + intros [= <- <- <- <-]. constructor; auto.
      + inversion 1; subst; auto. contradiction.
    - assert (~ no_points d) as N by (intros N; apply no_points_iff in N; congruence).
      assert (all_one (Wt := Wt) wone d = Ok (repeat wone (points d))) as AO by (destruct d; auto; edestruct ND; auto).
      split.
      + intros H. step H as [[l st] w1] E0.
        assert (weighed wone won cw d w l st w1) as HW.
        { destruct won.
          - apply WOn; auto. apply collect_call. auto.
          - rewrite AO in E0. injection E0 as <- <- <-. apply WOff. auto. }
        clear E0. cbn [rbind wp_new] in H. destruct fon.
        * step H as [[m st'] w2] E1. step H as q2 E2. injection H as <- <- <- <-.
          eapply StPoints; eauto. econstructor; eauto. apply collect_call. eauto.
        * injection H as <- <- <- <-. eapply StPoints; eauto. constructor. auto.
      + intros H. destruct H as [NP|l ws w1 q fs w2 _ HW HF]; [contradiction|].
        assert ((if won then collect cw d w else do l0 <- all_one wone d; Ok (l0, [], w)) = Ok (l, ws, w1)) as ->.
        { destruct HW as [l st w' -> C| ->]; [apply collect_call; auto|]. rewrite AO. auto. }
        cbn [rbind wp_new wweights]. destruct HF as [m st w' q -> C M| ->]; auto.
        apply collect_call in C. cbn [wweights] in C. rewrite C. cbn [rbind]. rewrite M. auto.
  Qed.

  (** A weighing and filtering stage on [Data] gives weighted [Data]. *)
  Lemma stage_data : forall won fon cw cf d w q ws fs w', stage (A := A) (U := U) (V := V) (W := W) wone won fon cw cf (PData d) w q ws fs w' ->
    exists d', wdata q = PData d'.
  Proof.
    intros * H. inversion H; subst; cbn; eauto. inversion H2; subst; cbn; eauto.
    unfold wp_mask in H5. cbn in H5. step H5 as z5 E5. injection H5 as <-. cbn. eauto.
  Qed.

  Lemma map_weigh_iff : forall cw cf won fon ds (w : W) r st1 st2 w',
    map_weigh (A := A) (U := U) (V := V) wone cw cf won fon ds w = Ok (r, st1, st2, w') ->
    exists ds' wss fss, mapM the_data r = Ok ds' /\ st1 = PerField wss /\ st2 = PerField fss /\ ds <> [] /\
      stages wone won fon cw cf ds w ds' wss fss w'.
  Proof.
    intros cw cf won fon ds w r st1 st2 w' H. unfold map_weigh in H. step H as [out w2] E.
    step H as out2 E0. assert (ds <> []) as N by (intros ->; injection E as <- <-; discriminate).
    assert (out2 = out) as -> by (destruct out; [discriminate|injection E0; auto]). clear E0. injection H as <- <- <- <-.
    assert (exists ds', mapM the_data (map (fun t => fst (fst t)) out) = Ok ds' /\
              stages wone won fon cw cf ds w ds' (map (fun t => snd (fst t)) out) (map snd out) w2) as [ds' [M S]].
    2:{ exists ds'. eauto 10. }
    clear N. revert w out E. induction ds as [|d ds IH]; intros w out E; cbn [map_fields] in E.
    - injection E as <- <-. exists []. split; auto. constructor.
    - step E as [y w1] E0. step E as [ys w3] E1. injection E as <- <-.
      step E0 as [[[q ws] fs] w1'] E2. injection E0 as <- <-.
      destruct (IH _ _ E1) as [ds' [M S]]. apply stage_iff in E2; [|discriminate].
      destruct (stage_data _ _ _ _ _ _ _ _ _ _ E2) as [d' D]. exists (d' :: ds'). split.
      + cbn [map mapM fst snd]. unfold the_data at 1. rewrite D. cbn [rbind]. rewrite M. auto.
      + cbn [map fst snd]. destruct q as [q1 q2]. cbn in D. subst. econstructor; eauto.
  Qed.

  Lemma stages_map : forall cw cf won fon ds (w : W) ds' wss fss w',
    stages (A := A) (U := U) (V := V) wone won fon cw cf ds w ds' wss fss w' -> ds <> [] ->
    exists r, map_weigh wone cw cf won fon ds w = Ok (r, PerField wss, PerField fss, w') /\ mapM the_data r = Ok ds'.
  Proof.
    intros * H N.
    assert (exists out, map_fields (fun x w => do r <- weigh_and_filter wone cw cf won fon (PData x) w;
                                   let '(o, ws, fs, w') := r in Ok (o, ws, fs, w')) ds w = Ok (out, w') /\
        map (fun t => snd (fst t)) out = wss /\ map snd out = fss /\ mapM the_data (map (fun t => fst (fst t)) out) = Ok ds') as [out [E [E1 [E2 E3]]]].
    { clear N. induction H.
      - exists []. auto.
      - destruct IHstages as [out [E [E1 [E2 E3]]]]. apply stage_iff in H; [|discriminate].
        eexists (_ :: out). cbn [map_fields]. rewrite H. cbn [rbind fst snd]. rewrite E. cbn [rbind fst snd].
        split; [reflexivity|]. cbn [map fst snd]. split; [congruence|]. split; [congruence|].
        cbn [mapM]. unfold the_data at 1. cbn [wdata rbind]. rewrite E3. auto. }
    unfold map_weigh. rewrite E. cbn [rbind fst snd].
    destruct out as [|o out]; [destruct ds; [congruence|inversion H; subst; discriminate]|].
    cbn [nonempty rbind]. subst. eauto.
  Qed.

  Lemma handle_iter_own : forall fields (s : pstate) out s',
    handle_iter fields s = Ok (out, s') ->
    exists used, rest s = used ++ rest s' /\ each_own used fields (world s) (map fst out) (map snd out) (world s').
  Proof.
    induction fields as [|x fields IH]; intros s out s' H; cbn [handle_iter] in H.
    - injection H as <- <-. exists []. split; auto. constructor.
    - destruct (rest s) as [|h hs] eqn:R; [discriminate|]. step H as [[y st] w1] E. step H as [ys s2] E0. injection H as <- <-.
      apply IH in E0.
      destruct E0 as [used [R2 O]]. cbn [rest world] in *. exists (h :: used). split; [cbn; congruence|].
      apply collect_call in E. cbn [map fst snd]. econstructor; eauto.
  Qed.

  Lemma own_handle_iter : forall used fields w ds sts w', each_own (W := W) (V := V) (Raw := Raw) used fields w ds sts w' ->
    forall left, exists out, handle_iter fields (mkS w (used ++ left)) = Ok (out, mkS w' left) /\ map fst out = ds /\ map snd out = sts.
  Proof.
    induction 1; intros left.
    - exists []. auto.
    - destruct (IHeach_own left) as [out [E [E1 E2]]]. apply collect_call in H. exists ((y, st) :: out).
      cbn [handle_iter app rest world]. rewrite H. cbn [rbind fst snd]. rewrite E. cbn. subst. auto.
  Qed.

  Lemma handled_iff : forall (p : pipeline) fields s ds st s',
    handle_data p fields s = Ok (ds, st, s') <-> exists sts, st = PerField sts /\ handled p fields s ds sts s' /\ fields <> [].
  Proof.
    intros p fields s ds st s'. unfold handle_data. destruct (data_handler p) eqn:H; split.
    - intros E. step E as [[ys st'] w'] E0. injection E as <- <- <-.
      apply map_collect_each in E0. destruct E0 as [sts [-> [E N]]]. exists sts. split; auto. split; auto. econstructor; eauto.
    - intros [sts [-> [E N]]]. inversion E; subst; [|congruence].
      assert (h0 = h) as -> by congruence.
      match goal with E2 : each h fields _ _ _ ?w |- _ =>
        assert (map_collect h fields (world s) = Ok (ds, PerField sts, w)) as -> by (apply map_collect_each; eauto) end. auto.
    - destruct fields; discriminate.
    - intros [sts [-> [E N]]]. inversion E; congruence.
    - intros E. step E as [out s2] E0. step E as out2 E1. injection E as <- <- <-.
      pose proof (handle_iter_own _ _ _ _ E0) as [used [R O]]. destruct out; [discriminate|]. injection E1 as <-.
      eexists. split; [reflexivity|]. split.
      + destruct s2 as [w2 r2]. cbn in *. eapply HandledIter; eauto.
      + intros ->. inversion O.
    - intros [sts [-> [E N]]]. inversion E; subst; [congruence|].
      destruct (own_handle_iter _ _ _ _ _ _ H2 left) as [out [E1 [E2 E3]]]. destruct s as [w0 r0]. cbn [world rest] in *. subst r0.
      rewrite E1. cbn [rbind fst snd]. destruct out; [subst; inversion H2; congruence|]. cbn [nonempty rbind].
      subst. auto.
  Qed.

  Lemma dupdate_merged : forall (e d : dict V), NoDup (dkeys e) -> merged d e (dupdate d e).
  Proof.
    unfold merged, dupdate. induction e as [|[k v] e IH]; intros d ND k'; cbn [fold_left fst snd dget].
    - auto.
    - cbn in ND. inversion ND; subst. rewrite IH by auto. destruct (String.eqb_spec k k').
      + subst. rewrite dget_dset_same.
        destruct (dget k' e) eqn:E; auto. apply dget_Some_In in E. contradiction H1. unfold dkeys. apply (in_map fst) in E. auto.
      + rewrite dget_dset_other by auto. auto.
  Qed.

  (** Statistics are dictionaries: no key twice. *)
  Definition proper (p : pipeline) : Prop := forall w, NoDup (dkeys (stats (influence p) w)).
  (** The influence model returns an array, as documented (influencemodel.py 24-39). *)
  Definition gives_arrays (p : pipeline) : Prop := forall x w y w', run (influence p) x w = Ok (y, w') -> exists rows, y = PArr rows.

  Lemma preprocess_sound : forall (p : pipeline) sw fields fitting s out st s', proper p -> gives_arrays p ->
    preprocess wone p sw fields fitting s = Ok (out, st, s') -> preprocessed wone p sw fields fitting s out st s'.
  Proof.
    intros p sw fields fitting s out st s' PR GA H. unfold preprocess in H.
    step H as [[d0 t0] s1] E0. apply handled_iff in E0. destruct E0 as [l0 [-> [E0 N]]].
    step H as [[d1 t1] w1] E1. apply map_collect_each in E1. destruct E1 as [l1 [-> [E1 N1]]].
    step H as [[d2 t2] w2] E2. step H as [[[r3 t3] u3] w3] E3. step H as d3 M3.
    step H as [[d4 t4] w4] E4. apply map_collect_each in E4. destruct E4 as [l4 [-> [E4 N4]]].
    step H as [[[r5 t5] u5] w5] E5. step H as d5 M5. step H as joined EJ. step H as [tf w6] EF.
    step H as [[d6 t6] w7] E6. apply collect_call in E6. step H as [[[o t7] u7] w8] E7. injection H as <- <- <-.
    apply map_weigh_iff in E3. destruct E3 as [d3' [l3 [m3 [M3' [-> [-> [N3 E3]]]]]]].
    assert (d3' = d3) as -> by congruence.
    apply map_weigh_iff in E5. destruct E5 as [d5' [l5 [m5 [M5' [-> [-> [N5 E5]]]]]]].
    assert (d5' = d5) as -> by congruence.
    assert (forall dd, d6 <> PDict dd) as ND by (intros dd ->; inversion E6 as [y w' R]; subst; apply GA in R; destruct R; discriminate).
    apply stage_iff in E7; auto.
    eapply (Pre wone p sw fields fitting s d0 l0 s1 d1 l1 w1 d2 t2 w2 d3 l3 m3 w3 d4 l4 w4 d5 l5 m5 w5 joined tf w6); eauto.
    - destruct (smoothing sw).
      + apply map_collect_each in E2. destruct E2 as [l2 [-> [E2 _]]]. eauto.
      + injection E2 as <- <- <-. auto.
    - destruct fitting.
      + step EF as [r w6'] EF2. injection EF as <- <-. eauto.
      + injection EF as <- <-. auto.
    - apply dupdate_merged. destruct fitting.
      + step EF as [r w6'] EF2. injection EF as <- <-. apply PR.
      + injection EF as <- <-. constructor.
  Qed.

  Lemma stages_length : forall won fon cw cf ds w ds' wss fss w',
    stages (W := W) (V := V) (A := A) (U := U) wone won fon cw cf ds w ds' wss fss w' -> length ds' = length ds.
  Proof. induction 1; cbn; auto. Qed.

  Lemma nonempty_length : forall X Y (l : list X) (m : list Y), length l = length m -> m <> [] -> l <> [].
  Proof. intros X Y [|] [|]; cbn; congruence. Qed.

  Lemma handled_length : forall (p : pipeline) fields s ds sts s', handled p fields s ds sts s' -> length ds = length fields.
  Proof.
    intros * H. inversion H; subst.
    - apply each_length in H1. tauto.
    - clear H H1 H0. induction H2; cbn; auto.
  Qed.

  (** Equal but for the order and multiplicity of the influence model's statistics. *)
  Lemma preprocess_complete : forall (p : pipeline) sw fields fitting s out st s', gives_arrays p -> fields <> [] ->
    preprocessed wone p sw fields fitting s out st s' ->
    exists st', preprocess wone p sw fields fitting s = Ok (out, st', s') /\
      s_pre_influence_filter st' = s_pre_influence_filter st /\ s_pre_expanding_filter st' = s_pre_expanding_filter st.
  Proof.
    intros p sw fields fitting s out st s' GA N H. destruct H.
    pose proof (handled_length _ _ _ _ _ _ H) as L0. apply each_length in H0 as L1. destruct L1 as [L1 _].
    apply stages_length in H2 as L3. apply each_length in H3 as L4. destruct L4 as [L4 _]. apply stages_length in H4 as L5.
    assert (length d2 = length d1) as L2.
    { destruct (smoothing sw); [destruct H1 as [l [H1 _]]; apply each_length in H1; tauto|destruct H1; congruence]. }
    assert (forall X (l : list X), length l = length fields -> l <> []) as NE by (intros; eapply nonempty_length; eauto).
    unfold preprocess.
    assert (handle_data p fields s = Ok (d0, PerField t0, s1)) as -> by (apply handled_iff; eauto).
    cbn [rbind]. assert (map_collect (imputator p) d0 (world s1) = Ok (d1, PerField t1, w1)) as -> by (apply map_collect_each; eauto).
    cbn [rbind].
    assert ((if smoothing sw then map_collect (smoother p) d1 w1 else Ok (d1, Flat [], w1)) = Ok (d2, t2, w2)) as ->.
    { destruct (smoothing sw).
      - destruct H1 as [l [H1 ->]]. apply map_collect_each. eexists. split; [reflexivity|]. split; auto. apply NE. congruence.
      - destruct H1 as [-> [-> ->]]. auto. }
    cbn [rbind]. destruct (stages_map _ _ _ _ _ _ _ _ _ _ H2 ltac:(apply NE; congruence)) as [r3 [-> M3]]. cbn [rbind].
    rewrite M3. cbn [rbind].
    assert (map_collect (expander p) d3 w3 = Ok (d4, PerField t4, w4)) as ->.
    { apply map_collect_each. eexists. split; [reflexivity|]. split; auto. apply NE. congruence. }
    cbn [rbind]. destruct (stages_map _ _ _ _ _ _ _ _ _ _ H4 ltac:(apply NE; congruence)) as [r5 [-> M5]]. cbn [rbind].
    rewrite M5. cbn [rbind]. rewrite H5. cbn [rbind].
    assert ((if fitting then do r <- influence_fit p joined w5; Ok (stats (influence p) (snd r), snd r) else Ok ([], w5)) = Ok (tf, w6)) as ->.
    { destruct fitting; [destruct H6 as [r [-> ->]] | destruct H6 as [-> ->]]; auto. }
    cbn [rbind]. apply collect_call in H7 as C. rewrite C. cbn [rbind].
    assert (weigh_and_filter wone (post_weigher p) (post_filter p) (post_weighing sw) (post_filtering sw) d6 w7 = Ok (out, t7, u7, w8)) as ->.
    { apply stage_iff; auto. intros dd ->. inversion H7 as [y w' R]; subst. apply GA in R. destruct R. discriminate. }
    cbn [rbind]. eexists. split; [reflexivity|]. auto.
  Qed.

  (** C62: a run that returns is a run in the documented order: every field is read, imputed,
      smoothed (if switched on), weighed and filtered (if switched on; else every point has
      weight 1 and no point is removed), expanded, weighed and filtered again; the fields are
      joined, the influence model is fitted to training data only and removed, the points are
      weighed and filtered; the injected points are added and the extension makes the diagram;
      and the statistics are those of the components.  (C64: the field
      [pre_expanding_filter] of the training statistics is the exception.) *)
  Theorem pipeline_run : forall (p : pipeline) sw training test elapsed s o s', proper p -> gives_arrays p ->
    execute wone p sw training test elapsed s = Ok (o, s') ->
    exists ideal, executed wone p sw training test elapsed s (diagram o) ideal (test_statistics o) s' /\
      let t := training_statistics o in
      s_data_handler t = s_data_handler ideal /\ s_imputator t = s_imputator ideal /\ s_smoother t = s_smoother ideal /\
      s_pre_expanding_weigher t = s_pre_expanding_weigher ideal /\ s_expander t = s_expander ideal /\
      s_pre_influence_weigher t = s_pre_influence_weigher ideal /\ s_pre_influence_filter t = s_pre_influence_filter ideal /\
      s_influence_model t = s_influence_model ideal /\ s_post_weigher t = s_post_weigher ideal /\
      s_post_filter t = s_post_filter ideal /\ s_injector t = s_injector ideal /\ s_extension t = s_extension ideal /\
      s_quality_assurance t = s_quality_assurance ideal.
  Proof.
    intros p sw training test elapsed s o s' PR GA H. unfold execute in H.
    step H as [[pts st] s1] E1. apply preprocess_sound in E1; auto.
    destruct (is_empty_data (wdata pts)) eqn:EE; [discriminate|].
    step H as [[new ti] w1] E2. step H as all E3. step H as [[pol te] w2] E4. apply collect_call in E4.
    step H as [[tst tq] s2] E5. injection H as <- <-. eexists. cbn [diagram training_statistics test_statistics]. split.
    - econstructor; eauto.
      + intros NP. apply no_points_iff in NP. congruence.
      + destruct (injecting sw).
        * apply collect_call in E2. eauto.
        * injection E2 as <- <- <-. split; auto. unfold wp_extend in E3.
          destruct pts as [[rows|dd|dd] wts]; cbn [wdata wweights] in E3; try discriminate. injection E3 as <-. rewrite !app_nil_r. auto.
      + destruct (testing sw).
        * step E5 as [[tpts tst'] s3] E6. step E5 as [q w4] E7. injection E5 as <- <- <-. apply preprocess_sound in E6; eauto 10.
        * injection E5 as <- <- <-. auto.
    - cbn. repeat split; auto.
  Qed.
End Proofs.

Section Proofs2.
  Context {W V Raw A U Wt Pol : Type}.
  Variable wone : Wt.
  Notation comp := (comp W V). Notation pstate := (pstate W V Raw).
  Notation pipeline := (pipeline W V Raw A U Wt Pol).

  (** C62: and every such run happens: if the components can be run in this order, the pipeline
      returns the diagram they produce. *)
  Theorem pipeline_complete : forall (p : pipeline) sw training test elapsed s pol ideal tst s', gives_arrays p ->
    training <> [] -> (testing sw = true -> test <> []) ->
    executed wone p sw training test elapsed s pol ideal tst s' ->
    exists o, execute wone p sw training test elapsed s = Ok (o, s') /\ diagram o = pol.
  Proof.
    intros p sw training test elapsed s pol ideal tst s' GA N NT H. destruct H.
    destruct (preprocess_complete _ _ _ _ _ _ _ _ _ GA N H) as [st' [E _]]. unfold execute. rewrite E. cbn [rbind].
    destruct (is_empty_data (wdata pts)) eqn:EE; [apply no_points_iff in EE; contradiction|].
    assert (exists rows, wdata pts = PArr rows) as [rows AR].
    { inversion H; subst.
      match goal with C : call (influence p) _ _ _ _ _ |- _ => inversion C as [y w' R]; subst end.
      apply GA in R. destruct R as [rows ->].
      match goal with C : stage _ _ _ _ _ _ _ _ _ _ _ |- _ => inversion C; subst; cbn; eauto end.
      match goal with C : filtered _ _ _ _ _ _ _ |- _ => inversion C as [? ? ? ? ? ? X|]; subst; cbn; eauto end.
      unfold wp_mask in X. cbn [wdata wweights] in X. step X as r1 X1. step X as r2 X2. injection X as <-. cbn. eauto. }
    assert (exists new, (if injecting sw then collect (injector p) pts (world s1) else Ok (mkWP (PArr []) [], [], world s1)) = Ok (new, ti, w1) /\
              wp_extend pts new = Ok all) as [new [-> X]].
    { destruct (injecting sw).
      - destruct H1 as [new [C X]]. apply collect_call in C. eauto.
      - destruct H1 as [-> [-> ->]]. eexists. split; [reflexivity|]. unfold wp_extend. rewrite AR. cbn [wdata wweights].
        rewrite !app_nil_r. destruct pts. cbn in *. congruence. }
    cbn [rbind]. rewrite X. cbn [rbind]. apply collect_call in H2. rewrite H2. cbn [rbind].
    destruct (testing sw).
    - destruct H3 as [tpts [s3 [w4 [P [Q ->]]]]]. destruct (preprocess_complete _ _ _ _ _ _ _ _ _ GA (NT eq_refl) P) as [tst' [-> _]].
      cbn [rbind]. rewrite Q. cbn [rbind fst snd]. eexists. split; [reflexivity|]. auto.
    - destruct H3 as [-> [-> ->]]. cbn [rbind]. eexists. split; [reflexivity|]. auto.
  Qed.

  (** C62: without any field of training data the run ends in a ValueError. *)
  Theorem pipeline_no_fields : forall (p : pipeline) sw test elapsed s,
    execute wone p sw [] test elapsed s = Raise ValueError.
  Proof. intros. unfold execute, preprocess, handle_data. destruct (data_handler p); auto. Qed.

  (** Two switch settings that differ at most in [testing]. *)
  Definition same_but_testing (a b : switches) : Prop :=
    smoothing a = smoothing b /\ pre_exp_weighing a = pre_exp_weighing b /\ pre_exp_filtering a = pre_exp_filtering b /\
    pre_inf_weighing a = pre_inf_weighing b /\ pre_inf_filtering a = pre_inf_filtering b /\
    PipeModel.post_weighing a = PipeModel.post_weighing b /\ PipeModel.post_filtering a = PipeModel.post_filtering b /\ injecting a = injecting b.

  (** C63: for any two runs on the same training data from the same state of the components, with
      any test data or none, the diagram is the same and so are the training statistics of all
      stages before the quality assurance. *)
  Theorem test_data_irrelevant : forall (p : pipeline) sw sw' training test test' elapsed elapsed' s o o' s1 s2,
    same_but_testing sw sw' ->
    execute wone p sw training test elapsed s = Ok (o, s1) -> execute wone p sw' training test' elapsed' s = Ok (o', s2) ->
    diagram o = diagram o' /\
    let t := training_statistics o in let t' := training_statistics o' in
    s_data_handler t = s_data_handler t' /\ s_imputator t = s_imputator t' /\ s_smoother t = s_smoother t' /\
    s_pre_expanding_weigher t = s_pre_expanding_weigher t' /\ s_pre_expanding_filter t = s_pre_expanding_filter t' /\
    s_expander t = s_expander t' /\ s_pre_influence_weigher t = s_pre_influence_weigher t' /\
    s_pre_influence_filter t = s_pre_influence_filter t' /\ s_influence_model t = s_influence_model t' /\
    s_post_weigher t = s_post_weigher t' /\ s_post_filter t = s_post_filter t' /\ s_injector t = s_injector t' /\
    s_extension t = s_extension t'.
  Proof.
    intros p sw sw' training test test' elapsed elapsed' s o o' s1 s2 SB H H'.
    assert (preprocess wone p sw training true s = preprocess wone p sw' training true s) as E.
    { unfold preprocess. destruct SB as (-> & -> & -> & -> & -> & -> & -> & _). auto. }
    unfold execute in *. rewrite <- E in H'. clear E. replace (injecting sw') with (injecting sw) in H' by (destruct SB; tauto).
    step H as [[pts st] s3] E1. cbn [rbind] in H'. destruct (is_empty_data (wdata pts)); [discriminate|].
    step H as [[new ti] w1] E2. cbn [rbind] in H'. step H as all E3. cbn [rbind] in H'.
    step H as [[pol te] w2] E4. cbn [rbind] in H'. step H as [[tst tq] s4] E5. step H' as [[tst' tq'] s4'] E5'.
    injection H as <- <-. injection H' as <- <-. cbn. repeat split; auto.
  Qed.

  (** C65 (partial: for an iterator of handlers): the i-th field is read by the i-th handler that
      is left, and the handlers that were not needed remain for the test data. *)
  Theorem handlers_matched_partial : forall (p : pipeline) fields s ds st s', data_handler p = HIter ->
    handle_data p fields s = Ok (ds, st, s') ->
    exists sts, st = PerField sts /\ rest s' = skipn (length fields) (rest s) /\
      each_own (firstn (length fields) (rest s)) fields (world s) ds sts (world s').
  Proof.
    intros p fields s ds st s' HI H. apply handled_iff in H. destruct H as [sts [-> [H _]]]. exists sts. split; auto.
    inversion H; subst; [congruence|].
    assert (length used = length fields) as L by (clear - H2; induction H2; cbn; auto).
    rewrite H1, <- L, skipn_app, skipn_all, Nat.sub_diag, firstn_app, firstn_all, Nat.sub_diag. cbn. rewrite app_nil_r. auto.
  Qed.

  (** C65: refuted for a list (or tuple) of handlers, the documented type: every run raises
      TypeError, whatever the handlers and data. *)
  Theorem handlers_list_refuted : forall (p : pipeline) hs sw training test elapsed s, data_handler p = HList hs ->
    training <> [] -> execute wone p sw training test elapsed s = Raise TypeError.
  Proof.
    intros p hs sw training test elapsed s H N. unfold execute, preprocess, handle_data. rewrite H.
    destruct training; [congruence|auto].
  Qed.
End Proofs2.

(** ** Keywords (C91) *)

(** The first of several names that is given. *)
Fixpoint given {V} (names : list string) (d : dict V) (default : V) : V :=
  match names with
  | [] => default
  | n :: r => match dget n d with Some v => v | None => given r d default end
  end.

Lemma resolve_fold : forall V (aliases : dict string) x,
  (forall k f, dget k aliases = Some f -> dget f aliases = None) ->
  (forall k k', dget k aliases = Some x -> dget k' aliases = Some x -> k = k') ->
  forall ks (acc : dict V),
  dget x (fold_left (fun acc k =>
    match dget k aliases with
    | Some full => match dget k acc with Some v => dset full v acc | None => acc end
    | None => acc
    end) ks acc) =
  match find (fun k => match dget k aliases with Some f => String.eqb f x && (if dget k acc then true else false) | None => false end) ks with
  | Some k => dget k acc
  | None => dget x acc
  end.
Proof.
  intros V aliases x HT HU. induction ks as [|k ks IH]; intros acc; cbn [fold_left find]; auto.
  rewrite IH. destruct (dget k aliases) as [f|] eqn:EA; auto.
  destruct (dget k acc) as [v|] eqn:EV.
  - assert (forall k', (exists f', dget k' aliases = Some f') -> dget k' (dset f v acc) = dget k' acc) as SAME.
    { intros k' [f' E']. apply dget_dset_other. intros <-. rewrite (HT _ _ EA) in E'. discriminate. }
    assert (find (fun k0 => match dget k0 aliases with Some f0 => String.eqb f0 x && (if dget k0 (dset f v acc) then true else false) | None => false end) ks =
            find (fun k0 => match dget k0 aliases with Some f0 => String.eqb f0 x && (if dget k0 acc then true else false) | None => false end) ks) as ->.
    { clear IH. induction ks as [|k' ks IH']; cbn [find]; auto. destruct (dget k' aliases) eqn:E'; [rewrite SAME by eauto|]; rewrite IH'; auto. }
    destruct (String.eqb_spec f x) as [->|NE]; cbn [andb].
    + destruct (find _ ks) as [k'|] eqn:F.
      * apply find_some in F. destruct F as [_ F]. destruct (dget k' aliases) as [f'|] eqn:E'; [|discriminate].
        apply andb_true_iff in F. destruct F as [F _]. apply String.eqb_eq in F. subst f'.
        rewrite SAME by eauto. rewrite (HU _ _ E' EA). auto.
      * rewrite dget_dset_same. auto.
    + destruct (find _ ks) as [k'|] eqn:F.
      * apply find_some in F. destruct F as [_ F]. destruct (dget k' aliases) as [f'|] eqn:E'; [|discriminate]. apply SAME. eauto.
      * apply dget_dset_other. auto.
  - destruct (String.eqb f x); cbn [andb]; auto.
Qed.

Lemma resolve_target : forall V (aliases : dict string) (d : dict V) x a,
  (forall k f, dget k aliases = Some f -> dget f aliases = None) ->
  (forall k, dget k aliases = Some x -> k = a) -> dget a aliases = Some x ->
  dget x (resolve_aliases aliases d) = match dget a d with Some v => Some v | None => dget x d end.
Proof.
  intros V aliases d x a HT HU HA. unfold resolve_aliases. rewrite resolve_fold; auto.
  - destruct (find _ (dkeys d)) as [k|] eqn:F.
    + apply find_some in F. destruct F as [_ F]. destruct (dget k aliases) as [f|] eqn:E; [|discriminate].
      apply andb_true_iff in F. destruct F as [F1 F2]. apply String.eqb_eq in F1. subst f.
      rewrite <- (HU _ E) in *. destruct (dget k d); auto. discriminate.
    + destruct (dget a d) as [v|] eqn:E; auto.
      apply find_none with (x := a) in F; [|apply dget_In_key; eauto]. rewrite HA, E, String.eqb_refl in F. discriminate.
  - intros k k' E E'. rewrite (HU _ E), (HU _ E'). auto.
Qed.

Lemma resolve_other : forall V (aliases : dict string) (d : dict V) x,
  (forall k f, dget k aliases = Some f -> dget f aliases = None) ->
  (forall k, dget k aliases <> Some x) -> dget x (resolve_aliases aliases d) = dget x d.
Proof.
  intros V aliases d x HT HN. unfold resolve_aliases. rewrite resolve_fold; auto.
  - destruct (find _ (dkeys d)) as [k|] eqn:F; auto.
    apply find_some in F. destruct F as [_ F]. destruct (dget k aliases) as [f|] eqn:E; [|discriminate].
    apply andb_true_iff in F. destruct F as [F1 F2]. apply String.eqb_eq in F1. subst f. destruct (HN k E).
  - intros k k' E. destruct (HN k E).
Qed.

Lemma set_default_get : forall V (d : dict V) keys defaults aliases k i v,
  NoDup keys -> nth_error keys i = Some k -> nth_error defaults i = Some v ->
  dget k (set_with_default d keys defaults aliases) =
  Some (match dget k (resolve_aliases aliases d) with Some v => v | None => v end).
Proof.
  intros V d keys defaults aliases k i v. unfold set_with_default. generalize (resolve_aliases aliases d). intros d'.
  revert defaults i. induction keys as [|k0 keys IH]; intros [|v0 defaults] [|i] ND H1 H2; cbn in *; try discriminate.
  - injection H1 as ->. injection H2 as ->. rewrite String.eqb_refl. auto.
  - inversion ND; subst. destruct (String.eqb_spec k0 k).
    + subst. apply nth_error_In in H1. contradiction.
    + eapply IH; eauto.
Qed.

(** Finds the alias of a closed table. *)
Ltac alias_case := intros k f; cbn [dget enabling_aliases component_aliases]; repeat match goal with |- (if String.eqb ?a k then _ else _) = _ -> _ => destruct (String.eqb_spec a k); [intros [= <-]; reflexivity|] end; discriminate.
Ltac alias_unique := intros k; cbn [dget enabling_aliases component_aliases]; repeat match goal with |- (if String.eqb ?a k then _ else _) = _ -> _ => destruct (String.eqb_spec a k); [first [intros [=]; congruence | intros _; symmetry; assumption]|] end; discriminate.
Ltac alias_none := intros k; cbn [dget enabling_aliases component_aliases]; repeat match goal with |- (if String.eqb ?a k then _ else _) <> _ => destruct (String.eqb_spec a k); [discriminate|] end; discriminate.

(** C91: every switch has the value given under its short name, else the value given under its
    full name, else [True]; other keywords do not matter, and [testing] needs test data. *)
Theorem switches_resolved : forall (d : dict bool) has_test, let s := read_switches d has_test in
  smoothing s = given ["smoothing"] d true /\
  pre_exp_weighing s = given ["pre_expander_weighing"] d true /\
  pre_exp_filtering s = given ["pre_expander_filtering"] d true /\
  pre_inf_weighing s = given ["pre_weighing"; "pre_influence_weighing"] d true /\
  pre_inf_filtering s = given ["pre_filtering"; "pre_influence_filtering"] d true /\
  PipeModel.post_weighing s = given ["weighing"; "post_weighing"] d true /\
  PipeModel.post_filtering s = given ["filtering"; "post_filtering"] d true /\
  injecting s = given ["injecting"] d true /\
  testing s = given ["testing"] d true && has_test.
Proof.
  intros d has_test s. unfold s, read_switches. cbn [smoothing pre_exp_weighing pre_exp_filtering pre_inf_weighing pre_inf_filtering
    PipeModel.post_weighing PipeModel.post_filtering injecting testing].
  assert (NoDup enabling_keys) as ND by (repeat constructor; cbn; intuition discriminate).
  rewrite (set_default_get _ _ _ _ _ "smoothing" 0 true), (set_default_get _ _ _ _ _ "pre_expander_weighing" 1 true),
    (set_default_get _ _ _ _ _ "pre_expander_filtering" 2 true), (set_default_get _ _ _ _ _ "pre_influence_weighing" 3 true),
    (set_default_get _ _ _ _ _ "pre_influence_filtering" 4 true), (set_default_get _ _ _ _ _ "post_weighing" 5 true),
    (set_default_get _ _ _ _ _ "post_filtering" 6 true), (set_default_get _ _ _ _ _ "injecting" 7 true),
    (set_default_get _ _ _ _ _ "testing" 8 true) by auto.
  rewrite (resolve_other _ _ d "smoothing"), (resolve_other _ _ d "pre_expander_weighing"), (resolve_other _ _ d "pre_expander_filtering"),
    (resolve_other _ _ d "injecting"), (resolve_other _ _ d "testing"),
    (resolve_target _ _ d "pre_influence_weighing" "pre_weighing"), (resolve_target _ _ d "pre_influence_filtering" "pre_filtering"),
    (resolve_target _ _ d "post_weighing" "weighing"), (resolve_target _ _ d "post_filtering" "filtering");
    [|try reflexivity; try alias_case; try alias_unique; try alias_none ..].
  cbn [given]. repeat split; repeat match goal with |- context [dget ?k d] => destruct (dget k d) end; auto.
Qed.
Print Assumptions switches_resolved.

(** The names under which each component can be given, in the order in which they count. *)
Definition documented_components : list (string * list string) :=
  [("data_handler", ["data_handler"]); ("imputator", ["imputator"]); ("smoother", ["smoother"]);
   ("pre_expander_weigher", ["pre_expander_weigher"]); ("pre_expander_filter", ["pre_expander_filter"]);
   ("expander", ["expander"]); ("pre_influence_weigher", ["pre_weigher"; "pre_influence_weigher"]);
   ("pre_influence_filter", ["pre_filter"; "pre_influence_filter"]); ("influence_model", ["influence_model"]);
   ("post_weigher", ["weigher"; "post_weigher"]); ("post_filter", ["filter"; "post_filter"]);
   ("injector", ["injector"]); ("extension", ["extension"]); ("quality_assurance", ["quality_assurance"])].

(** C91: every component is the one given under its short name, else under its full name, else
    the default. *)
Theorem components_resolved : forall V (d : dict V) defaults i k names default,
  nth_error documented_components i = Some (k, names) -> nth_error defaults i = Some default ->
  dget k (set_with_default d component_keys defaults component_aliases) = Some (given names d default).
Proof.
  intros V d defaults i k names default H1 H2.
  assert (nth_error component_keys i = Some k) as HK.
  { assert (component_keys = map fst documented_components) as -> by reflexivity.
    rewrite nth_error_map, H1. reflexivity. }
  rewrite (set_default_get _ _ _ _ _ k i default) by (auto; repeat constructor; cbn; intuition discriminate). f_equal.
  assert (dget k (resolve_aliases component_aliases d) =
    match names with [a; k] => match dget a d with Some v => Some v | None => dget k d end | _ => dget k d end) as E.
  { apply nth_error_In in H1. cbn in H1.
    repeat (destruct H1 as [E|H1]; [injection E as <- <-; first [apply resolve_other; [alias_case|alias_none] |
      match goal with |- _ = match dget ?a d with _ => _ end =>
        apply (resolve_target _ _ d _ a); [alias_case|alias_unique|reflexivity] end]|]). contradiction. }
  rewrite E. apply nth_error_In in H1. cbn in H1.
  repeat (destruct H1 as [E'|H1]; [injection E' as <- <-; cbn; repeat match goal with |- context [dget ?k d] => destruct (dget k d) end; reflexivity|]). contradiction.
Qed.
Print Assumptions components_resolved.

(** The short name wins over the full name; misspelt names are ignored. *)
Example switches_meets :
  PipeModel.post_weighing (read_switches [("post_weighing", true); ("weighing", false)] true) = false /\
  PipeModel.post_weighing (read_switches [("weighing", false); ("post_weighing", true)] true) = false /\
  PipeModel.post_filtering (read_switches [("post_filter", false)] true) = true /\
  testing (read_switches [] false) = false.
Proof. auto. Qed.

(** ** A concrete run *)

(** Components that count their calls in the state and report the number. *)
Definition counted {X Y} (name : string) (f : X -> Y) : comp nat nat X Y :=
  mkC (fun x n => Ok (f x, S n)) (fun n => [(name, n)]).
Definition two_rows : Data := mkData [("TWS", [Some (VFloat (3 # 1)); Some (VFloat (4 # 1))])] [("TWS", Some TFloat)] 2%Z.
Definition demo : pipeline nat nat Data nat nat nat (wpoints nat nat nat) :=
  mkP (HOne (counted "handler" (fun d => d))) (counted "imputator" (fun d => d)) (counted "smoother" (fun d => d))
      (counted "pre_exp_weigher" (fun _ => [5; 6])) (counted "pre_exp_filter" (fun _ => [true; false]))
      (counted "expander" (fun d => d))
      (counted "pre_inf_weigher" (fun _ => [7])) (counted "pre_inf_filter" (fun _ => [true]))
      (counted "influence" (fun d => PArr [Z.to_nat (n_rows d); 10])) (fun _ n => Ok (tt, S n))
      (counted "post_weigher" (fun _ => [8; 9])) (counted "post_filter" (fun _ => [false; true]))
      (counted "injector" (fun _ => mkWP (PArr [0]) [1])) (counted "extension" (fun p => p))
      (fun _ _ n => Ok ([("quality", n)], S n)).
Definition all_on : switches := mkSw true true true true true true true true true.

(** C64: refuted: [pre_expanding_filter] of the training statistics holds the statistics of the
    filter before the influence model; that of the test statistics is right. *)
Theorem pre_expanding_statistics_refuted : exists o s',
  execute 1 demo all_on [two_rows] [two_rows] 99 (mkS 0 []) = Ok (o, s') /\
  (exists ideal, executed 1 demo all_on [two_rows] [two_rows] 99 (mkS 0 []) (diagram o) ideal (test_statistics o) s' /\
     s_pre_expanding_filter ideal = PerField [[("pre_exp_filter", 5)]] /\
     s_pre_expanding_filter (training_statistics o) <> s_pre_expanding_filter ideal) /\
  s_pre_expanding_filter (training_statistics o) = PerField [[("pre_inf_filter", 8)]] /\
  s_pre_expanding_filter (test_statistics o) = PerField [[("pre_exp_filter", 19)]] /\
  diagram o = mkWP (PArr [10; 0]) [9; 1].
Proof.
  eexists. eexists. split; [vm_compute; reflexivity|].
  split; [|split; [|split]]; try reflexivity.
  match goal with |- exists _, executed _ _ _ _ _ _ ?s (diagram ?o) _ _ ?s2 /\ _ =>
    assert (execute 1 demo all_on [two_rows] [two_rows] 99 s = Ok (o, s2)) as E by (vm_compute; reflexivity) end.
  assert (proper demo) as PR by (intros w; repeat constructor; cbn; tauto).
  assert (gives_arrays demo) as GA by (intros x w y w' [= <- _]; eauto).
  clear E.
  assert (exists pts st s1, preprocess 1 demo all_on [two_rows] true (mkS 0 []) = Ok (pts, st, s1) /\
    s1 = mkS 12 [] /\ pts = mkWP (PArr [10]) [9] /\ s_pre_expanding_filter st = PerField [[("pre_exp_filter", 5)]])
    as [pts [st [s1 [E1 [-> [-> Q]]]]]].
  { eexists. eexists. eexists. split; [vm_compute; reflexivity|]. auto. }
  apply preprocess_sound in E1; auto.
  assert (exists tpts tst s3, preprocess 1 demo all_on [two_rows] false (mkS 14 []) = Ok (tpts, tst, s3) /\ s3 = mkS 25 [])
    as [tpts [tst [s3 [E2 ->]]]] by (eexists; eexists; eexists; split; [vm_compute; reflexivity|]; auto).
  pose proof E2 as E2'. apply preprocess_sound in E2; auto. vm_compute in E2'. injection E2' as <- <-.
  eexists. split.
  - cbn [diagram test_statistics]. eapply Exec.
    + exact E1.
    + cbn. discriminate.
    + cbn. eexists. split; [constructor; reflexivity|]. reflexivity.
    + constructor. reflexivity.
    + cbn [testing all_on rest]. eexists. eexists. eexists. split; [exact E2|]. split; [reflexivity|]. reflexivity.
  - cbn [s_pre_expanding_filter]. split; [exact Q|]. rewrite Q. discriminate.
Qed.
Print Assumptions pre_expanding_statistics_refuted.

(** Two handlers in an iterator: the second field is read by the second one, and one is left. *)
Example handlers_meets : let h (d : Data) := counted "h" (fun _ : nat => d) in
  exists st w, handle_data (mkP HIter (imputator demo) (smoother demo) (pre_exp_weigher demo) (pre_exp_filter demo)
    (expander demo) (pre_inf_weigher demo) (pre_inf_filter demo) (influence demo) (influence_fit demo) (post_weigher demo)
    (post_filter demo) (injector demo) (extension demo) (quality_check demo)) [1; 2] (mkS 0 [h two_rows; h empty_data; h two_rows])
  = Ok ([two_rows; empty_data], st, mkS w [h two_rows]).
Proof. eexists. eexists. reflexivity. Qed.

Print Assumptions pipeline_run.

Print Assumptions pipeline_complete.

Print Assumptions pipeline_no_fields.

Print Assumptions test_data_irrelevant.

Print Assumptions handlers_matched_partial.

Print Assumptions handlers_list_refuted.
