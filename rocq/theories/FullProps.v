(** * C140: the pipeline with default components produces a table *)

From Coq Require Import String.
From Coq Require Import List Bool Arith ZArith QArith Reals Qreals Lra Lia Permutation Sorted.
From Verif Require Import Py Num Dict ListX InterpModel TableModel InfluenceModel ExtModel ExtProps InjectModel InjectProps
  DataModel DataSpec DataProofs DataProofs3 DataProps DataCheck WPointsModel ImputModel ImputProps PipeModel PipeSpec PipeProps WeigherModel WeigherProps
  FilterModel FilterProps WholeModel WholeProofs WholeProps FullModel FullProofs.
Import List ListNotations.
Open Scope string_scope.
Open Scope list_scope.
Open Scope R_scope.

Section Run.
  Context {W V Raw U : Type}.
  Variable keys : list string.
  Hypothesis NK : NoDup keys.
  Hypothesis ND : ~ In "datetime" keys.
  Hypothesis IB : In "BSP" keys.
  Hypothesis IT : In "TWS" keys.
  Hypothesis IA : In "TWA" keys.
  Notation pd := (pdata (pt3 R) U).

  Lemma post_stage : forall won fon (rows : list (pt3 R)) (s : fstate W), state_ok keys s ->
    exists rows' q ws fs s', stage 1 won fon (mean_component (V := V) weigher3 (fun w s => mkF (others s) (weigher1 s) (weigher2 s) w)) quantile_component
        (PArr rows : pd) s (mkWP (PArr rows') q) ws fs s' /\
      (rows <> [] -> rows' <> []) /\ length q = length rows' /\ incl rows' rows /\ state_ok keys s' /\ others s' = others s.
  Proof.
    intros won fon rows s OK. destruct rows as [|r0 rows0].
    { exists [], [], [], [], s. split; [apply StEmpty; reflexivity|]. split; [auto|]. split; [auto|]. split; [apply incl_refl|auto]. }
    set (rows := r0 :: rows0). assert (rows <> []) as NE by discriminate.
    assert (exists l ws s1, weighed 1 won (mean_component (V := V) weigher3 (fun w s => mkF (others s) (weigher1 s) (weigher2 s) w)) (PArr rows : pd) s l ws s1 /\
      length l = length rows /\ state_ok keys s1 /\ others s1 = others s) as [l [ws [s1 [WE [LL [OK1 OT]]]]]].
    { destruct won.
      - destruct OK as [O1 [O2 O3]]. destruct (mean_weigh_rows rows (weigher3 s) NE O3) as [l [E [L RD]]].
        exists l, [], (mkF (others s) (weigher1 s) (weigher2 s) (fst (mean_weigh (weigher3 s) (PArray (map row_of rows))))). split; [|split; [auto|split; [|reflexivity]]].
        + apply WOn; auto. apply (Called (mean_component (V := V) (U := U) weigher3 (fun w s => mkF (others s) (weigher1 s) (weigher2 s) w))).
          cbn [run mean_component as_points rbind]. rewrite E. reflexivity.
        + split; [exact O1|]. split; [exact O2|exact RD].
      - exists (repeat 1 (PipeSpec.points (PArr rows : pd))), [], s. split; [apply WOff; auto|]. rewrite repeat_length. auto. }
    destruct fon.
    - destruct (quantile_call (W := W) (V := V) l s1) as [mask [CA [LM TM]]].
      exists (mask_list rows mask), (mask_list l mask), ws, [], s1.
      assert (length mask = length rows) as LMR by congruence.
      split; [|split; [|split; [|split; [|split]]]]; auto.
      + eapply StPoints; [discriminate|exact WE|].
        apply (FOn (V := V) true quantile_component (mkWP (PArr rows : pd) l) s1 mask); auto.
        unfold wp_mask. cbn [wdata wweights]. unfold np_mask. rewrite LM, LL, !Nat.eqb_refl. reflexivity.
      + intros _ E. pose proof (mask_list_length _ rows mask ltac:(auto)) as Q. rewrite E in Q. cbn in Q.
        assert (In true mask) as I by (apply TM; intros ->; cbn in LL; discriminate). apply count_true_pos in I. lia.
      + rewrite !mask_list_length; congruence.
      + intros x Hx. rewrite mask_list_combine in Hx. apply in_map_iff in Hx. destruct Hx as [[y b] [<- Hx]]. apply filter_In in Hx. destruct Hx as [Hx _].
        apply in_combine_l in Hx. exact Hx.
    - exists rows, l, ws, [], s1. split; [eapply StPoints; [discriminate|exact WE|apply FOff; auto]|]. split; [auto|]. split; [auto|]. split; [apply incl_refl|auto].
  Qed.

  Lemma each_silent_ok : forall X Y (f : X -> result Y) xs ys (w : fstate W), Forall2 (fun x y => f x = Ok y) xs ys ->
    each (V := V) (silent f) xs w ys (map (fun _ => []) xs) w.
  Proof.
    intros X Y f xs ys w F. induction F as [|x y xs ys E F IH]; [constructor|]. cbn [map]. econstructor; [|exact IH].
    apply (Called (silent (V := V) f) x w). cbn. rewrite E. reflexivity.
  Qed.

  Lemma each_handler : forall (h : comp W V Raw Data) xs w0 ds sts w', each h xs w0 ds sts w' -> forall s, others s = w0 ->
    each (handler_component h) xs s ds sts (mkF w' (weigher1 s) (weigher2 s) (weigher3 s)).
  Proof.
    intros h xs w0 ds sts w' H. induction H as [w|x xs w y st w1 ys sts w2 C H IH]; intros s E.
    - destruct s. cbn in *. subst. constructor.
    - inversion C as [y0 w0 R]; subst. econstructor.
      + apply (Called (handler_component h) x s y (mkF w1 (weigher1 s) (weigher2 s) (weigher3 s))).
        cbn [run handler_component]. rewrite R. reflexivity.
      + specialize (IH (mkF w1 (weigher1 s) (weigher2 s) (weigher3 s)) eq_refl). exact IH.
  Qed.

  Lemma impute_all : forall ds, Forall (recording keys) ds ->
    exists ds', Forall2 (fun d d' => default_impute d = Ok d') ds ds' /\ Forall (fun d => exists m, filled keys d m) ds' /\
      (Exists (fun d => exists n i, well_formed d n /\ (i < n)%nat /\ complete_row d i) ds -> Exists (fun d => exists m, filled keys d m /\ (0 < m)%nat) ds').
  Proof.
    intros ds F. induction F as [|d ds R F IH].
    - exists []. split; [constructor|]. split; [constructor|]. intros X. inversion X.
    - destruct IH as [ds' [F1 [F2 F3]]]. destruct (impute_filled keys d R ND) as [d' [m [E [FL M]]]].
      exists (d' :: ds'). split; [constructor; auto|]. split; [constructor; eauto|]. intros X. inversion X; subst; [left; exists m; auto|right; auto].
  Qed.

  (** Reading, imputing, weighing and filtering, and the wind arrays. *)
  Lemma preprocessed_ok : forall (h : comp W V Raw Data) qc sw fields fitting (s : fstate W) rst ds sts w',
    each h fields (others s) ds sts w' -> ds <> [] -> Forall (recording keys) ds -> state_ok keys s ->
    exists rows q st s', preprocessed (U := U) 1 (standard_pipeline h qc) sw fields fitting (mkS s rst) (mkWP (PArr rows) q) st (mkS s' rst) /\
      (Exists (fun d => exists n i, well_formed d n /\ (i < n)%nat /\ complete_row d i) ds -> rows <> []) /\
      length q = length rows /\ (forall r, In r rows -> 0 <= pws r) /\ state_ok keys s' /\ others s' = w'.
  Proof.
    intros h qc sw fields fitting s rst ds sts w' H NE F OK.
    destruct (impute_all ds F) as [d1 [F1 [F2 F3]]].
    assert (d1 <> []) as NE1 by (intros ->; inversion F1; subst; contradiction).
    set (s0 := mkF w' (weigher1 s) (weigher2 s) (weigher3 s)). assert (state_ok keys s0) as OK0 by exact OK.
    set (set1 := fun w (s : fstate W) => mkF (others s) w (weigher2 s) (weigher3 s)).
    set (set2 := fun w (s : fstate W) => mkF (others s) (weigher1 s) w (weigher3 s)).
    destruct (stages_filled (V := V) (U := U) keys NK ND IB IT weigher1 set1) with (won := pre_exp_weighing sw) (fon := pre_exp_filtering sw) (ds := d1) (s := s0)
      as [d3 [t3 [u3 [s3 [S3 [F4 [OK3 [O3 X3]]]]]]]]; auto; [intros s1 [A _]; exact A|intros s1 w [A [B C]] R; split; [exact R|split; [exact B|exact C]]|].
    destruct (stages_filled (V := V) (U := U) keys NK ND IB IT weigher2 set2) with (won := pre_inf_weighing sw) (fon := pre_inf_filtering sw) (ds := d3) (s := s3)
      as [d5 [t5 [u5 [s5 [S5 [F5 [OK5 [O5 X5]]]]]]]]; auto; [intros s1 [_ [B _]]; exact B|intros s1 w [A [B C]] R; split; [exact A|split; [exact R|exact C]]|].
    assert (d3 <> []) as NE3 by (intros ->; inversion S3; subst; contradiction).
    assert (d5 <> []) as NE5 by (intros ->; inversion S5; subst; contradiction).
    destruct (concatenate_filled keys d5 NE5 F5) as [joined [m [CC [FL M]]]].
    destruct (identity_rows_filled keys joined m FL ND IB IT IA) as [rows [ER [LR PW]]].
    destruct (post_stage (post_weighing sw) (post_filtering sw) rows s5 OK5) as [rows' [q [t7 [u7 [s7 [S7 [N7 [L7 [I7 [OK7 O7]]]]]]]]]].
    exists rows', q. eexists. exists s7. split; [|split; [|split; [|split; [|split]]]].
    - apply (Pre 1 (standard_pipeline (U := U) h qc) sw fields fitting (mkS s rst) ds sts (mkS s0 rst) d1 (map (fun _ => []) ds) s0 d1
        (if smoothing sw then PerField (map (fun _ => []) d1) else Flat []) s0 d3 t3 u3 s3 d3 (map (fun _ => []) d3) s3 d5 t5 u5 s5 joined [] s5
        (PArr rows) [] [] s5 (mkWP (PArr rows') q) t7 u7 s7); auto.
      + apply (HandledOne (standard_pipeline (U := U) h qc) fields (mkS s rst) (handler_component h)); [reflexivity|]. apply (each_handler h) with (w0 := others s); auto.
      + apply each_silent_ok. exact F1.
      + cbn [smoother]. destruct (smoothing sw); [|auto]. eexists. split; [|reflexivity]. apply each_silent_ok. clear. induction d1; constructor; auto.
      + apply each_silent_ok. clear. induction d3; constructor; auto.
      + destruct fitting; [|auto]. exists tt. auto.
      + apply (Called (influence (standard_pipeline (U := U) h qc)) joined s5). cbn. rewrite ER. reflexivity.
      + intros k. reflexivity.
    - intros X. apply N7. intros ->. cbn in LR. specialize (M (X5 (X3 (F3 X)))). lia.
    - exact L7.
    - intros r Hr. apply PW, I7, Hr.
    - exact OK7.
    - rewrite O7, O5, O3. reflexivity.
  Qed.

  Lemma fresh_ok : forall (x : W) s, fresh x = Ok s -> state_ok keys s /\ others s = x.
  Proof.
    intros x s H. unfold fresh in H. unfold mean_new in H. rnum. rewrite Rleb_false in H by lra. cbn [rbind] in H. injection H as <-.
    split; [|reflexivity]. assert (forall k, ready k (mkMean (1 / 20) None None)) as R.
    { intros k. split; [cbn; lra|]. split; [reflexivity|]. intros n E. discriminate E. }
    split; [apply R|split; apply R].
  Qed.

  Lemma each_fun : forall X Y (c : comp W V X Y) xs w ys sts w', each c xs w ys sts w' ->
    forall ys2 sts2 w2, each c xs w ys2 sts2 w2 -> ys2 = ys /\ w2 = w'.
  Proof.
    intros X Y c xs w ys sts w' H. induction H as [w|x xs w y st w1 ys sts w2 C H IH]; intros ys2 sts2 w3 H2; inversion H2; subst; [auto|].
    match goal with D : call c x w ?y0 _ ?w0 |- _ => inversion C as [a b E1]; inversion D as [a' b' E2]; subst; rewrite E1 in E2; injection E2 as <- <- end.
    match goal with D : each c xs w1 _ _ _ |- _ => destruct (IH _ _ _ D) as [-> ->] end. auto.
  Qed.

  Lemma standard_returns : forall (h : comp W V Raw Data) qc sw training test elapsed (s : fstate W) rst ds sts x1,
    each h training (others s) ds sts x1 -> ds <> [] -> Forall (recording keys) ds ->
    Exists (fun d => exists n i, well_formed d n /\ (i < n)%nat /\ complete_row d i) ds -> state_ok keys s ->
    (testing sw = true -> test <> [] /\ (exists dt stt x2, each h test x1 dt stt x2 /\ Forall (recording keys) dt) /\
       forall t (rows : list (pt3 R)) s, exists r, qc t (PArr rows : pd) s = Ok r) ->
    exists o s', execute 1 (standard_pipeline h qc) sw training test elapsed (mkS s rst) = Ok (o, s').
  Proof.
    intros h qc sw training test elapsed s rst ds sts x1 H NE F X OK TE.
    destruct (preprocessed_ok h qc sw training true s rst ds sts x1 H NE F OK) as [rows [q [st [s1 [PP [NR [LQ [PW [OK1 O1]]]]]]]]].
    specialize (NR X).
    assert (exists (all : wpoints (pt3 R) U R) rows' ti, (if injecting sw
        then exists new, call (injector (standard_pipeline h qc)) (mkWP (PArr rows) q) s1 new ti s1 /\ wp_extend (mkWP (PArr rows) q) new = Ok all
        else all = mkWP (PArr rows) q /\ ti = ([] : dict V) /\ s1 = s1) /\ wdata all = PArr rows' /\ length (wweights all) = length rows' /\
        rows' <> [] /\ forall r, In r rows' -> 0 <= pws r) as [all [rows' [ti [IJ [WA [LA [NA PA]]]]]]].
    { destruct (injecting sw).
      - destruct (zeros_injected 500 rows NR) as [zp [zw [lo [hi [EZ [SR [_ [LW _]]]]]]]]; [lia|].
        exists (mkWP (PArr (rows ++ zp)) (q ++ zw)), (rows ++ zp), []. split; [|split; [|split; [|split]]].
        + exists (mkWP (PArr zp) zw). split; [|reflexivity].
          apply (Called (injector (standard_pipeline (U := U) h qc)) (mkWP (PArr rows) q) s1). cbn. unfold inject_zeros. cbn [wdata]. rewrite EZ. reflexivity.
        + reflexivity.
        + cbn. rewrite !app_length. apply f_equal2; [exact LQ|exact LW].
        + destruct rows; [congruence|discriminate].
        + intros r Hr. apply in_app_or in Hr. destruct Hr as [Hr|Hr]; [auto|].
          assert (exists b, forall r, In r rows -> 0 <= pws r <= b) as [b BB].
          { clear - PW. induction rows as [|r rows IH]; [exists 0; intros r []|]. destruct IH as [b IH]; [intros; apply PW; right; auto|].
            exists (Rmax b (pws r)). intros r' [<-|Hr]; split; try (apply PW; cbn; auto); [apply Rmax_r|]. apply IH in Hr. eapply Rle_trans; [apply Hr|apply Rmax_l]. }
          apply (zero_points 500 rows zp zw (2 * 500)%Z 0 b); auto; lia.
      - exists (mkWP (PArr rows) q), rows, []. auto. }
    destruct (table_min_max default_nhood default_interp rows' (wweights all) NA PA) as [t [lo [hi [ET _]]]].
    { intros g. apply default_estimate. auto. }
    assert (call (extension (standard_pipeline (U := U) h qc)) all s1 t [] s1) as CE.
    { apply (Called (extension (standard_pipeline (U := U) h qc)) all s1). cbn. unfold extend_table. rewrite WA, ET. reflexivity. }
    assert (training <> []) as NT. { intros ->. inversion H; subst. contradiction. }
    assert (gives_arrays (standard_pipeline (U := U) h qc)) as GA.
    { intros x w y w' E. cbn in E. destruct (identity_rows x); cbn [rbind] in E; [|discriminate]. injection E as <- _. eauto. }
    assert (exists tst tq s2, if testing sw then exists tpts s3 w4,
        preprocessed 1 (standard_pipeline h qc) sw test false (mkS s1 rst) tpts tst s3 /\
         quality_check (standard_pipeline h qc) t (wdata tpts) (world s3) = Ok (tq, w4) /\ s2 = mkS w4 (rest s3)
       else tst = empty_statistics /\ tq = [] /\ s2 = mkS s1 rst) as [tst [tq [s2 TT]]].
    { destruct (testing sw) eqn:ET'; [|exists empty_statistics, [], (mkS s1 rst); auto].
      destruct (TE eq_refl) as [NTE [[dt [stt [x2 [HT FT]]]] QC]].
      assert (dt <> []) as ND'. { intros ->. inversion HT; subst. contradiction. }
      rewrite <- O1 in HT.
      destruct (preprocessed_ok h qc sw test false s1 rst dt stt x2 HT ND' FT OK1) as [trows [tq' [tst [s3 [TP _]]]]].
      destruct (QC t trows s3) as [[tq w4] EQ]. exists tst, tq, (mkS w4 rst), (mkWP (PArr trows) tq'), (mkS s3 rst), w4. auto. }
    destruct (pipeline_complete 1 (standard_pipeline (U := U) h qc) sw training test elapsed (mkS s rst) t _ tst s2 GA NT (fun E => proj1 (TE E))
      (Exec 1 _ sw training test elapsed (mkS s rst) (mkWP (PArr rows) q) st (mkS s1 rst) all ti s1 t [] s1 tst tq s2 PP NR IJ CE TT)) as [o [EO _]].
    eauto.
  Qed.
End Run.

(** C140: a new pipeline with default components, except for the handler and the quality assurance,
    returns a table whenever the handler reads the training fields, all fields have the same
    columns with the time, true wind and boat speed among them, every column has a value, wind
    speeds are not negative, the times do not decrease, and some record is complete.  The wind
    speeds of the table lie between the recorded ones, rounded, and its entries between the
    recorded boat speeds and 0.  If a test is wanted, the same is needed of the test fields,
    without a complete record, and the quality assurance must accept every array. *)
Theorem standard_pipeline_table : forall (W V Raw U : Type) (h : comp W V Raw Data)
    (qc : table R -> pdata (pt3 R) U -> fstate W -> result (dict V * fstate W)) sw training test elapsed x s rst keys ds sts x1,
  fresh x = Ok s ->
  NoDup keys -> ~ In "datetime" keys -> In "TWS" keys -> In "TWA" keys -> In "BSP" keys ->
  training <> [] -> each h training x ds sts x1 -> Forall (recording keys) ds ->
  (exists d n i, In d ds /\ well_formed d n /\ (i < n)%nat /\ complete_row d i) ->
  (testing sw = true -> test <> [] /\ (exists dt stt x2, each h test x1 dt stt x2 /\ Forall (recording keys) dt) /\
     forall t rows s, exists r, qc t (PArr rows) s = Ok r) ->
  exists o s', execute 1 (standard_pipeline h qc) sw training test elapsed (mkS s rst) = Ok (o, s') /\
    let t := diagram o in
    (forall a, In a (t_wa t) <-> exists j, (1 <= j <= 71)%Z /\ a = IZR (5 * j)) /\
    (forall lo hi, between ds "TWS" lo hi -> forall v, In v (t_ws t) -> lo - 1 / 2 <= v <= hi + 1 / 2) /\
    (forall lo hi, lo <= 0 <= hi -> between ds "BSP" lo hi -> forall v a, In v (t_ws t) -> In a (t_wa t) ->
       exists b, getitem t [v] [a] = Ok b /\ lo <= b <= hi).
Proof.
  intros W V Raw U h qc sw training test elapsed x s rst keys ds sts x1 FR NK ND IT IA IB NT H F [d0 [n0 [i0 [I0 X0]]]] TE.
  destruct (fresh_ok keys x s FR) as [OK EX].
  assert (ds <> []) as NE by (intros ->; destruct I0).
  assert (each h training (others s) ds sts x1) as H' by (rewrite EX; exact H).
  destruct (standard_returns (U := U) keys NK ND IB IT IA h qc sw training test elapsed s rst ds sts x1 H' NE F) as [o [s' E]]; auto.
  { apply Exists_exists. exists d0. split; [auto|]. exists n0, i0. exact X0. }
  exists o, s'. split; [exact E|].
  destruct (default_pipeline_table (fstate W) V Raw U _ _ _ _ _ _ _ _ _ _ _ _ _ _ _ E) as [ds2 [sts2 [s1 [k [start [n [HD [SC [WA [_ [EN WS]]]]]]]]]]].
  assert (ds2 = ds) as ->.
  { inversion HD as [h' ? ? ? Eh EE|? ? ? ? ? Eh]; subst; [|discriminate Eh]. injection Eh as <-. cbn [world] in EE.
    destruct (each_fun _ _ _ _ _ _ _ _ (each_handler h training (others s) ds sts x1 H' s eq_refl) _ _ _ EE) as [-> _]. reflexivity. }
  assert (forall k, In k keys -> exists v, recorded ds k v) as RK.
  { intros k0 I. rewrite Forall_forall in F. destruct (F _ I0) as [_ [K [C _]]].
    assert (In k0 (data_keys d0)) as J by (apply K; auto). unfold data_keys in J. apply dget_In_key in J. destruct J as [col G].
    destruct (C _ _ G) as [[v Hv] _]. exists v, d0, col. split; [auto|]. split; [apply dget_Some_In; exact G|exact Hv]. }
  assert (k = "BSP") as ->. { destruct SC as [[-> _]|[_ C]]; [reflexivity|]. destruct (RK "BSP" IB) as [v Hv]. exfalso. eapply C; eauto. }
  split; [exact WA|]. split; [|exact EN]. intros lo hi B v Hv. destruct (RK "TWS" IT) as [v1 R1], (RK "TWA" IA) as [v2 R2]. eapply WS; eauto.
Qed.
Print Assumptions standard_pipeline_table.

(** ** Examples *)

Definition log_a : Data :=
  mkData [("datetime", [Some (VDatetime 0); Some (VDatetime 1000)]); ("TWS", [Some (VFloat 10); Some (VFloat 13)]);
          ("TWA", [Some (VFloat 60); Some (VFloat 90)]); ("BSP", [Some (VFloat 5); None])]
         [("datetime", Some TDatetime); ("TWS", Some TFloat); ("TWA", Some TFloat); ("BSP", Some TFloat)] 2.
Definition log_b : Data :=
  mkData [("datetime", [Some (VDatetime 0)]); ("TWS", [Some (VFloat 8)]); ("TWA", [Some (VFloat 70)]); ("BSP", [Some (VFloat 4)]); ("HDG", [Some (VFloat 30)])]
         [("datetime", Some TDatetime); ("TWS", Some TFloat); ("TWA", Some TFloat); ("BSP", Some TFloat); ("HDG", Some TFloat)] 1.
Definition wind_and_speed : list string := ["TWS"; "TWA"; "BSP"].


Ltac cases_in H := cbn in H; repeat (destruct H as [H|H]; [try discriminate H|]); try contradiction.
Lemma log_recording : forall keys d n, wfb d n = true -> (forall k, In k (data_keys d) <-> k = "datetime" \/ In k keys) ->
  (forall k col, In (k, col) (cols d) -> (exists v, In (Some v) col) /\ forall v, In (Some v) col -> fits k v) ->
  (forall col, dget "datetime" (cols d) = Some col -> ImputProps.chronological (stamps col)) -> recording keys d.
Proof.
  intros keys d n WF K F C. split; [exists n; apply wfb_ok; exact WF|]. split; [exact K|]. split; [|exact C].
  intros k col G. apply F. apply dget_Some_In. exact G.
Qed.
Lemma fits_stamp : forall t, fits "datetime" (VDatetime t).
Proof. intros t. unfold fits. cbn. eauto. Qed.
Lemma fits_number : forall k q, k <> "datetime" -> 0 <= Q2R q -> fits k (VFloat q).
Proof. intros k q N P. unfold fits. destruct (string_dec k "datetime"); [contradiction|]. eauto. Qed.

Lemma recording_a : recording wind_and_speed log_a.
Proof.
  apply (log_recording _ _ 2); [vm_compute; reflexivity|cbn; intuition congruence| |].
  - intros k col H. cases_in H; injection H as <- <-; (split; [eexists; left; reflexivity|]); intros v Hv; cases_in Hv; injection Hv as <-;
      try apply fits_stamp; (apply fits_number; [discriminate|unfold Q2R; cbn; lra]).
  - intros col E. cbn in E. injection E as <-. intros [|[|a]] [|[|b]] ta tb L Ha Hb; cbn in Ha, Hb; try (destruct a; discriminate); try (destruct b; discriminate);
      injection Ha as <-; injection Hb as <-; lia.
Qed.
Lemma recording_b : recording ("HDG" :: wind_and_speed) log_b.
Proof.
  apply (log_recording _ _ 1); [vm_compute; reflexivity|cbn; intuition congruence| |].
  - intros k col H. cases_in H; injection H as <- <-; (split; [eexists; left; reflexivity|]); intros v Hv; cases_in Hv; injection Hv as <-;
      try apply fits_stamp; (apply fits_number; [discriminate|unfold Q2R; cbn; lra]).
  - intros col E. cbn in E. injection E as <-. intros [|a] [|b] ta tb L Ha Hb; cbn in Ha, Hb; try (destruct a; discriminate); try (destruct b; discriminate);
      injection Ha as <-; injection Hb as <-; lia.
Qed.
Lemma complete_a : well_formed log_a 2 /\ (0 < 2)%nat /\ complete_row log_a 0.
Proof. split; [apply wfb_ok; vm_compute; reflexivity|]. split; [lia|]. intros k H. cases_in H; subst k; vm_compute; discriminate. Qed.
Lemma complete_b : well_formed log_b 1 /\ (0 < 1)%nat /\ complete_row log_b 0.
Proof. split; [apply wfb_ok; vm_compute; reflexivity|]. split; [lia|]. intros k H. cases_in H; subst k; vm_compute; discriminate. Qed.

(** [PolarPipeline()] with logs that are tables already and without a quality assurance. *)
Definition plain_pipeline := standard_pipeline (W := unit) (V := unit) (Raw := Data) (U := unit) (silent Ok) (fun _ _ s => Ok ([], s)).
Definition plain_state : fstate unit := let w := mkMean (1 / 20) None None in mkF tt w w w.
Lemma plain_fresh : fresh tt = Ok plain_state.
Proof. unfold fresh, mean_new. rnum. rewrite Rleb_false by lra. reflexivity. Qed.

Lemma plain_each : forall ds : list Data, each (V := unit) (silent Ok) ds tt ds (map (fun _ => []) ds) tt.
Proof.
  induction ds as [|d ds IH]; [constructor|]. cbn [map]. econstructor; [|exact IH]. apply (Called (silent (V := unit) (@Ok Data)) d tt). reflexivity.
Qed.

Example standard_pipeline_meets : exists o s', execute 1 plain_pipeline (read_switches [] true) [log_a; log_a] [log_a] tt (mkS plain_state []) = Ok (o, s') /\
  (forall v, In v (t_ws (diagram o)) -> 9 <= v <= 14).
Proof.
  destruct (standard_pipeline_table unit unit Data unit (silent Ok) (fun _ _ s => Ok ([], s)) (read_switches [] true) [log_a; log_a] [log_a] tt tt plain_state []
    wind_and_speed [log_a; log_a] (map (fun _ => []) [log_a; log_a]) tt plain_fresh) as [o [s' [E [_ [B _]]]]].
  - repeat constructor; cbn; intuition discriminate.
  - cbn. intuition discriminate.
  - cbn. auto.
  - cbn. auto.
  - cbn. auto.
  - discriminate.
  - apply plain_each.
  - constructor; [apply recording_a|constructor; [apply recording_a|constructor]].
  - exists log_a, 2%nat, 0%nat. split; [left; reflexivity|]. exact complete_a.
  - intros _. split; [discriminate|]. split; [|eauto]. exists [log_a], [[]], tt. split; [apply (plain_each [log_a])|]. constructor; [apply recording_a|constructor].
  - exists o, s'. split; [exact E|]. intros v Hv. destruct (B 10 13) with (v := v) as [B1 B2]; auto; [|lra].
    intros u x [d [col [I [C Hu]]]] RD. assert (d = log_a) as -> by (cbn in I; intuition). cases_in C; injection C as <-; cases_in Hu; injection Hu as <-; cbn in RD; subst x;
      unfold Q2R; cbn; lra.
Qed.

Lemma mean_component_run : forall d (s : fstate unit) l s1,
  run (pre_exp_weigher plain_pipeline) (WPointsModel.PData d) s = Ok (l, s1) ->
  snd (mean_weigh (weigher1 s) (PData (weigher_data d))) = Ok l /\ weigher1 s1 = fst (mean_weigh (weigher1 s) (PData (weigher_data d))).
Proof.
  intros d s l s1 H. cbn [run plain_pipeline standard_pipeline default_pipeline pre_exp_weigher mean_component as_points rbind] in H.
  destruct (snd (mean_weigh _ _)) as [l0|] eqn:E; cbn [rbind] in H; [|discriminate H]. injection H as <- <-. auto.
Qed.

(** The columns must be the same in all fields: each of the logs alone gives a table, both
    together do not, since the weigher keeps the norm it made for the columns of the first log. *)
Theorem different_columns_refuted :
  (exists o s', execute 1 plain_pipeline (read_switches [] false) [log_a] [] tt (mkS plain_state []) = Ok (o, s')) /\
  (exists o s', execute 1 plain_pipeline (read_switches [] false) [log_b] [] tt (mkS plain_state []) = Ok (o, s')) /\
  forall o s', execute 1 plain_pipeline (read_switches [] false) [log_a; log_b] [] tt (mkS plain_state []) <> Ok (o, s').
Proof.
  split; [|split].
  - destruct (standard_pipeline_table unit unit Data unit (silent Ok) (fun _ _ s => Ok ([], s)) (read_switches [] false) [log_a] [] tt tt plain_state []
      wind_and_speed [log_a] (map (fun _ => []) [log_a]) tt plain_fresh) as [o [s' [E _]]].
    + repeat constructor; cbn; intuition discriminate.
    + cbn. intuition discriminate.
    + cbn. auto.
    + cbn. auto.
    + cbn. auto.
    + discriminate.
    + apply plain_each.
    + constructor; [apply recording_a|constructor].
    + exists log_a, 2%nat, 0%nat. split; [left; reflexivity|]. exact complete_a.
    + intros T. discriminate T.
    + exists o, s'. exact E.
  - destruct (standard_pipeline_table unit unit Data unit (silent Ok) (fun _ _ s => Ok ([], s)) (read_switches [] false) [log_b] [] tt tt plain_state []
      ("HDG" :: wind_and_speed) [log_b] (map (fun _ => []) [log_b]) tt plain_fresh) as [o [s' [E _]]].
    + repeat constructor; cbn; intuition discriminate.
    + cbn. intuition discriminate.
    + cbn. auto.
    + cbn. auto.
    + cbn. auto.
    + discriminate.
    + apply plain_each.
    + constructor; [apply recording_b|constructor].
    + exists log_b, 1%nat, 0%nat. split; [left; reflexivity|]. exact complete_b.
    + intros T. discriminate T.
    + exists o, s'. exact E.
  - intros o s' E.
    assert (proper plain_pipeline) as PR by (intros w; constructor).
    assert (gives_arrays plain_pipeline) as GA.
    { intros x w y w' Ei. cbn in Ei. destruct (identity_rows x); cbn [rbind] in Ei; [|discriminate]. injection Ei as <- _. eauto. }
    destruct (pipeline_run 1 _ _ _ _ _ _ _ _ PR GA E) as [ideal [EX _]]. clear E.
    destruct EX as [pts st s1 all ti w1 t te w2 tst tq s2 PP _ _ _ _].
    destruct PP as [d0 t0 s1 d1 t1 v1 d2 t2 v2 d3 t3 u3 v3 d4 t4 v4 d5 t5 u5 v5 joined tf v6 d6 t6 t6' v7 out t7 u7 v8
                    HD E1 ES S3 _ _ _ _ _ _ _].
    assert (d0 = [log_a; log_b] /\ world s1 = plain_state) as [-> Ew].
    { inversion HD as [h' ? ? ? Eh EE|? ? ? ? ? Eh]; subst; [|discriminate Eh]. injection Eh as <-. cbn [world] in *.
      destruct (each_fun _ _ _ _ _ _ _ _ (each_handler (silent Ok) [log_a; log_b] tt _ _ tt (plain_each _) plain_state eq_refl) _ _ _ EE) as [-> ->]. auto. }
    cbn [imputator plain_pipeline standard_pipeline default_pipeline] in E1. apply each_silent in E1. destruct E1 as [F1 ->].
    inversion F1 as [|? a' ? l1 A1 F1']; subst. inversion F1' as [|? b' ? l2 B1 F2']; subst. inversion F2'; subst.
    assert (d2 = [a'; b'] /\ v2 = world s1) as [-> ->].
    { cbn in ES. destruct ES as [l [ES _]]. apply each_silent in ES. destruct ES as [ES ->]. apply Forall2_same in ES. auto. }
    vm_compute in A1. injection A1 as <-. vm_compute in B1. injection B1 as <-. rewrite Ew in S3.
    inversion S3 as [|da ds w da' q ws fs w1' ds' wss fss w2' SA SB]; subst. inversion SB as [|db ? ? db' q' ws' fs' w3' ? ? ? ? SB' _]; subst.
    inversion SA as [NP|l ws0 w4 q0 fs0 w5 _ WA FA]; subst; [cbn in NP; discriminate NP|].
    inversion SB' as [NP|l' ws1 w6 q1 fs1 w7 _ WB FB]; subst; [cbn in NP; discriminate NP|].
    inversion WA as [l1 st1 w8 _ CA|Off]; subst; [|discriminate Off]. inversion CA as [y w9 RA]; subst.
    inversion FA as [m stm w10 q2 _ CF _|Off]; subst; [|discriminate Off]. inversion CF as [y2 w11 RF]; subst. cbn in RF. injection RF as _ <-.
    inversion WB as [l2 st2 w12 _ CB|Off]; subst; [|discriminate Off]. inversion CB as [y3 w13 RB]; subst.
    apply mean_component_run in RA, RB. destruct RA as [_ RA], RB as [RB _]. rewrite RA in RB. clear - RB. cbn in RB. discriminate RB.
Qed.
Print Assumptions different_columns_refuted.
