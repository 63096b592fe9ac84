(** * The stages of the pipeline with default components succeed *)

From Coq Require Import String.
From Coq Require Import List Bool Arith ZArith QArith Reals Qreals Lra Lia Permutation Sorted.
From Verif Require Import Py Num Dict ListX InterpModel InfluenceModel
  DataModel DataSpec DataProofs DataProps WPointsModel ImputModel ImputProps PipeModel PipeSpec WeigherModel WeigherProps
  FilterModel FilterProps WholeModel WholeProofs FullModel.
Import List ListNotations.
Open Scope string_scope.
Open Scope list_scope.
Open Scope R_scope.

(** A value of the column [k]: a time stamp or a number, a nonnegative one for wind speeds. *)
Definition fits (k : string) (v : pyval) : Prop :=
  if string_dec k "datetime" then exists t, v = VDatetime t
  else exists q, v = VFloat q /\ (k = "TWS" -> 0 <= Q2R q).

(** A table with the time stamps and the columns [keys] and without gaps. *)
Definition filled (keys : list string) (d : Data) (n : nat) : Prop :=
  well_formed d n /\ (forall k, In k (data_keys d) <-> k = "datetime" \/ In k keys) /\
  (forall k col c, dget k (cols d) = Some col -> In c col -> exists v, c = Some v /\ fits k v).

(** ** Imputation *)

Lemma fill_local_types : forall fb fw fa mx d d' st, fill_local fb fw fa mx d = Ok (d', st) -> types d' = types d.
Proof.
  intros fb fw fa mx d d' st H. unfold fill_local in H.
  destruct (get_col (strip_cols d) "datetime") as [col|]; cbn [rbind] in H; [|discriminate].
  destruct (mapM time_of col) as [ts|]; cbn [rbind] in H; [|discriminate]. injection H as <- _.
  assert (forall e idx, types (delete_rows e idx) = types e) as T by (intros e [|]; reflexivity).
  rewrite T. cbn [types]. rewrite T. reflexivity.
Qed.

Lemma In_dget : forall A (d : dict A) k v, NoDup (dkeys d) -> In (k, v) d -> dget k d = Some v.
Proof.
  induction d as [|[k0 v0] d IH]; intros k v N I; [destruct I|]. cbn. inversion N; subst. destruct I as [[= -> ->]|I].
  - rewrite String.eqb_refl. reflexivity.
  - destruct (String.eqb_spec k0 k) as [->|NE]; auto. exfalso. apply H1. apply (in_map fst) in I. exact I.
Qed.

Lemma get_col_dget : forall d k c, get_col d k = Ok c <-> dget k (cols d) = Some c.
Proof. intros. unfold get_col. destruct (dget k (cols d)); split; intros H; try discriminate; injection H as ->; reflexivity. Qed.

(** One field as it is recorded: gaps are allowed, columns without any value are not. *)
Definition recording (keys : list string) (d : Data) : Prop :=
  (exists n, well_formed d n) /\ (forall k, In k (data_keys d) <-> k = "datetime" \/ In k keys) /\
  (forall k col, dget k (cols d) = Some col ->
     (exists v, In (Some v) col) /\ forall v, In (Some v) col -> fits k v) /\
  (forall col, dget "datetime" (cols d) = Some col -> ImputProps.chronological (stamps col)).

Lemma impute_filled : forall keys d, recording keys d -> ~ In "datetime" keys ->
  exists d' m, default_impute d = Ok d' /\ filled keys d' m /\
    ((exists n i, well_formed d n /\ (i < n)%nat /\ complete_row d i) -> (0 < m)%nat).
Proof.
  intros keys d [[n W] [K [F CH]]] ND.
  assert (exists col, dget "datetime" (cols d) = Some col) as [col HC].
  { apply dget_In_key. apply K. auto. }
  destruct (F _ _ HC) as [NE FV].
  assert (forall v, In (Some v) col -> exists t, v = VDatetime t) as HT. { intros v Hv. exact (FV v Hv). }
  destruct (fill_local_result default_fill_before default_fill_between default_fill_after default_max_diff d n col W ltac:(reflexivity)
    (proj2 (get_col_dget _ _ _) HC) HT NE)
    as [d' [st [ts [rows1 [T [FF [GG [keep [E [TF [X1 [LT [TT [KK [FE [X2 [C1 [C2 [TB _]]]]]]]]]]]]]]]]]]].
  assert (default_impute d = Ok d') as EI by (unfold default_impute; rewrite E; reflexivity).
  exists d', (length keep). split; [exact EI|].
  assert (forall k, In k (data_keys d') <-> k = "datetime" \/ In k keys) as K'.
  { intros k. rewrite KK, <- K. split.
    - intros [c [v [G _]]]. apply get_col_dget in G. unfold data_keys. apply dget_In_key. eauto.
    - intros I. unfold data_keys in I. apply dget_In_key in I. destruct I as [c G]. destruct (F _ _ G) as [[v Hv] _].
      exists c, v. split; auto. apply get_col_dget. auto. }
  pose proof W as [[N1 [N2 TY]] _]. pose proof TB as [N1' R'].
  assert (forall k v, k <> "datetime" -> listed d' k v -> exists c, dget k (cols d) = Some c /\ In (Some v) c) as SRC.
  { intros k v NK L. apply (default_impute_source _ _ _ _ EI NK) in L. destruct L as [c [I1 I2]]. exists c. split; auto. apply In_dget; auto. }
  assert (forall k c, k <> "datetime" -> dget k (cols d') = Some c -> forall x, In x c -> exists v, x = Some v /\ In (k, c) (cols d')) as CPL.
  { intros k c NK G x Hx. assert (In k (data_keys d')) as IK by (unfold data_keys; apply dget_In_key; eauto).
    pose proof (C1 k IK NK) as G2. apply get_col_dget in G2. rewrite G in G2. injection G2 as ->.
    apply in_map_iff in Hx. destruct Hx as [p [<- Hp]]. apply X2 in Hp. destruct Hp as [_ Hp].
    specialize (Hp k IK NK). destruct (FF k p) as [v|]; [|contradiction]. exists v. split; auto. apply dget_Some_In. auto. }
  split.
  - split; [split; [|exact R']|split; [exact K'|]].
    + split; [exact N1'|]. rewrite (fill_local_types _ _ _ _ _ _ _ E). split; [exact N2|]. intros k c G.
      destruct (string_dec k "datetime") as [->|NK].
      * destruct (TY _ _ HC) as [t [Et Ft]]. exists t. split; auto. intros v Hv. apply get_col_dget in G. rewrite C2 in G. injection G as <-.
        apply in_map_iff in Hv. destruct Hv as [p [[= <-] _]]. destruct NE as [v0 H0]. rewrite (Ft v0 H0). destruct (HT v0 H0) as [t0 ->]. reflexivity.
      * assert (In k (data_keys d)) as IK. { apply K. apply K'. unfold data_keys. apply dget_In_key. eauto. }
        unfold data_keys in IK. apply dget_In_key in IK. destruct IK as [c0 G0]. destruct (TY _ _ G0) as [t [Et Ft]]. exists t. split; auto.
        intros v Hv. destruct (SRC k v NK) as [c1 [G1 I1]]; [exists c; split; auto; apply dget_Some_In; auto|]. rewrite G0 in G1. injection G1 as <-.
        apply Ft. auto.
    + intros k c x G Hx. destruct (string_dec k "datetime") as [->|NK].
      * apply get_col_dget in G. rewrite C2 in G. injection G as <-. apply in_map_iff in Hx. destruct Hx as [p [<- _]].
        eexists. split; [reflexivity|]. unfold fits. cbn. eauto.
      * destruct (CPL k c NK G x Hx) as [v [-> Hv]]. exists v. split; auto.
        destruct (SRC k v NK) as [c1 [G1 I1]]; [exists c; auto|]. destruct (F _ _ G1) as [_ FK]. auto.
  - intros [n' [i [W' [Hi CR]]]].
    assert (n' = n) as -> by (destruct W as [_ [M _]], W' as [_ [M' _]]; rewrite M in M'; apply Nat2Z.inj in M'; auto).
    assert (forall k c, dget k (cols d) = Some c -> exists v, nth i c None = Some v) as CR'.
    { intros k c G. assert (In k (data_keys d)) as IK by (unfold data_keys; apply dget_In_key; eauto). specialize (CR k IK). unfold entry in CR.
      rewrite G in CR. destruct (nth i c None); [eauto|contradiction]. }
    assert (length col = n) as LC by (destruct W as [_ [_ RC]]; apply (RC _ _ HC)).
    assert (nth i ts None <> None) as NT.
    { destruct (TF (CH _ HC)) as [_ [KS _]]. destruct (CR' _ _ HC) as [v Ev].
      assert (In (Some v) col) as Iv. { rewrite <- Ev. apply nth_In. lia. }
      destruct (HT v Iv) as [t ->]. assert (nth_error (stamps col) i = Some (Some t)) as ES.
      { unfold stamps. rewrite nth_error_map. rewrite (List.nth_error_nth' col None) by lia. rewrite Ev. reflexivity. }
      apply KS in ES. rewrite (nth_error_nth _ _ _ ES). discriminate. }
    assert (In i rows1) as IR by (apply X1; auto). apply In_nth_error in IR. destruct IR as [p Hp].
    assert (p < length rows1)%nat as LP by (apply nth_error_Some; congruence).
    assert (In p keep) as IK.
    { apply X2. split; auto. intros k HK NK. assert (exists c, get_col d k = Ok c) as [c G].
      { apply KK in HK. destruct HK as [c [v [G _]]]. eauto. }
      pose proof (FE k c p NK HK G LP) as FE1. apply get_col_dget in G. destruct (CR' _ _ G) as [v Ev].
      assert (nth p (map (fun i => nth i c None) rows1) None = Some v) as EP.
      { rewrite <- Ev. apply nth_error_nth. rewrite nth_error_map, Hp. reflexivity. }
      inversion FE1; congruence. }
    destruct keep; [destruct IK|cbn; lia].
Qed.

(** ** Weighing a field *)

Lemma filled_reads : forall keys d m k col, filled keys d m -> k <> "datetime" -> dget k (cols d) = Some col ->
  exists l, mapM real_of col = Ok l /\ length l = m /\ (k = "TWS" -> forall x, In x l -> 0 <= x).
Proof.
  intros keys d m k col [[_ [_ L]] [_ F]] NK G. rewrite <- (L _ _ G). specialize (F k col).
  assert (forall c, In c col -> exists q, c = Some (VFloat q) /\ (k = "TWS" -> 0 <= Q2R q)) as F'.
  { intros c Hc. destruct (F c G Hc) as [v [-> FV]]. unfold fits in FV. destruct (string_dec k "datetime"); [contradiction|].
    destruct FV as [q [-> Q]]. eauto. }
  clear F G L. induction col as [|c col IH]; [exists []; repeat split; auto; intros _ x []|].
  destruct IH as [l [E [L1 P]]]; [intros; apply F'; right; auto|]. destruct (F' c) as [q [-> Q]]; [left; auto|].
  exists (Q2R q :: l). cbn [mapM real_of rbind]. rewrite E. cbn [rbind]. repeat split; [cbn; auto|].
  intros -> x [<-|Hx]; auto.
Qed.

Lemma filled_column : forall keys d m k col, filled keys d m -> (0 < m)%nat -> dget k (cols d) = Some col ->
  (k = "datetime" -> weigher_column d k col = COther m) /\
  (k <> "datetime" -> exists l, weigher_column d k col = CFloat l /\ length l = m).
Proof.
  intros keys d m k col FL M G. pose proof FL as [[[_ [_ TY]] [_ L]] [_ F]]. specialize (L _ _ G).
  assert (exists v, In (Some v) col /\ fits k v) as [v [Iv FV]].
  { destruct col as [|c col]; [cbn in L; lia|]. destruct (F k _ c G (or_introl eq_refl)) as [v [-> FV]]. exists v. split; auto. left. auto. }
  destruct (TY _ _ G) as [t [Et Ft]]. rewrite (Ft v Iv) in Et. unfold fits in FV. unfold weigher_column. rewrite Et. split.
  - intros ->. cbn in FV. destruct FV as [t0 ->]. cbn [vtype]. rewrite L. reflexivity.
  - intros NK. destruct (string_dec k "datetime"); [contradiction|]. destruct FV as [q [-> _]]. cbn [vtype].
    destruct (filled_reads _ _ _ _ _ FL NK G) as [l [-> [Ll _]]]. eauto.
Qed.

(** The number of columns besides the boat speed. *)
Definition others_count (keys : list string) : nat := length (filter (fun k => negb (String.eqb k "BSP")) keys).

Lemma number_columns_keys : forall fd, (forall k c, In (k, c) fd -> (k = "datetime" -> exists n, c = COther n) /\ (k <> "datetime" -> exists l, c = CFloat l)) ->
  map fst (number_columns fd) = filter (fun k => negb (String.eqb k "datetime") && negb (String.eqb k "BSP")) (map fst fd).
Proof.
  induction fd as [|[k c] fd IH]; intros H; [reflexivity|]. destruct (H k c (or_introl eq_refl)) as [H1 H2].
  assert (map fst (number_columns fd) = filter (fun k => negb (String.eqb k "datetime") && negb (String.eqb k "BSP")) (map fst fd)) as IH'
    by (apply IH; intros; apply H; right; auto).
  cbn [map fst number_columns filter]. destruct (String.eqb_spec k "datetime") as [->|ND].
  - destruct (H1 eq_refl) as [n ->]. cbn [negb andb]. exact IH'.
  - destruct (H2 ND) as [l ->]. cbn [negb andb]. destruct (string_dec k "BSP") as [->|NB].
    + rewrite String.eqb_refl. cbn [negb]. exact IH'.
    + destruct (String.eqb_spec k "BSP"); [contradiction|]. cbn [negb map fst]. rewrite IH'. reflexivity.
Qed.

Lemma weigher_keys : forall d, map fst (weigher_data d) = dkeys (cols d).
Proof. intros d. unfold weigher_data, dkeys. rewrite map_map. reflexivity. Qed.

Lemma NoDup_filter' : forall A (p : A -> bool) l, NoDup l -> NoDup (filter p l).
Proof.
  induction l as [|x l IH]; intros N; cbn; [constructor|]. inversion N; subst. destruct (p x); auto. constructor; auto.
  intros I. apply filter_In in I. tauto.
Qed.

Lemma filled_others : forall keys d m, filled keys d m -> (0 < m)%nat -> NoDup keys -> ~ In "datetime" keys ->
  length (number_columns (weigher_data d)) = others_count keys /\
  (forall k c, In (k, c) (weigher_data d) -> (k = "datetime" -> c = COther m) /\ (k <> "datetime" -> exists l, c = CFloat l /\ length l = m)).
Proof.
  intros keys d m FL M NK ND. pose proof FL as [[[N1 _] _] [K _]].
  assert (forall k c, In (k, c) (weigher_data d) -> (k = "datetime" -> c = COther m) /\ (k <> "datetime" -> exists l, c = CFloat l /\ length l = m)) as C.
  { intros k c I. unfold weigher_data in I. apply in_map_iff in I. destruct I as [[k0 col] [[= <- <-] I]]. cbn [fst snd].
    apply In_dget in I; auto. apply (filled_column keys); auto. }
  split; [|exact C]. rewrite <- (map_length fst), number_columns_keys, weigher_keys.
  2:{ intros k c I. destruct (C k c I) as [C1 C2]. split; [intros E; rewrite (C1 E); eauto|intros E; destruct (C2 E) as [l [-> _]]; eauto]. }
  unfold others_count. apply Permutation_length. apply NoDup_Permutation; try (apply NoDup_filter'; auto).
  intros k. rewrite !filter_In. unfold data_keys in K. rewrite K. rewrite andb_true_iff, !negb_true_iff.
  rewrite String.eqb_neq. split; [tauto|]. intros [I E]. split; auto. split; auto. intros ->. contradiction.
Qed.

Lemma fold_max_const : forall (l : list nat) m, l <> [] -> (forall x, In x l -> x = m) -> fold_right Nat.max 0%nat l = m.
Proof.
  induction l as [|x l IH]; intros m NE H; [contradiction|]. cbn. rewrite (H x) by (left; auto). destruct l as [|y l]; [cbn; lia|].
  rewrite (IH m); [lia|discriminate|]. intros; apply H; right; auto.
Qed.

Lemma filled_rows : forall keys d m, filled keys d m -> (0 < m)%nat -> f_rows (weigher_data d) = m.
Proof.
  intros keys d m FL M. pose proof FL as [[[N1 _] _] [K _]]. unfold f_rows. apply fold_max_const.
  - assert (In "datetime" (dkeys (cols d))) as I by (apply K; auto). unfold weigher_data, dkeys in *. destruct (cols d); [destruct I|discriminate].
  - intros x Hx. apply in_map_iff in Hx. destruct Hx as [[k c] [<- I]]. unfold weigher_data in I. apply in_map_iff in I.
    destruct I as [[k0 col] [[= <- <-] I]]. cbn [fst snd]. apply In_dget in I; auto. destruct (filled_column _ _ _ _ _ FL M I) as [C1 C2].
    destruct (string_dec k0 "datetime") as [E|E]; [rewrite (C1 E); reflexivity|]. destruct (C2 E) as [l [-> Ll]]. exact Ll.
Qed.

(** A weigher that is new or has only seen points with [k] coordinates. *)
Definition ready (k : nat) (w : mean_weigher) : Prop :=
  0 < mw_radius w /\ mw_dims w = None /\
  forall n, mw_norm w = Some n -> exists f, rowwise k f n /\ forall v, f (diff v v) = 0.

Lemma mapM_length' : forall A B (f : A -> result B) l l', mapM f l = Ok l' -> length l' = length l.
Proof.
  intros A B f. induction l as [|a l IH]; intros l' H; cbn in H; [injection H as <-; reflexivity|].
  destruct (f a); cbn [rbind] in H; [|discriminate]. destruct (mapM f l) as [r|]; cbn [rbind] in H; [|discriminate]. injection H as <-.
  cbn. rewrite (IH r); auto.
Qed.

Lemma normalize_length : forall l, length (normalize l) = length l.
Proof. intros l. unfold normalize. destruct (nmaximum l); [destruct (neqb _ _)|]; rewrite ?map_length; auto. Qed.

Lemma cylinders_ok : forall k f n r rows speeds, rowwise k f n -> (forall v, f (diff v v) = 0) -> 0 < r ->
  length rows = length speeds -> (forall v, In v rows -> length v = k) ->
  exists zs, mapM (fun pb => mean_weight n r rows speeds (fst pb) (snd pb)) (combine rows speeds) = Ok zs /\ length zs = length rows.
Proof.
  intros k f n r rows speeds RW RF RP L LV. set (pts := combine rows speeds).
  assert (map fst pts = rows) as E1 by (apply map_fst_combine; auto). assert (map snd pts = speeds) as E2 by (apply map_snd_combine; auto).
  exists (map (raw_deviation f r pts) pts). split.
  - apply mapM_Ok_map. intros p Hp.
    assert (forall q, In q pts -> length (fst q) = k) as LQ by (intros q Hq; apply LV; rewrite <- E1; apply in_map; auto).
    pose proof (mean_weight_ok k f n r pts p RW LQ Hp ltac:(rewrite RF; lra)) as Q. rewrite E1, E2 in Q. exact Q.
  - rewrite map_length. unfold pts. rewrite combine_length, L. apply Nat.min_id.
Qed.

Lemma mean_weigh_filled : forall keys d m w, filled keys d m -> (0 < m)%nat -> NoDup keys -> ~ In "datetime" keys -> In "BSP" keys -> In "TWS" keys ->
  ready (others_count keys) w ->
  exists l, snd (mean_weigh w (PData (weigher_data d))) = Ok l /\ length l = m /\
    ready (others_count keys) (fst (mean_weigh w (PData (weigher_data d)))).
Proof.
  intros keys d m w FL M NK ND IB IT [RP [RD RN]]. set (fd := weigher_data d).
  destruct (filled_others _ _ _ FL M NK ND) as [CN CC]. fold fd in CN, CC. pose proof (filled_rows _ _ _ FL M) as FR. fold fd in FR.
  pose proof FL as [[[N1 _] _] [K _]]. assert (NoDup (map fst fd)) as NF by (unfold fd; rewrite weigher_keys; auto).
  assert (In "BSP" (map fst fd)) as KB by (unfold fd; rewrite weigher_keys; apply K; auto).
  assert (In "TWS" (map fst fd)) as KT by (unfold fd; rewrite weigher_keys; apply K; auto).
  assert (exists speeds, f_get fd "BSP" = Ok (CFloat speeds) /\ length speeds = m) as [speeds [Eb Lb]].
  { unfold f_get. destruct (find (fun kc => String.eqb (fst kc) "BSP") fd) as [[k c]|] eqn:EF.
    - apply find_some in EF. destruct EF as [I E]. cbn in E. apply String.eqb_eq in E. subst k.
      destruct (CC _ _ I) as [_ C2]. destruct C2 as [l [-> Ll]]; [discriminate|]. exists l. split; [reflexivity|auto].
    - apply in_map_iff in KB. destruct KB as [[k c] [E I]]. cbn in E. subst k. apply (find_none _ _ EF) in I. discriminate. }
  unfold mean_weigh. cbn [n_points]. rewrite FR. destruct (Nat.eqb_spec m 0); [lia|]. unfold set_points_reduce. rewrite RD.
  assert (smem "BSP" (map fst fd) = true) as ->.
  { unfold smem. apply existsb_exists. exists "BSP". split; auto. }
  rewrite Eb. cbn [as_floats rbind]. unfold f_numerical.
  rewrite number_columns_spec by auto. set (cs := number_columns fd) in *.
  destruct (sremove "BSP" (map fst fd)) as [|a0 a1] eqn:Ea.
  { exfalso. assert (In "TWS" (sremove "BSP" (map fst fd))) as I by (apply sremove_iff; auto; split; [auto|discriminate]). rewrite Ea in I. destruct I. }
  destruct cs as [|c0 cs0] eqn:Ecs.
  { exfalso. cbn in CN. unfold others_count in CN. assert (In "TWS" (filter (fun k => negb (String.eqb k "BSP")) keys)) as I by (apply filter_In; auto).
    destruct (filter _ keys); [destruct I|discriminate]. }
  rewrite <- Ecs in *. set (rows := to_rows (f_rows fd) (map snd cs)).
  assert (length rows = m) as LR by (unfold rows, to_rows; rewrite map_length, seq_length; auto).
  assert (forall v, In v rows -> length v = others_count keys) as LV.
  { intros v Hv. unfold rows, to_rows in Hv. apply in_map_iff in Hv. destruct Hv as [i [<- _]]. rewrite !map_length. exact CN. }
  set (norm := match mw_norm w with Some n => n | None => standard_norm (Some (map fst cs)) end).
  assert (exists f, rowwise (others_count keys) f norm /\ forall v, f (diff v v) = 0) as [f [RW RF]].
  { unfold norm. destruct (mw_norm w) as [n1|] eqn:En; [apply RN; auto|]. exists (scaled_norm (map fst cs)). split; [|apply scaled_norm_refl].
    rewrite <- CN, <- (map_length fst). apply standard_norm_keys. }
  destruct (cylinders_ok _ f norm (mw_radius w) rows speeds RW RF RP ltac:(congruence) LV) as [zs [EZ LZ]].
  cbn [fst snd]. rewrite EZ. cbn [rbind]. eexists. split; [reflexivity|].
  split; [rewrite map_length, normalize_length; congruence|]. split; [exact RP|]. split; [reflexivity|]. cbn [mw_norm].
  intros n1 E1. destruct rows; [cbn in LR; lia|]. injection E1 as <-. eauto.
Qed.

(** ** The stages *)

Lemma mask_filled : forall keys d m mask, filled keys d m -> length mask = m -> filled keys (mask_rows d mask) (count_true mask).
Proof.
  intros keys d m mask [WF [K F]] L.
  assert (cols d <> []) as NC.
  { assert (In "datetime" (data_keys d)) as I by (apply K; auto). unfold data_keys, dkeys in I. destruct (cols d); [destruct I|discriminate]. }
  destruct (mask_keeps_marked_rows d m mask WF L NC) as [WF' [EK EC]]. split; [exact WF'|]. split; [rewrite EK; exact K|].
  intros k col c G Hc. assert (In k (data_keys d)) as I. { rewrite <- EK. unfold data_keys. apply dget_In_key. eauto. }
  unfold data_keys in I. apply dget_In_key in I. destruct I as [c0 G0]. pose proof (EC k c0 (proj2 (get_col_dget _ _ _) G0)) as EG.
  apply get_col_dget in EG. rewrite G in EG. injection EG as ->. apply in_map_iff in Hc. destruct Hc as [[x b] [<- Hc]].
  apply filter_In in Hc. destruct Hc as [Hc _]. apply in_combine_l in Hc. eapply F; eauto.
Qed.

Lemma count_true_pos : forall m, In true m -> (0 < count_true m)%nat.
Proof.
  intros m I. unfold count_true. assert (In true (filter (fun b => b) m)) as J by (apply filter_In; auto).
  destruct (filter _ m); [destruct J|cbn; lia].
Qed.

Section Stages.
  Context {W V U : Type}.
  Variable keys : list string.
  Hypothesis NK : NoDup keys.
  Hypothesis ND : ~ In "datetime" keys.
  Hypothesis IB : In "BSP" keys.
  Hypothesis IT : In "TWS" keys.
  Notation pd := (pdata (pt3 R) U).

  Definition state_ok (s : fstate W) : Prop :=
    ready (others_count keys) (weigher1 s) /\ ready (others_count keys) (weigher2 s) /\ ready 2 (weigher3 s).

  Lemma quantile_call : forall (l : list R) (s : fstate W), exists mask,
    call (V := V) quantile_component l s mask [] s /\ length mask = length l /\ (l <> [] -> In true mask).
  Proof.
    intros l s. destruct (quantile_keeps_heaviest 50 (WArray l)) as [Q1 [Q2 _]]; [lra|]. cbn [wlist] in *.
    exists (quantile_filter 50 (WArray l)). split; [|auto]. apply (Called (V := V) (@quantile_component W V) l s). reflexivity.
  Qed.

  Section One.
    Variable get : fstate W -> mean_weigher.
    Variable set : mean_weigher -> fstate W -> fstate W.
    Hypothesis G : forall s, state_ok s -> ready (others_count keys) (get s).
    Hypothesis S : forall s w, state_ok s -> ready (others_count keys) w -> state_ok (set w s).
    Hypothesis O : forall s w, others (set w s) = others s.

    Lemma stage_filled : forall won fon d m s, filled keys d m -> state_ok s ->
      exists d' q ws fs s' m', stage 1 won fon (mean_component (V := V) get set) quantile_component (WPointsModel.PData d : pd) s
        (mkWP (WPointsModel.PData d') q) ws fs s' /\ filled keys d' m' /\ ((0 < m)%nat -> (0 < m')%nat) /\ state_ok s' /\ others s' = others s.
    Proof.
      intros won fon d m s FL OK. pose proof FL as [[_ [NR _]] _]. destruct m as [|m0].
      { exists d, [], [], [], s, 0%nat. split; [apply StEmpty; exact NR|]. split; auto. }
      set (m := Datatypes.S m0) in *. assert (0 < m)%nat as M by (unfold m; lia).
      assert (exists l ws s1, weighed 1 won (mean_component (V := V) get set) (WPointsModel.PData d : pd) s l ws s1 /\ length l = m /\ state_ok s1 /\ others s1 = others s)
        as [l [ws [s1 [WE [LL [OK1 OT]]]]]].
      { destruct won.
        - destruct (mean_weigh_filled keys d m (get s) FL M NK ND IB IT (G s OK)) as [l [E [L RD]]].
          exists l, [], (set (fst (mean_weigh (get s) (PData (weigher_data d)))) s). split; [|auto]. apply WOn; auto.
          apply (Called (mean_component (V := V) (U := U) get set)). cbn [run mean_component as_points rbind]. rewrite E. reflexivity.
        - exists (repeat 1 m), [], s. split; [|rewrite repeat_length; auto].
          assert (PipeSpec.points (WPointsModel.PData d : pd) = m) as EP by (cbn [PipeSpec.points]; rewrite NR; apply Nat2Z.id).
          rewrite <- EP. apply WOff. auto. }
      assert (exists d' q fs m', filtered (V := V) fon quantile_component (mkWP (WPointsModel.PData d : pd) l) s1 (mkWP (WPointsModel.PData d') q) fs s1 /\
        filled keys d' m' /\ (0 < m')%nat) as [d' [q [fs [m' [FI [FL' M']]]]]].
      { destruct fon.
        - destruct (quantile_call l s1) as [mask [CA [LM TM]]].
          exists (mask_rows d mask), (mask_list l mask), [], (count_true mask). split; [|split].
          + apply (FOn (V := V) true quantile_component (mkWP (WPointsModel.PData d : pd) l) s1 mask); auto.
            unfold wp_mask. cbn [wdata wweights]. unfold np_mask. rewrite LM, Nat.eqb_refl. reflexivity.
          + eapply mask_filled; eauto. congruence.
          + apply count_true_pos, TM. intros ->. cbn in LL. lia.
        - exists d, l, [], m. split; [apply FOff; auto|]. auto. }
      exists d', q, ws, fs, s1, m'. split; [|auto]. eapply StPoints; eauto.
      cbn [no_points]. rewrite NR. lia.
    Qed.

    Lemma stages_filled : forall won fon ds s, Forall (fun d => exists m, filled keys d m) ds -> state_ok s ->
      exists ds' ws fs s', stages (U := U) 1 won fon (mean_component (V := V) get set) quantile_component ds s ds' ws fs s' /\
        Forall (fun d => exists m, filled keys d m) ds' /\ state_ok s' /\ others s' = others s /\
        (Exists (fun d => exists m, filled keys d m /\ (0 < m)%nat) ds -> Exists (fun d => exists m, filled keys d m /\ (0 < m)%nat) ds').
    Proof.
      intros won fon ds. induction ds as [|d ds IH]; intros s F OK.
      - exists [], [], [], s. split; [constructor|]. split; [constructor|]. split; auto.
      - inversion F as [|? ? [m FL] F']; subst. destruct (stage_filled won fon d m s FL OK) as [d' [q [ws [fs [s1 [m' [ST [FL' [M [OK1 O1]]]]]]]]]].
        destruct (IH s1 F' OK1) as [ds' [wss [fss [s2 [SS [FF [OK2 [O2 E]]]]]]]].
        exists (d' :: ds'), (ws :: wss), (fs :: fss), s2. split; [econstructor; eauto|]. split; [constructor; eauto|]. split; [auto|]. split; [congruence|].
        intros X. inversion X as [? ? [m1 [FL1 M1]]|]; subst; [|right; auto]. left. exists m'. split; auto. apply M.
        destruct FL as [[_ [N1 _]] _], FL1 as [[_ [N2 _]] _]. rewrite N1 in N2. apply Nat2Z.inj in N2. lia.
    Qed.
  End One.
End Stages.

(** ** Concatenation and the rows *)

Lemma stacked_In : forall ds k c, In c (stacked ds k) -> exists d n, In (d, n) ds /\ In c (column_or_none d n k).
Proof.
  induction ds as [|[d n] ds IH]; intros k c H; [destruct H|]. cbn in H. apply in_app_or in H. destruct H as [H|H].
  - exists d, n. cbn. auto.
  - destruct (IH _ _ H) as [d1 [n1 [I1 I2]]]. exists d1, n1. cbn. auto.
Qed.

Lemma concatenate_filled : forall keys ds, ds <> [] -> Forall (fun d => exists m, filled keys d m) ds ->
  exists d m, concatenate ds = Ok d /\ filled keys d m /\ (Exists (fun d => exists m, filled keys d m /\ (0 < m)%nat) ds -> (0 < m)%nat).
Proof.
  intros keys ds NE F.
  assert (exists dn, map fst dn = ds /\ forall x, In x dn -> filled keys (fst x) (snd x)) as [dn [EM FD]].
  { clear NE. induction F as [|d ds [m H] F IH]; [exists []; split; [auto|intros x []]|]. destruct IH as [dn [E Q]].
    exists ((d, m) :: dn). cbn. rewrite E. split; auto. intros x [<-|I]; auto. }
  assert (forall k d n c, In (d, n) dn -> In k (data_keys d) -> In c (column_or_none d n k) -> exists v, c = Some v /\ fits k v) as CF.
  { intros k d n c I IK Hc. destruct (FD _ I) as [_ [_ Q]]. cbn [fst snd] in Q. unfold column_or_none in Hc. unfold data_keys in IK. apply dget_In_key in IK.
    destruct IK as [col Gc]. rewrite Gc in Hc. eapply Q; eauto. }
  assert (forall k, k = "datetime" \/ In k keys -> forall c, In c (stacked dn k) -> exists v, c = Some v /\ fits k v) as SF.
  { intros k IK c Hc. apply stacked_In in Hc. destruct Hc as [d [n [I1 I2]]]. eapply CF; eauto. destruct (FD _ I1) as [_ [K _]]. apply K. auto. }
  destruct (concatenate_stacks_rows dn) as [d [E [WF [K C]]]].
  - intros x I. destruct (FD x I) as [WF [K _]]. split; auto. left. intros EC. assert (In "datetime" (data_keys (fst x))) as J by (apply K; auto).
    unfold data_keys, dkeys in J. rewrite EC in J. destruct J.
  - intros k. exists (if string_dec k "datetime" then TDatetime else TFloat). intros v Hv.
    apply stacked_In in Hv. destruct Hv as [d [n [I1 I2]]]. destruct (in_dec string_dec k (data_keys d)) as [IK|IK].
    + destruct (CF k d n (Some v) I1 IK I2) as [v' [[= <-] FV]]. unfold fits in FV. destruct (string_dec k "datetime").
      * destruct FV as [t ->]. reflexivity.
      * destruct FV as [q [-> _]]. reflexivity.
    + unfold column_or_none in I2. unfold data_keys in IK. destruct (dget k (cols d)) eqn:Gc; [exfalso; apply IK, dget_In_key; eauto|].
      apply repeat_spec in I2. discriminate.
  - rewrite EM in E. exists d, (total_rows dn). split; auto.
    assert (forall k, In k (data_keys d) <-> k = "datetime" \/ In k keys) as K'.
    { intros k. rewrite K. split.
      - intros [x [I J]]. destruct (FD x I) as [_ [KK _]]. apply KK. auto.
      - intros J. destruct dn as [|x dn]; [cbn in EM; congruence|]. exists x. split; [left; auto|]. destruct (FD x (or_introl eq_refl)) as [_ [KK _]]. apply KK. auto. }
    split; [split; [auto|split; auto]|].
    + intros k col c Gc Hc. assert (In k (data_keys d)) as IK by (unfold data_keys; apply dget_In_key; eauto).
      pose proof (C k IK) as C'. apply get_col_dget in C'. rewrite Gc in C'. injection C' as ->. apply SF; auto. apply K'. auto.
    + intros X. rewrite <- EM in X. apply Exists_exists in X. destruct X as [d0 [I [m [FL M]]]]. apply in_map_iff in I. destruct I as [[d1 n1] [Ed I]]. cbn in Ed. subst d1.
      assert (n1 = m) as ->. { destruct (FD _ I) as [[_ [N1 _]] _], FL as [[_ [N2 _]] _]. cbn [fst snd] in N1. rewrite N1 in N2. apply Nat2Z.inj in N2. auto. }
      clear - I M. unfold total_rows. induction dn as [|x dn IH]; [destruct I|]. cbn. destruct I as [->|I]; [cbn; lia|]. specialize (IH I). lia.
Qed.

Lemma dmem_In : forall A (d : dict A) k, In k (dkeys d) -> dmem k d = true.
Proof. intros A d k I. apply dget_In_key in I. destruct I as [v E]. unfold dmem. rewrite E. reflexivity. Qed.

Lemma identity_rows_filled : forall keys d m, filled keys d m -> ~ In "datetime" keys -> In "BSP" keys -> In "TWS" keys -> In "TWA" keys ->
  exists rows, identity_rows d = Ok rows /\ length rows = m /\ forall r : pt3 R, In r rows -> 0 <= pws r.
Proof.
  intros keys d m FL ND IB IT IA. pose proof FL as [_ [K _]].
  assert (forall k, In k keys -> exists col, dget k (cols d) = Some col) as HK.
  { intros k I. apply dget_In_key. apply K. auto. }
  assert (forall k, In k keys -> dmem k (cols d) = true) as HM by (intros; apply dmem_In, K; auto).
  assert (forall k, In k keys -> exists l, (do c <- get_col d k; do l <- mapM real_of c; Ok (k, PyList l)) = Ok (k, PyList l) /\ length l = m /\
    (k = "TWS" -> forall x, In x l -> 0 <= x)) as HR.
  { intros k I. destruct (HK k I) as [col Gc]. destruct (filled_reads keys d m k col FL) as [l [E [L P]]]; auto; [intros ->; contradiction|].
    exists l. rewrite (proj2 (get_col_dget _ _ _) Gc). cbn [rbind]. rewrite E. auto. }
  unfold identity_rows, used_data, used_columns. rewrite (HM "BSP" IB), (HM "TWA" IA), (HM "TWS" IT). cbn [andb mapM].
  destruct (HR "TWS" IT) as [l1 [E1 [L1 P1]]], (HR "TWA" IA) as [l2 [E2 [L2 _]]], (HR "BSP" IB) as [l3 [E3 [L3 _]]].
  rewrite E1, E2, E3. cbn [rbind].
  assert (identity_remove [("TWS", PyList l1); ("TWA", PyList l2); ("BSP", PyList l3)] =
          do rows <- stack3 (PyList l1) (PyList l2) (PyList l3);
          Ok (W2 (map (fun p => let '(s, a, b) := p in (s, Some a, b)) rows))) as -> by reflexivity.
  unfold stack3. cbn [InfluenceModel.column]. rewrite L1, L2, L3, !Nat.eqb_refl. cbn [andb rbind].
  exists (combine (combine l1 l2) l3). split; [|split].
  - generalize (combine (combine l1 l2) l3) as rows. clear. induction rows as [|[[s a] b] rows IH]; [reflexivity|].
    cbn [map mapM wind_row rbind]. rewrite IH. reflexivity.
  - change (@length (R * R * R) (combine (combine l1 l2) l3) = m). rewrite !combine_length, L1, L2, L3, !Nat.min_id. reflexivity.
  - intros [[s a] b] I. apply in_combine_l in I. apply in_combine_l in I. unfold pws. cbn. auto.
Qed.

(** ** After the influence model *)

Lemma mean_weigh_rows : forall (rows : list (pt3 R)) w, rows <> [] -> ready 2 w ->
  exists l, snd (mean_weigh w (PArray (map row_of rows))) = Ok l /\ length l = length rows /\
    ready 2 (fst (mean_weigh w (PArray (map row_of rows)))).
Proof.
  intros rows w NE [RP [RD RN]]. unfold mean_weigh. cbn [n_points]. rewrite map_length.
  assert (0 < length rows)%nat as LP by (destruct rows; [congruence|cbn; lia]).
  match goal with |- context [Nat.eqb ?a 0] => replace (Nat.eqb a 0) with false by (symmetry; apply Nat.eqb_neq; change (length rows <> 0%nat); lia) end.
  cbn [set_points_reduce]. rewrite RD.
  set (norm := match mw_norm w with Some n => n | None => standard_norm None end).
  assert (exists f, rowwise 2 f norm /\ forall v, f (diff v v) = 0) as [f [RW RF]].
  { unfold norm. destruct (mw_norm w) as [n1|] eqn:En; [apply RN; auto|]. exists default_norm. split.
    - intros vecs Hv. apply standard_norm_two. auto.
    - intros v. unfold default_norm, diff. assert (forall i : nat, nth i (map (fun p => fst p - snd p) (combine v v)) 0 = 0) as Z.
      { clear. induction v as [|a v IH]; intros [|i]; cbn; try lra; auto. }
      rewrite !Z. replace (0 / 20)² with 0 by (unfold Rsqr; field). replace (0 / 360)² with 0 by (unfold Rsqr; field).
      rewrite Rplus_0_l. apply sqrt_0. }
  set (vs := map (@removelast R) (map row_of rows)). set (bs := map (fun r => last r 0) (map row_of rows)).
  assert (length vs = length rows) as L1 by (unfold vs; rewrite !map_length; auto).
  assert (length bs = length rows) as L2 by (unfold bs; rewrite !map_length; auto).
  assert (forall v, In v vs -> length v = 2%nat) as LV.
  { intros v Hv. unfold vs in Hv. apply in_map_iff in Hv. destruct Hv as [r [<- Hr]]. apply in_map_iff in Hr. destruct Hr as [[[a b] c] [<- _]]. reflexivity. }
  destruct (cylinders_ok 2 f norm (mw_radius w) vs bs RW RF RP ltac:(congruence) LV) as [zs [EZ LZ]].
  cbn [fst snd]. rewrite EZ. cbn [rbind]. eexists. split; [reflexivity|].
  split; [rewrite map_length, normalize_length; congruence|]. split; [exact RP|]. split; [reflexivity|]. cbn [mw_norm].
  intros n1 E1. destruct vs; [cbn in L1; lia|]. injection E1 as <-. eauto.
Qed.

