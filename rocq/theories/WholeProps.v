(** * The pipeline with its default components (C137) *)

From Coq Require Import String.
From Coq Require Import List Bool Arith ZArith QArith Reals Qreals Lra Lia Permutation.
From Verif Require Import Py Num Dict ListX NhoodModel NhoodSpec NhoodProps InterpModel InterpSpec InterpProofs InterpProps TableModel
  TableSpec TableProofs TableProps WindModel InfluenceModel BaseModel BaseProps InjectModel InjectProps ExtModel ExtProps
  DataModel DataSpec DataProofs WPointsModel ImputModel PipeModel PipeSpec PipeProps WholeModel WholeProofs.
Import List ListNotations.
Open Scope string_scope.
Open Scope list_scope.
Open Scope R_scope.

(** ** The spec *)

(** The value is a number. *)
Definition reads (v : pyval) (x : R) : Prop :=
  match v with
  | VFloat q | VNpFloat q | VDecimal q => x = Q2R q
  | VInt z => x = IZR z
  | _ => False
  end.

(** Some field has the value [v] in column [k]. *)
Definition recorded (ds : list Data) (k : string) (v : pyval) : Prop :=
  exists d col, In d ds /\ In (k, col) (cols d) /\ In (Some v) col.

(** The column of the boat speeds: "BSP", if it has a value anywhere, and "SOG" otherwise. *)
Definition speed_column (ds : list Data) (k : string) : Prop :=
  (k = "BSP" /\ exists v, recorded ds "BSP" v) \/ (k = "SOG" /\ forall v, ~ recorded ds "BSP" v).

(** All numbers recorded in the column lie between [lo] and [hi]. *)
Definition between (ds : list Data) (k : string) (lo hi : R) : Prop :=
  forall v x, recorded ds k v -> reads v x -> lo <= x <= hi.

(** ** The rows *)

Lemma real_of_reads : forall c x, real_of c = Ok x -> exists v, c = Some v /\ reads v x.
Proof. intros [[]|] x H; cbn in H; try discriminate; injection H as <-; eexists; split; reflexivity. Qed.

Lemma mapM_In : forall A B (f : A -> result B) l l' y, mapM f l = Ok l' -> In y l' -> exists x, In x l /\ f x = Ok y.
Proof.
  intros A B f. induction l as [|a l IH]; intros l' y H I; cbn in H.
  - injection H as <-. destruct I.
  - destruct (f a) as [b|] eqn:E; cbn [rbind] in H; [|discriminate]. destruct (mapM f l) as [r|]; cbn [rbind] in H; [|discriminate].
    injection H as <-. destruct I as [<-|I]; [exists a; cbn; auto|]. destruct (IH _ _ eq_refl I) as [x [I1 I2]]. exists x. cbn; auto.
Qed.

Lemma column_reads : forall d k c l x, get_col d k = Ok c -> mapM real_of c = Ok l -> In x l -> exists v, value d k v /\ reads v x.
Proof.
  intros d k c l x G M I. destruct (mapM_In _ _ _ _ _ _ M I) as [y [I1 I2]]. apply real_of_reads in I2.
  destruct I2 as [v [-> RV]]. exists v. split; auto. exists c. unfold get_col in G. destruct (dget k (cols d)); [|discriminate].
  injection G as <-. auto.
Qed.

Lemma used_three : forall d a b c i,
  mapM (fun k => do c <- get_col d k; do l <- mapM real_of c; Ok (k, PyList l)) [a; b; c] = Ok i ->
  exists la lb lc, i = [(a, PyList la); (b, PyList lb); (c, PyList lc)] /\
    (forall x, In x la -> exists v, value d a v /\ reads v x) /\
    (forall x, In x lc -> exists v, value d c v /\ reads v x).
Proof.
  intros d a b c i H. cbn [mapM] in H.
  destruct (get_col d a) as [ca|] eqn:Ga; cbn [rbind] in H; [|discriminate].
  destruct (mapM real_of ca) as [la|] eqn:Ma; cbn [rbind] in H; [|discriminate].
  destruct (get_col d b) as [cb|] eqn:Gb; cbn [rbind] in H; [|discriminate].
  destruct (mapM real_of cb) as [lb|] eqn:Mb; cbn [rbind] in H; [|discriminate].
  destruct (get_col d c) as [cc|] eqn:Gc; cbn [rbind] in H; [|discriminate].
  destruct (mapM real_of cc) as [lc|] eqn:Mc; cbn [rbind] in H; [|discriminate].
  injection H as <-. exists la, lb, lc. split; auto. split; intros x Hx; eapply column_reads; eauto.
Qed.

Lemma combine3_In : forall (a b c : list R) x y z, In (x, y, z) (combine (combine a b) c) -> In x a /\ In z c.
Proof.
  intros a b c x y z H. split; [|eapply in_combine_r; eauto]. apply in_combine_l in H. apply in_combine_l in H. auto.
Qed.

Lemma dmem_has : forall d k, dmem k (cols d) = true <-> has d k.
Proof.
  intros d k. unfold has, data_keys. rewrite dget_In_key. unfold dmem. destruct (dget k (cols d)); split; eauto; try discriminate.
  intros [v H]. discriminate.
Qed.

Lemma identity_rows_source : forall d rows p, identity_rows d = Ok rows -> In p rows ->
  (exists v, value d (if dmem "BSP" (cols d) then "BSP" else "SOG") v /\ reads v (pbs p)) /\
  (has d "TWA" -> has d "TWS" -> exists v, value d "TWS" v /\ reads v (pws p)).
Proof.
  intros d rows p H I. unfold identity_rows, used_data, used_columns in H.
  set (sp := if dmem "BSP" (cols d) then "BSP" else "SOG") in *.
  assert (sp = "BSP" \/ sp = "SOG") as SP by (unfold sp; destruct (dmem _ _); auto).
  destruct (dmem "TWA" (cols d) && dmem "TWS" (cols d)) eqn:ET.
  - match type of H with (do i <- ?m; _) = _ => destruct m as [i|] eqn:EM end; cbn [rbind] in H; [|discriminate].
    destruct (used_three _ _ _ _ _ EM) as [la [lb [lc [-> [RA RC]]]]].
    assert (identity_remove [("TWS", PyList la); ("TWA", PyList lb); (sp, PyList lc)] =
            do rows <- stack3 (PyList la) (PyList lb) (PyList lc);
            Ok (W2 (map (fun p => let '(s, a, b) := p in (s, Some a, b)) rows))) as E.
    { destruct SP as [-> | ->]; reflexivity. }
    rewrite E in H. unfold stack3 in H. cbn [column] in H.
    destruct ((_ =? _)%nat && _)%bool; cbn [rbind] in H; [|discriminate].
    destruct (mapM_In _ _ _ _ _ _ H I) as [r [I1 I2]]. apply in_map_iff in I1. destruct I1 as [[[s a] b] [<- I1]].
    cbn in I2. injection I2 as <-. apply combine3_In in I1. destruct I1 as [J1 J2].
    split; [apply RC; auto|intros _ _; apply RA; auto].
  - assert (~ (has d "TWA" /\ has d "TWS")) as NT.
    { intros [H1 H2]. apply dmem_has in H1, H2. rewrite H1, H2 in ET. discriminate. }
    destruct (dmem "AWA" (cols d) && dmem "AWS" (cols d)) eqn:EA.
    2:{ cbn in H. discriminate. }
    match type of H with (do i <- ?m; _) = _ => destruct m as [i|] eqn:EM end; cbn [rbind] in H; [|discriminate].
    destruct (used_three _ _ _ _ _ EM) as [la [lb [lc [-> [RA RC]]]]].
    assert (identity_remove [("AWS", PyList la); ("AWA", PyList lb); (sp, PyList lc)] =
            do rows <- stack3 (PyList la) (PyList lb) (PyList lc);
            do out <- snd (convert_apparent_wind_to_true true (Arr2 3 (map row_of rows)));
            Ok (W2 out)) as E.
    { destruct SP as [-> | ->]; reflexivity. }
    rewrite E in H. unfold stack3 in H. cbn [column] in H.
    destruct ((_ =? _)%nat && _)%bool; cbn [rbind] in H; [|discriminate].
    unfold convert_apparent_wind_to_true, convert_wind in H. cbn [Nat.eqb] in H.
    destruct (existsb _ _); cbn [snd rbind] in H; [discriminate|].
    destruct (mapM_In _ _ _ _ _ _ H I) as [r [I1 I2]]. apply in_map_iff in I1. destruct I1 as [r0 [<- I1]].
    apply in_map_iff in I1. destruct I1 as [[[s a] b] [<- I1]]. cbn [row_of nth] in I2. unfold convert_row in I2.
    apply combine3_In in I1. destruct I1 as [J1 J2].
    split; [|intros; exfalso; apply NT; auto]. cbn [wind_row] in I2.
    destruct (convert_wind_angle _ _ _ _ _ _) as [a'|]; [|discriminate]. injection I2 as <-. apply RC. auto.
Qed.

(** ** The table *)

Lemma first_zero : forall g pts, Exists (fun p => dist_to std_norm g p = 0) pts -> exists q, first_at std_norm g pts q.
Proof.
  intros g pts E. induction pts as [|p pts IH]; [inversion E|]. destruct (Req_EM_T (dist_to std_norm g p) 0) as [Z|Z].
  - exists p, [], pts. split; [reflexivity|]. split; [exact Z|]. intros q [].
  - inversion E; subst; [contradiction|]. destruct (IH H0) as [q [l1 [l2 [-> [D F]]]]]. exists q, (p :: l1), l2.
    split; [reflexivity|]. split; [exact D|]. intros x [<-|Hx]; auto.
Qed.

Lemma default_interp_range : forall pts wts g v, length pts = length wts -> pts <> [] ->
  default_interp pts wts g = Ok v -> in_range (map pbs pts) v.
Proof.
  intros pts wts g v L NE H. unfold default_interp in H.
  destruct (Exists_dec (fun p => dist_to std_norm g p = 0) pts ltac:(intros; apply Req_EM_T)) as [E|E].
  - destruct (first_zero _ _ E) as [q FQ].
    rewrite (amean_reproduces std_norm std_norm_all std_norm_rowwise _ _ _ _ _ _ FQ) in H. injection H as <-.
    intros lo hi B. apply B. apply in_map. destruct FQ as [l1 [l2 [-> _]]]. apply in_or_app. right. left. auto.
  - destruct (amean_default_in_range std_norm std_norm_all std_norm_rowwise [50] pts wts g) as [v' [E1 E2]]; auto.
    + intros x Hx Z. apply E. apply Exists_exists. eauto.
    + rewrite E1 in H. injection H as <-. auto.
Qed.

Lemma selected_In : forall A (l : list A) m x, In x (ExtProps.selected l m) -> In x l.
Proof.
  intros A l m x H. unfold ExtProps.selected in H. apply in_map_iff in H. destruct H as [[y b] [<- H]]. apply filter_In in H.
  destruct H as [H _]. apply in_combine_l in H. auto.
Qed.

Lemma selected_length : forall A B (l : list A) (l' : list B) m, length m = length l -> length m = length l' ->
  length (ExtProps.selected l m) = length (ExtProps.selected l' m).
Proof.
  unfold ExtProps.selected. intros A B l l' m. revert l l'. induction m as [|b m IH]; intros [|x l] [|y l'] H1 H2; cbn in *; try lia.
  destruct b; cbn; auto.
Qed.

Lemma selected_nonempty : forall A (l : list A) m, length m = length l -> In true m -> ExtProps.selected l m <> [].
Proof.
  unfold ExtProps.selected. intros A l m. revert l. induction m as [|b m IH]; intros [|x l] H1 H2; cbn in *; try lia; try contradiction.
  destruct b; cbn; [discriminate|]. destruct H2 as [H2|H2]; [discriminate|]. apply IH; auto.
Qed.

Lemma estimate_range : forall pts weights g v lo hi, estimate default_nhood default_interp pts weights g v ->
  lo <= 0 <= hi -> (forall p, In p pts -> lo <= pbs p <= hi) -> lo <= v <= hi.
Proof.
  intros pts weights g v lo hi H Z B. inversion H as [m v' E1 E2 E3 E4 E5|]; subst; auto.
  eapply default_interp_range; eauto.
  - apply selected_length; auto.
  - apply selected_nonempty; auto.
  - intros b Hb. apply in_map_iff in Hb. destruct Hb as [p [<- Hp]]. apply B. eapply selected_In; eauto.
Qed.

(** A run of the table extension with the resolution "min_max" that returns. *)
Lemma table_min_max_run : forall nhood interp pts weights t, table_process WMinMax nhood interp pts weights = Ok t ->
  exists lo hi, least (map pws pts) lo /\ largest (map pws pts) hi /\
    (forall s, In s (t_ws t) <-> exists k, (0 <= k)%Z /\ s = IZR (py_round lo + 2 * k) /\ s <= IZR (py_round hi)) /\
    (forall a, In a (t_wa t) <-> exists k, (1 <= k <= 71)%Z /\ a = IZR (5 * k)) /\
    forall s a, In s (t_ws t) -> In a (t_wa t) ->
      exists v, estimate nhood interp pts weights (s, a) v /\ getitem t [s] [a] = Ok v.
Proof.
  intros nhood interp pts weights t E.
  assert (exists lo hi, arr_min (map pws pts) = Ok lo /\ arr_max (map pws pts) = Ok hi) as [lo [hi [Elo Ehi]]].
  { unfold table_process, table_size, min_max_resolution in E. destruct (arr_min (map pws pts)) as [lo|]; cbn [rbind] in E; [|discriminate].
    destruct (arr_max (map pws pts)) as [hi|]; cbn [rbind] in E; [|discriminate]. eauto. }
  pose proof (arr_min_least _ _ Elo) as Llo. pose proof (arr_max_largest _ _ Ehi) as Lhi.
  set (zs := py_range (py_round lo) (py_round hi + 1) 2). set (za := py_range 5 356 5).
  assert (table_size WMinMax pts = Ok (map IZR zs, map IZR za)) as TS.
  { unfold table_size, min_max_resolution. rewrite Elo, Ehi. reflexivity. }
  assert (NoDup (map IZR zs)) as N1 by (apply NoDup_IZR, py_range_NoDup; lia).
  assert (forall x, In x za -> 5 <= x <= 355)%Z as BA.
  { intros x Hx. apply py_range_In in Hx; [|lia]. destruct Hx as [k Hk]. lia. }
  assert (distinct_mod_360 (map IZR za)) as N2.
  { apply distinct_small; [apply py_range_NoDup; lia|]. intros x Hx. apply BA in Hx. lia. }
  exists lo, hi. split; auto. split; auto.
  destruct (table_extension_entries _ _ _ _ _ _ _ _ TS N1 N2 E) as [P1 [[wa' [F P2]] EN]].
  assert (wa' = map IZR za) as ->.
  { assert (forall x, In x (map IZR za) -> 0 <= x < 360) as B'.
    { intros x Hx. apply in_map_iff in Hx. destruct Hx as [z [<- Hz]]. apply BA in Hz. split; [apply IZR_le|apply IZR_lt]; lia. }
    clear - F B'. induction F as [|x y l l' HR F IH]; auto. f_equal.
    - destruct HR as [H1 [k Hk]]. specialize (B' x (or_introl eq_refl)).
      assert (k = 0)%Z as ->; [|lra]. assert (-1 < k < 1)%Z; [|lia]. split; apply lt_IZR; lra.
    - apply IH. intros z Hz. apply B'. right. auto. }
  split; [|split].
  - intros s. transitivity (In s (map IZR zs)).
    { split; apply Permutation_in; auto using Permutation_sym. }
    rewrite in_map_iff. split.
    + intros [z [<- Hz]]. apply py_range_In in Hz; [|lia]. destruct Hz as [k [K1 [-> K2]]]. exists k. split; auto.
      split; [f_equal; lia|]. apply IZR_le. lia.
    + intros [k [K1 [-> K2]]]. eexists. split; [reflexivity|]. apply py_range_In; [lia|]. exists k. split; auto.
      apply le_IZR in K2. split; lia.
  - intros a. transitivity (In a (map IZR za)).
    { split; apply Permutation_in; auto using Permutation_sym. }
    rewrite in_map_iff. split.
    + intros [z [<- Hz]]. apply py_range_In in Hz; [|lia]. destruct Hz as [k [K1 [-> K2]]]. exists (k + 1)%Z. split; [lia|]. f_equal. lia.
    + intros [k [K1 ->]]. eexists. split; [reflexivity|]. apply py_range_In; [lia|]. exists (k - 1)%Z. lia.
  - intros s a Hs Ha. destruct (EN s a 0%Z) as [v [V1 V2]].
    + eapply Permutation_in; [apply Permutation_sym; eauto|auto].
    + eapply Permutation_in; [apply Permutation_sym; eauto|auto].
    + exists v. split; auto. replace (a + 360 * 0) with a in V2 by lra. auto.
Qed.

(** ** The stages *)

Section Stages.
  Context {W V Raw U : Type}.
  Notation pd := (pdata (pt3 R) U). Notation wp := (wpoints (pt3 R) U R).

  (** [d'] holds values of [d] only and has the same columns. *)
  Definition derived (d d' : Data) : Prop := (forall k v, listed d' k v -> listed d k v) /\ (forall k, has d' k <-> has d k).

  Lemma stages_derived : forall won fon (cw : comp W V pd (list R)) cf ds w ds' a b w',
    stages 1 won fon cw cf ds w ds' a b w' -> Forall2 derived ds ds'.
  Proof.
    intros won fon cw cf ds w ds' a b w' H. induction H; constructor; auto. clear IHstages H0.
    inversion H as [NP|l ws' w1' q' fs' w2' NP WE FI]; subst; [split; [auto|tauto]|].
    inversion FI as [m st w3 q2 FO CA MA|FO]; subst; [|split; [auto|tauto]].
    unfold wp_mask in MA. cbn [WPointsModel.wdata wweights] in MA. unfold np_mask in MA.
    destruct (_ =? _)%nat; cbn [rbind wp_new] in MA; [|discriminate]. injection MA as <- _.
    split; [intros k v; apply listed_mask|intros k; apply has_mask].
  Qed.

  Lemma each_silent : forall X Y (f : X -> result Y) xs (w : W) ys st w', each (V := V) (silent f) xs w ys st w' ->
    Forall2 (fun x y => f x = Ok y) xs ys /\ w' = w.
  Proof.
    intros X Y f xs w ys st w' H. induction H; [split; [constructor|auto]|].
    inversion H as [y0 w0 E]; subst. cbn in E. destruct (f x) as [y1|] eqn:Ef; cbn [rbind] in E; [|discriminate].
    injection E as <- <-. destruct IHeach as [F ->]. split; auto.
  Qed.

  Lemma stage_rows : forall won fon (cw : comp W V pd (list R)) cf rows w (q : wp) a b w',
    stage 1 won fon cw cf (PArr rows) w q a b w' -> exists rows', WPointsModel.wdata q = PArr rows' /\ incl rows' rows.
  Proof.
    intros won fon cw cf rows w q a b w' H. inversion H as [NP|l ws' w1' q' fs' w2' NP WE FI]; subst.
    { exists rows. split; auto. apply incl_refl. }
    inversion FI as [m st w3 q2 FO CA MA|FO]; subst.
    - unfold wp_mask in MA. cbn [WPointsModel.wdata wweights] in MA. unfold np_mask in MA.
      destruct (length rows =? length m)%nat; cbn [rbind] in MA; [|discriminate].
      destruct (_ =? _)%nat; cbn [rbind wp_new] in MA; [|discriminate]. injection MA as <-. cbn. eexists. split; [reflexivity|].
      intros x. apply mask_list_In.
    - exists rows. cbn. split; auto. apply incl_refl.
  Qed.
End Stages.

Lemma linspace_range : forall (a b : R) n x, a <= b -> In x (linspace a b n) -> a <= x <= b.
Proof.
  intros a b n x L I. apply In_nth_error in I. destruct I as [i Hi].
  assert (i < n)%nat as Li. { rewrite <- (linspace_length a b n). apply nth_error_Some. congruence. }
  destruct n as [|[|m]]; [lia| |].
  - destruct i; [|lia]. cbn in Hi. injection Hi as <-. lra.
  - rewrite linspace_nth in Hi by lia. assert (x = a + INR i * ((b - a) / INR (S (S m) - 1))) as -> by congruence. clear Hi.
    assert (0 < INR (S (S m) - 1)) as P by (apply lt_0_INR; lia).
    assert (0 <= INR i <= INR (S (S m) - 1)) as [Q1 Q2] by (split; [apply pos_INR|apply le_INR; lia]).
    replace (INR i * ((b - a) / INR (S (S m) - 1))) with ((b - a) * (INR i / INR (S (S m) - 1))) by (field; lra).
    assert (0 <= INR i / INR (S (S m) - 1) <= 1) as [T1 T2].
    { split; [apply Rmult_le_pos; [auto|apply Rlt_le, Rinv_0_lt_compat; auto]|].
      apply Rmult_le_reg_r with (INR (S (S m) - 1)); auto. unfold Rdiv. rewrite Rmult_assoc, Rinv_l by lra. lra. }
    set (r := INR i / INR (S (S m) - 1)) in *. assert (0 <= (b - a) * r) by (apply Rmult_le_pos; lra).
    assert ((b - a) * r <= (b - a) * 1) by (apply Rmult_le_compat_l; lra). lra.
Qed.

Lemma zero_points : forall n rows pts wts z lo hi, (0 <= n)%Z -> rows <> [] -> zero_inject n (InjRows rows) = Ok (pts, wts, z) ->
  (forall r : pt3 R, In r rows -> lo <= pws r <= hi) -> forall p, In p pts -> pbs p = 0 /\ lo <= pws p <= hi.
Proof.
  intros n rows pts wts z lo hi HN NE H B p Hp.
  destruct (range_of rows NE) as [l [h [E1 [E2 RG]]]]. unfold zero_inject in H. rewrite E1, E2 in H. cbn [rbind] in H.
  destruct (Z.ltb_spec n 0); [lia|]. injection H as <- _ _.
  assert (forall w, In w (linspace l h (Z.to_nat n)) -> lo <= w <= hi) as LW.
  { destruct RG as [[r1 [I1 F1]] [[r2 [I2 F2]] BB]].
    assert (l <= h) by (specialize (BB _ I1); rewrite F1 in BB; lra).
    assert (lo <= l /\ h <= hi) by (pose proof (B _ I1) as Q1; pose proof (B _ I2) as Q2; unfold pws in *; lra).
    intros w Hw. destruct (linspace_range l h (Z.to_nat n) w); auto; lra. }
  apply in_app_or in Hp. destruct Hp as [Hp|Hp]; apply in_map_iff in Hp; destruct Hp as [w [<- Hw]]; cbn; split; auto; unfold pws; cbn; auto.
Qed.


Lemma Forall2_In_r : forall A B (P : A -> B -> Prop) l l' y, Forall2 P l l' -> In y l' -> exists x, In x l /\ P x y.
Proof.
  intros A B P l l' y F I. induction F as [|a b l l' HP F IH]; [destruct I|]. destruct I as [<-|I]; [exists a; cbn; auto|].
  destruct (IH I) as [x [I1 I2]]. exists x. cbn; auto.
Qed.
Lemma Forall2_In_l : forall A B (P : A -> B -> Prop) l l' x, Forall2 P l l' -> In x l -> exists y, In y l' /\ P x y.
Proof.
  intros A B P l l' x F I. induction F as [|a b l l' HP F IH]; [destruct I|]. destruct I as [<-|I]; [exists b; cbn; auto|].
  destruct (IH I) as [y [I1 I2]]. exists y. cbn; auto.
Qed.
Lemma Forall2_same : forall A (l l' : list A), Forall2 (fun x y => Ok x = Ok y) l l' -> l' = l.
Proof. intros A l l' F. induction F as [|a b l l' E F IH]; auto. injection E as ->. subst. auto. Qed.

(** For points with weights there is always an estimate. *)
Lemma default_estimate : forall pts weights g, length weights = length pts ->
  exists v, estimate default_nhood default_interp pts weights g v.
Proof.
  intros pts weights g L.
  assert (exists m, default_nhood (map (fun p => (pws p - fst g, pwa p - snd g)) pts) = Ok (MList m) /\ length m = length pts) as [m [EM LM]].
  { unfold default_nhood, ball_contains. rewrite std_norm_rowwise. eexists. split; [reflexivity|]. rewrite !map_length. auto. }
  destruct (in_dec Bool.bool_dec true m) as [I|I].
  - assert (exists v, default_interp (ExtProps.selected pts m) (ExtProps.selected weights m) g = Ok v) as [v EV].
    { set (ps := ExtProps.selected pts m). set (ws := ExtProps.selected weights m).
      assert (ps <> []) as NE by (apply selected_nonempty; auto).
      assert (length ws = length ps) as LL by (symmetry; apply selected_length; congruence).
      unfold default_interp.
      destruct (Exists_dec (fun p => dist_to std_norm g p = 0) ps ltac:(intros; apply Req_EM_T)) as [E|E].
      - destruct (first_zero _ _ E) as [q FQ].
        rewrite (amean_reproduces std_norm std_norm_all std_norm_rowwise _ _ _ _ _ _ FQ). eauto.
      - destruct (amean_default_in_range std_norm std_norm_all std_norm_rowwise [50] ps ws g) as [v' [E1 E2]]; eauto.
        intros x Hx Z. apply E. apply Exists_exists. eauto. }
    exists v. eapply Near; eauto. congruence.
  - exists 0. eapply Alone; eauto.
Qed.

(** C137: the whole default pipeline.  Whatever handler, weighers, filters and quality assurance
    are used: a run that returns gives a table with the wind angles 5, 10, ..., 355 and every
    second integer from some start as wind speeds; every entry lies between the recorded boat
    speeds and 0; and if true wind was recorded, the wind speeds of the table lie between the
    recorded ones, rounded. *)
Theorem default_pipeline_table : forall (W V Raw U : Type) h w1 f1 w2 f2 w3 f3 qc sw training test elapsed s o s',
  let p := @default_pipeline W V Raw U h w1 f1 w2 f2 w3 f3 qc in
  execute 1 p sw training test elapsed s = Ok (o, s') ->
  exists ds sts s1 k start n, handled p training s ds sts s1 /\ speed_column ds k /\
    let t := diagram o in
    (forall a, In a (t_wa t) <-> exists j, (1 <= j <= 71)%Z /\ a = IZR (5 * j)) /\
    (forall x, In x (t_ws t) <-> exists j, (0 <= j <= n)%Z /\ x = IZR (start + 2 * j)) /\
    (forall lo hi, lo <= 0 <= hi -> between ds k lo hi -> forall x a, In x (t_ws t) -> In a (t_wa t) ->
       exists b, getitem t [x] [a] = Ok b /\ lo <= b <= hi) /\
    (forall lo hi v v', recorded ds "TWS" v -> recorded ds "TWA" v' -> between ds "TWS" lo hi ->
       forall x, In x (t_ws t) -> lo - 1 / 2 <= x <= hi + 1 / 2).
Proof.
  intros W V Raw U h cw1 cf1 cw2 cf2 cw3 cf3 qc sw training test elapsed s o s' p H.
  assert (proper p) as PR by (intros w; constructor).
  assert (gives_arrays p) as GA.
  { intros x w y w' E. cbn in E. destruct (identity_rows x); cbn [rbind] in E; [|discriminate]. injection E as <- _. eauto. }
  destruct (pipeline_run 1 p sw training test elapsed s o s' PR GA H) as [ideal [EX _]].
  clear H. remember (diagram o) as t. remember (test_statistics o) as tst. clear Heqt Heqtst.
  destruct EX as [pts st s1 all ti w1 t te w2 tst tq s2 PP NP INJ CE _].
  destruct PP as [d0 t0 s1 d1 t1 v1 d2 t2 v2 d3 t3 u3 v3 d4 t4 v4 d5 t5 u5 v5 joined tf v6 d6 t6 t6' v7 out t7 u7 v8
                  HD E1 ES S3 E4 S5 CC _ CI _ SO].
  exists d0, t0, s1.
  cbn [imputator smoother expander pre_exp_weigher pre_exp_filter pre_inf_weigher pre_inf_filter influence post_weigher post_filter
       injector extension p default_pipeline] in *.
  apply each_silent in E1. destruct E1 as [F1 _].
  assert (d2 = d1) as ->.
  { destruct (smoothing sw); [destruct ES as [l [ES _]]; apply each_silent in ES; destruct ES as [ES _]; apply Forall2_same; auto|tauto]. }
  apply stages_derived in S3, S5. apply each_silent in E4. destruct E4 as [E4 _]. apply Forall2_same in E4. subst d4.
  assert (forall k v, k <> "datetime" -> value joined k v -> recorded d0 k v) as SRC.
  { intros k v NK VV. destruct (concatenate_value _ _ _ _ CC VV) as [e5 [I5 L5]].
    destruct (Forall2_In_r _ _ _ _ _ _ S5 I5) as [e3 [I3 [D3 _]]]. destruct (Forall2_In_r _ _ _ _ _ _ S3 I3) as [e1 [I1 [D1 _]]].
    destruct (Forall2_In_r _ _ _ _ _ _ F1 I1) as [e0 [I0 E0]].
    apply D3, D1 in L5. destruct (default_impute_source _ _ _ _ E0 NK L5) as [c [C1 C2]]. exists e0, c. auto. }
  assert (forall k, k <> "datetime" -> (has joined k <-> exists v, recorded d0 k v)) as HAS.
  { intros k NK. rewrite (concatenate_has _ _ k CC). split.
    - intros [e5 [I5 L5]]. destruct (Forall2_In_r _ _ _ _ _ _ S5 I5) as [e3 [I3 [_ D3]]].
      destruct (Forall2_In_r _ _ _ _ _ _ S3 I3) as [e1 [I1 [_ D1]]]. destruct (Forall2_In_r _ _ _ _ _ _ F1 I1) as [e0 [I0 E0]].
      apply D3, D1 in L5. apply (default_impute_has _ _ _ E0 NK) in L5. destruct L5 as [v [c [C1 C2]]]. exists v, e0, c. auto.
    - intros [v [e0 [c [I0 [C1 C2]]]]]. destruct (Forall2_In_l _ _ _ _ _ _ F1 I0) as [e1 [I1 E0]].
      destruct (Forall2_In_l _ _ _ _ _ _ S3 I1) as [e3 [I3 [_ D3]]]. destruct (Forall2_In_l _ _ _ _ _ _ S5 I3) as [e5 [I5 [_ D5]]].
      exists e5. split; auto. apply D5, D3. apply (default_impute_has _ _ _ E0 NK). exists v, c. auto. }
  inversion CI as [y w' RI]; subst. cbn in RI. destruct (identity_rows joined) as [rows|] eqn:IR; cbn [rbind] in RI; [|discriminate].
  injection RI as <- <-. destruct (stage_rows _ _ _ _ _ _ _ _ _ _ SO) as [rows' [EO IN]].
  exists (if dmem "BSP" (cols joined) then "BSP" else "SOG").
  assert (exists al, WPointsModel.wdata all = PArr al /\ rows' <> [] /\ incl rows' al /\
            forall q, In q al -> In q rows' \/ (pbs q = 0 /\
              forall lo hi, (forall r, In r rows' -> lo <= pws r <= hi) -> lo <= pws q <= hi)) as [al [EA [NE [IA SA]]]].
  { rewrite EO in NP. cbn [no_points] in NP. destruct (injecting sw).
    - destruct INJ as [new [CN XE]]. inversion CN as [y w' RN]; subst. cbn in RN. unfold inject_zeros in RN. rewrite EO in RN.
      destruct (zero_inject 500 (InjRows rows')) as [[[zp zw] zz]|] eqn:EZ; cbn [rbind fst snd] in RN; [|discriminate].
      injection RN as <- <-. unfold wp_extend in XE. rewrite EO in XE. cbn [WPointsModel.wdata] in XE. injection XE as <-.
      exists (rows' ++ zp). cbn. split; auto. split; auto. split; [apply incl_appl, incl_refl|].
      intros q Hq. apply in_app_or in Hq. destruct Hq as [Hq|Hq]; auto. right. split.
      + destruct (range_of rows' NP) as [l [hh [_ [_ RG]]]].
        eapply (zero_points 500 rows' zp zw zz l hh); eauto; [lia|]. intros r Hr. apply RG in Hr. exact Hr.
      + intros lo hi B. eapply (zero_points 500 rows' zp zw zz lo hi); eauto. lia.
    - destruct INJ as [-> _]. exists rows'. split; auto. split; auto. split; [apply incl_refl|auto]. }
  inversion CE as [y w' RE]; subst. cbn in RE. unfold extend_table in RE. rewrite EA in RE.
  destruct (table_process WMinMax default_nhood default_interp al (wweights all)) as [t'|] eqn:ET; cbn [rbind] in RE; [|discriminate].
  injection RE as -> <-. destruct (table_min_max_run _ _ _ _ _ ET) as [lo0 [hi0 [L0 [H0 [WS [WA EN]]]]]].
  exists (py_round lo0), ((py_round hi0 - py_round lo0) / 2)%Z.
  split; auto. split; [|split; [|split; [|split]]]; auto.
  - destruct (dmem "BSP" (cols joined)) eqn:EB.
    + left. split; auto. apply HAS; [discriminate|]. apply dmem_has. auto.
    + right. split; auto. intros v RV. assert (has joined "BSP") as HB by (apply HAS; [discriminate|eauto]).
      apply dmem_has in HB. congruence.
  - intros x. rewrite WS. split.
    + intros [j [J1 [-> J2]]]. exists j. split; auto. apply le_IZR in J2. split; auto. apply Z.div_le_lower_bound; lia.
    + intros [j [J1 ->]]. exists j. split; [lia|]. split; auto. apply IZR_le.
      pose proof (Z.mul_div_le (py_round hi0 - py_round lo0) 2 ltac:(lia)). lia.
  - intros lo hi Z B x a Hx Ha. destruct (EN x a Hx Ha) as [b [EB GB]]. exists b. split; auto.
    eapply estimate_range; eauto. intros q Hq. destruct (SA q Hq) as [I|[-> _]]; auto.
    apply IN in I. destruct (identity_rows_source _ _ _ IR I) as [[v [V1 V2]] _]. apply (B v); auto. apply SRC; auto. destruct (dmem _ _); discriminate.
  - intros lo hi v v' R1 R2 B x Hx.
    assert (forall r, In r rows' -> lo <= pws r <= hi) as BR.
    { intros r Hr. apply IN in Hr. destruct (identity_rows_source _ _ _ IR Hr) as [_ TW].
      destruct TW as [u [U1 U2]]; [apply HAS; [discriminate|eauto]|apply HAS; [discriminate|eauto]|]. apply (B u); auto. apply SRC; auto. discriminate. }
    assert (forall q, In q al -> lo <= pws q <= hi) as BQ by (intros q Hq; destruct (SA q Hq) as [I|[_ I]]; auto).
    apply WS in Hx. destruct Hx as [j [J1 [-> J2]]].
    destruct L0 as [L0 _]. apply in_map_iff in L0. destruct L0 as [q0 [<- Q0]].
    destruct H0 as [H0 _]. apply in_map_iff in H0. destruct H0 as [q1 [<- Q1]].
    pose proof (py_round_near (pws q0)) as N0. pose proof (py_round_near (pws q1)) as N1. apply BQ in Q0, Q1.
    assert (forall y, Rabs y <= 1 / 2 -> - (1 / 2) <= y <= 1 / 2) as AB.
    { intros y Hy. unfold Rabs in Hy. destruct (Rcase_abs y); lra. }
    apply AB in N0, N1. assert (0 <= IZR j) by (apply IZR_le; auto). rewrite plus_IZR, mult_IZR in *. lra.
Qed.
Print Assumptions default_pipeline_table.

(** A log with two records: the second has no boat speed, which is filled; weights 1, nothing is
    filtered. *)
Definition sample_log : Data :=
  mkData [("datetime", [Some (VDatetime 0); Some (VDatetime 1000)]); ("TWS", [Some (VFloat 10); Some (VFloat 13)]);
          ("TWA", [Some (VFloat 60); Some (VFloat 90)]); ("BSP", [Some (VFloat 5); None])]
         [("datetime", Some TDatetime); ("TWS", Some TFloat); ("TWA", Some TFloat); ("BSP", Some TFloat)] 2.
Definition ones (d : pdata (pt3 R) unit) : result (list R) := Ok (repeat 1 (PipeSpec.points d)).
Definition keep_all (l : list R) : result (list bool) := Ok (map (fun _ => true) l).
Definition sample_pipeline : pipeline unit unit Data (pt3 R) unit R (table R) :=
  default_pipeline (HOne (silent Ok)) (silent ones) (silent keep_all) (silent ones) (silent keep_all)
    (silent ones) (silent keep_all) (fun _ _ w => Ok ([], w)).
Definition sample_rows : list (pt3 R) := [(Q2R 10, Q2R 60, Q2R 5); (Q2R 13, Q2R 90, Q2R 5)].

Lemma sample_preprocessed : exists st, preprocess 1 sample_pipeline (read_switches [] false) [sample_log] true (mkS tt []) =
  Ok (mkWP (PArr sample_rows) [1; 1], st, mkS tt []).
Proof. vm_compute. eexists. reflexivity. Qed.

Lemma sample_returns : exists o s', execute 1 sample_pipeline (read_switches [] false) [sample_log] [] tt (mkS tt []) = Ok (o, s').
Proof.
  unfold execute. destruct sample_preprocessed as [st ->]. cbn [rbind WPointsModel.wdata is_empty_data length Nat.eqb sample_rows].
  change (injecting (read_switches [] false)) with true. change (testing (read_switches [] false)) with false. cbn iota.
  unfold collect at 1. cbn [run stats injector sample_pipeline default_pipeline silent]. unfold inject_zeros. cbn [WPointsModel.wdata].
  destruct (zeros_injected 500 sample_rows) as [zp [zw [lo [hi [EZ [[[r1 [I1 F1]] [[r2 [I2 F2]] RG]] [_ [LW _]]]]]]]]; [discriminate|lia|].
  assert (forall r, In r zp -> 10 <= pws r <= 13) as BZ.
  { intros r Hr. apply (zero_points 500 sample_rows zp zw (2 * 500)%Z 10 13); auto; try lia; try discriminate.
    intros q [<-|[<-|[]]]; unfold pws; cbn; unfold Q2R; cbn; lra. }
  fold sample_rows. rewrite EZ. cbn [rbind fst snd wp_extend WPointsModel.wdata wweights].
  unfold collect at 1. cbn [run stats extension silent extend_table WPointsModel.wdata wweights].
  set (pts := sample_rows ++ zp). set (wts := [1; 1] ++ zw).
  assert (length wts = length pts) as LL. { unfold wts, pts. rewrite !app_length, LW. reflexivity. }
  destruct (table_min_max default_nhood default_interp pts wts) as [t [l [u [ET _]]]].
  - discriminate.
  - intros r Hr. unfold pts in Hr. apply in_app_or in Hr. destruct Hr as [[<-|[<-|[]]]|Hr].
    + unfold pws; cbn; unfold Q2R; cbn; lra.
    + unfold pws; cbn; unfold Q2R; cbn; lra.
    + apply BZ in Hr. lra.
  - intros g. apply default_estimate. auto.
  - unfold sample_pipeline, default_pipeline. cbn [extension run silent extend_table WPointsModel.wdata wweights].
    rewrite ET. cbn [rbind]. eauto.
Qed.

Example default_pipeline_meets : exists o s',
  execute 1 sample_pipeline (read_switches [] false) [sample_log] [] tt (mkS tt []) = Ok (o, s') /\
  (forall x a, In x (t_ws (diagram o)) -> In a (t_wa (diagram o)) -> exists b, getitem (diagram o) [x] [a] = Ok b /\ 0 <= b <= 5).
Proof.
  destruct sample_returns as [o [s' E]].
  exists o, s'. split; [exact E|]. unfold sample_pipeline in E.
  destruct (default_pipeline_table _ _ _ _ _ _ _ _ _ _ _ _ _ _ _ _ _ _ _ E) as [ds [sts [s1 [k [z [n [HD [SC [_ [_ [BD _]]]]]]]]]]].
  inversion HD as [h ds' sts' w' EH EE|u l d' st' w' EH]; subst; [|discriminate EH]. cbn [data_handler default_pipeline] in EH. injection EH as <-.
  apply each_silent in EE. destruct EE as [EE _].
  inversion EE as [|? d ? ? E1 E2]; subst. injection E1 as <-. inversion E2; subst.
  assert (k = "BSP") as ->.
  { destruct SC as [[-> _]|[_ NB]]; auto. exfalso. apply (NB (VFloat 5)). exists sample_log, [Some (VFloat 5); None]. cbn. auto 10. }
  apply (BD 0 5); [lra|]. intros v x [d [col [[<-|[]] [IC IV]]]] RV. cbn in IC.
  destruct IC as [IC|[IC|[IC|[IC|[]]]]]; try discriminate IC. injection IC as <-. destruct IV as [IV|[IV|[]]]; [|discriminate IV].
  injection IV as <-. cbn in RV. subst x. unfold Q2R. cbn. lra.
Qed.
