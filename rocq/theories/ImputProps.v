(** * Properties of the imputators (C52, C53) *)

From Coq Require Import String.
From Coq Require Import List Bool Arith ZArith QArith Lia Sorted.
From Verif Require Import Py ListX Dict DataModel DataSpec DataProofs DataProofs2 DataProofs3 DataCheck ImputModel.
Import ListNotations.
Open Scope string_scope.
Open Scope list_scope.
Open Scope nat_scope.

(* ------------------------------------------------------------------ *)
(** ** What the statements say *)

(** Entry of column [k] in row [i]. *)
Definition entry (d : Data) (k : string) (i : nat) : cell :=
  match dget k (cols d) with Some c => nth i c None | None => None end.

(** Row [i] has no None. *)
Definition complete_row (d : Data) (i : nat) : Prop :=
  forall k, In k (data_keys d) -> entry d k i <> None.

(** [keep] lists, in order, exactly the numbers below [n] with the property. *)
Definition exactly (keep : list nat) (n : nat) (P : nat -> Prop) : Prop :=
  StronglySorted lt keep /\ forall i, In i keep <-> i < n /\ P i.

(* ------------------------------------------------------------------ *)

Lemma seq_sorted_lt : forall n a, StronglySorted lt (seq a n).
Proof.
  induction n; intros a; simpl; constructor; auto.
  apply Forall_forall. intros x Hx. apply in_seq in Hx. lia.
Qed.

Lemma surviving_exactly : forall n idx, exactly (surviving n idx) n (fun i => ~ In (Z.of_nat i) idx).
Proof.
  intros n idx. split.
  - unfold surviving. apply StronglySorted_filter. apply seq_sorted_lt.
  - intros i. unfold surviving. rewrite filter_In, in_seq. rewrite negb_true_iff.
    split.
    + intros [H1 H2]. split; [lia|]. intros H. assert (existsb (Z.eqb (Z.of_nat i)) idx = true); [|congruence].
      apply existsb_exists. exists (Z.of_nat i). split; auto. apply Z.eqb_refl.
    + intros [H1 H2]. split; [lia|]. destruct (existsb (Z.eqb (Z.of_nat i)) idx) eqn:E; auto.
      exfalso. apply existsb_exists in E. destruct E as [z [Hz1 Hz2]]. apply Z.eqb_eq in Hz2. congruence.
Qed.

Lemma exactly_iff : forall l n P Q, exactly l n P -> (forall i, i < n -> (P i <-> Q i)) -> exactly l n Q.
Proof.
  intros l n P Q [S H] E. split; auto. intros i. rewrite H. split; intros [A B]; split; auto; apply E; auto.
Qed.

Lemma get_col_entry : forall d k col, get_col d k = Ok col -> forall i, entry d k i = nth i col None.
Proof. intros d k col H i. unfold get_col in H. unfold entry. destruct (dget k (cols d)); congruence. Qed.

Lemma key_col : forall d k, In k (data_keys d) -> exists col, get_col d k = Ok col.
Proof.
  intros d k H. unfold data_keys in H. apply dget_In_key in H. destruct H as [c Hc].
  exists c. unfold get_col. rewrite Hc. auto.
Qed.

Lemma get_col_key : forall d k col, get_col d k = Ok col -> In k (data_keys d).
Proof.
  intros d k col H. unfold get_col in H. destruct (dget k (cols d)) eqn:E; [|discriminate].
  apply dget_In_key. eauto.
Qed.

Lemma row_none : forall d n i r, well_formed d n -> i < n -> get_row d (Z.of_nat i) = Ok r ->
  (existsb (fun kv => is_none (snd kv)) r = true <-> ~ complete_row d i).
Proof.
  intros d n i r [T [M R]] Hi H. unfold get_row in H.
  assert (r = map (fun kv => (fst kv, nth i (snd kv) None)) (cols d)) as ->.
  { assert (forall k c, In (k, c) (cols d) -> i < length c) as L.
    { intros k c Hc. rewrite (R k c); auto. apply NoDup_dget; auto. apply T. }
    clear - H L. revert r H. induction (cols d) as [|[k c] cs IH]; intros r H; cbn [mapM map fst snd] in H |- *.
    - injection H as <-. auto.
    - rewrite (py_index_nat _ c i None) in H by (apply (L k); simpl; auto). cbn [rbind fst snd] in H.
      destruct (mapM _ cs) as [r'|e] eqn:E; cbn [rbind] in H; [|discriminate].
      injection H as <-. cbn. f_equal. apply IH; auto. intros. apply (L k0). simpl; auto. }
  split.
  - intros H1 HC. apply existsb_exists in H1. destruct H1 as [kv [H1 H2]]. apply in_map_iff in H1.
    destruct H1 as [[k c] [<- H1]]. simpl in H2.
    assert (dget k (cols d) = Some c) as Hk by (apply NoDup_dget; auto; apply T).
    apply (HC k). { apply dget_In_key. eauto. }
    unfold entry. rewrite Hk. destruct (nth i c None) eqn:En; [discriminate|exact En].
  - intros H1. destruct (existsb _ _) eqn:E; auto. exfalso. apply H1.
    intros k Hk. apply dget_In_key in Hk. destruct Hk as [c Hc]. unfold entry. rewrite Hc. intros HN.
    assert (existsb (fun kv => is_none (snd kv)) (map (fun kv => (fst kv, nth i (snd kv) None)) (cols d)) = true); [|congruence].
    apply existsb_exists. exists (k, nth i c None). split.
    + apply in_map_iff. exists (k, c). split; auto. apply dget_In. auto.
    + simpl. rewrite HN. auto.
Qed.

Lemma enumerate_filter_sorted : forall A (l : list A) p,
  NoDup (map (fun ir => Z.of_nat (fst ir)) (filter p (enumerate l))).
Proof.
  intros A l p. rewrite <- (map_map fst Z.of_nat). 
  apply FinFun.Injective_map_NoDup. { intros x y H. lia. }
  assert (forall (q : list (nat * A)), NoDup (map fst q) -> NoDup (map fst (filter p q))) as G.
  { induction q as [|[i x] q IH]; simpl; intros H; auto. inversion H; subst.
    destruct (p (i, x)); simpl; auto. constructor; auto. intros HI. apply H2.
    apply in_map_iff in HI. destruct HI as [[i' y] [E HI]]. simpl in E. subst.
    apply filter_In in HI. apply in_map_iff. exists (i, y). tauto. }
  apply G. unfold enumerate. rewrite map_fst_combine by (rewrite seq_length; auto). apply seq_NoDup.
Qed.

(** C52: exactly the rows without None remain, in their order, with all their values. *)
Theorem remove_only_rows : forall d n, well_formed d n ->
  exists d' st keep, remove_only d = Ok (d', st) /\
    exactly keep n (complete_row d) /\ well_formed d' (length keep) /\
    data_keys d' = data_keys d /\
    (forall k col, get_col d k = Ok col -> get_col d' k = Ok (map (fun i => nth i col None) keep)) /\
    is_rows st = Z.of_nat (length keep) /\ is_cols st = length (data_keys d).
Proof.
  intros d n W. destruct (rows_ok d n W) as [rs [E [L HR]]].
  unfold remove_only. rewrite E. cbn [rbind].
  set (bad := map _ _).
  assert (forall i, i < n -> (In (Z.of_nat i) bad <-> ~ complete_row d i)) as HB.
  { intros i Hi. assert (exists r, nth_error rs i = Some r) as [r Hr].
    { destruct (nth_error rs i) eqn:Er; eauto. apply nth_error_None in Er. lia. }
    rewrite <- (row_none d n i r W Hi (HR i r Hr)). unfold bad. rewrite in_map_iff. split.
    - intros [[j r'] [Hj H]]. simpl in Hj. apply Nat2Z.inj in Hj. subst j.
      apply filter_In in H. destruct H as [H H2]. apply enumerate_In in H. simpl in H2. congruence.
    - intros H. exists (i, r). split; auto. apply filter_In. split; [apply enumerate_In; auto|auto]. }
  assert (NoDup bad) as ND by apply enumerate_filter_sorted.
  assert (forall i, In i bad -> (0 <= i < Z.of_nat n)%Z) as RG.
  { intros z Hz. unfold bad in Hz. apply in_map_iff in Hz. destruct Hz as [[j r] [<- H]].
    apply filter_In in H. destruct H as [H _]. apply enumerate_In in H. simpl.
    assert (j < length rs) by (apply nth_error_Some; congruence). lia. }
  destruct (surviving_length n bad ND RG) as [SL SN].
  exists (delete_rows d bad). eexists. exists (surviving n bad). split; [reflexivity|].
  pose proof (delete_rows_wf d n bad W ND RG) as W'. rewrite <- SL in W'.
  destruct (delete_rows_cols d n bad W) as [K C].
  split; [|split; [|split; [|split; [|split]]]]; auto.
  - eapply exactly_iff; [apply surviving_exactly|]. intros i Hi. simpl.
    rewrite HB by auto. split; [|tauto]. intros H k Hk HE. apply H. intros H2. apply (H2 k); auto.
  - simpl. apply W'.
  - simpl. unfold n_cols. rewrite <- K. unfold data_keys, dkeys. rewrite map_length. auto.
Qed.
Print Assumptions remove_only_rows.

Definition sample_table : Data :=
  mkData [("a", [Some (VInt 1); None; Some (VInt 3)]); ("b", [Some (VInt 4); Some (VInt 5); Some (VInt 6)])]
         [("a", Some TInt); ("b", Some TInt)] 3.
Example remove_only_meets : well_formed sample_table 3 /\ ~ complete_row sample_table 1 /\
  remove_only sample_table =
    Ok (mkData [("a", [Some (VInt 1); Some (VInt 3)]); ("b", [Some (VInt 4); Some (VInt 6)])]
               [("a", Some TInt); ("b", Some TInt)] 2,
        mkImpStats 0 2 0 2 2).
Proof.
  split; [apply wfb_ok; vm_compute; reflexivity|split; [|vm_compute; reflexivity]].
  intros H. apply (H "a"); simpl; auto.
Qed.

(** C52, refuted part: the statistic [n_removed_rows] is the number of kept rows. *)
Theorem remove_only_statistic_refuted : exists d n d' st,
  well_formed d n /\ remove_only d = Ok (d', st) /\
  is_rows_removed st <> (n_rows d - n_rows d')%Z.
Proof.
  exists sample_table, 3. eexists. eexists. split; [apply wfb_ok; vm_compute; reflexivity|].
  split; [vm_compute; reflexivity|]. vm_compute. discriminate.
Qed.
Print Assumptions remove_only_statistic_refuted.

(* ------------------------------------------------------------------ *)
(** ** Time stamps *)

(** [a] and [b] are neighbouring known time stamps. *)
Definition neighbours (ts : list (option Z)) (a b : nat) (ta tb : Z) : Prop :=
  a < b /\ nth_error ts a = Some (Some ta) /\ nth_error ts b = Some (Some tb) /\
  forall j, a < j < b -> nth_error ts j = Some None.

Definition chronological (ts : list (option Z)) : Prop :=
  forall a b ta tb, a <= b -> nth_error ts a = Some (Some ta) -> nth_error ts b = Some (Some tb) -> (ta <= tb)%Z.

(** [x] is the point of the segment from ([a], [ta]) to ([b], [tb]) over [j], to the
    nearest microsecond. *)
Definition on_segment (a b : nat) (ta tb : Z) (j : nat) (x : Z) : Prop :=
  (Z.abs (2 * (Z.of_nat (b - a) * (x - ta) - Z.of_nat (j - a) * (tb - ta))) <= Z.of_nat (b - a))%Z.

(** The result [ts'] of interpolating the time stamps [ts]: known stamps are kept,
    a filled one lies on the segment between its known neighbours, which are close, and
    each stamp between close neighbours is filled as long as there was no larger jump
    before. *)
Definition times_filled (mx : Z) (ts ts' : list (option Z)) : Prop :=
  length ts' = length ts /\
  (forall j t, nth_error ts j = Some (Some t) -> nth_error ts' j = Some (Some t)) /\
  (forall j x, nth_error ts j = Some None -> nth_error ts' j = Some (Some x) ->
     exists a b ta tb, neighbours ts a b ta tb /\ a < j < b /\ (tb - ta <= mx)%Z /\ on_segment a b ta tb j x) /\
  (forall a b ta tb j, neighbours ts a b ta tb -> a < j < b ->
     (forall p q tp tq, neighbours ts p q tp tq -> q <= b -> (tq - tp <= mx)%Z) ->
     exists x, nth_error ts' j = Some (Some x) /\ on_segment a b ta tb j x).

Lemma round_div_spec : forall a b, (0 < b)%Z -> (Z.abs (2 * (b * round_div a b - a)) <= b)%Z.
Proof.
  intros a b Hb. unfold round_div. pose proof (Z.div_mod a b ltac:(lia)) as E.
  pose proof (Z.mod_pos_bound a b Hb) as M.
  destruct (b <? 2 * (a mod b))%Z eqn:E1; cbn [orb].
  - apply Z.ltb_lt in E1. replace (b * (a / b + 1) - a)%Z with (b - a mod b)%Z by lia. lia.
  - apply Z.ltb_ge in E1. destruct (2 * (a mod b) =? b)%Z eqn:E2; cbn [andb].
    + apply Z.eqb_eq in E2. destruct (Z.odd (a / b)).
      * replace (b * (a / b + 1) - a)%Z with (b - a mod b)%Z by lia. lia.
      * replace (b * (a / b) - a)%Z with (- (a mod b))%Z by lia. lia.
    + replace (b * (a / b) - a)%Z with (- (a mod b))%Z by lia. lia.
Qed.

Lemma set_nth_length : forall A (l : list A) i x, length (set_nth l i x) = length l.
Proof. induction l; intros [|i] x; simpl; auto. Qed.

Lemma set_nth_error : forall A (l : list A) i x j,
  nth_error (set_nth l i x) j = if (j =? i) && (j <? length l) then Some x else nth_error l j.
Proof.
  induction l as [|y l IH]; intros i x j; simpl.
  - rewrite andb_false_r. auto.
  - destruct i as [|i], j as [|j]; simpl; auto.
    rewrite IH. change (S j <? S (length l)) with (j <? length l). auto.
Qed.

Lemma fold_set_nth : forall (f : nat -> option Z) k s out,
  length (fold_left (fun o j => set_nth o j (f j)) (seq s k) out) = length out /\
  forall j, nth_error (fold_left (fun o j => set_nth o j (f j)) (seq s k) out) j =
    if (s <=? j) && (j <? s + k) && (j <? length out) then Some (f j) else nth_error out j.
Proof.
  intros f. induction k as [|k IH]; intros s out; cbn [seq fold_left].
  - split; auto. intros j. destruct (Nat.leb_spec s j), (Nat.ltb_spec j (s + 0)); simpl; auto; lia.
  - destruct (IH (S s) (set_nth out s (f s))) as [L H]. rewrite set_nth_length in L. split; auto.
    intros j. rewrite H, set_nth_error, set_nth_length.
    destruct (Nat.leb_spec (S s) j), (Nat.ltb_spec j (S s + k)), (Nat.ltb_spec j (s + S k)),
      (Nat.leb_spec s j), (Nat.eqb_spec j s), (Nat.ltb_spec j (length out)); simpl; auto; try lia; subst; auto.
Qed.

Lemma fill_times_spec : forall out li ld i dt, li < i ->
  length (fill_times out li ld i dt) = length out /\
  (forall j, ~ li < j < i -> nth_error (fill_times out li ld i dt) j = nth_error out j) /\
  (forall j, li < j < i -> j < length out ->
     exists x, nth_error (fill_times out li ld i dt) j = Some (Some x) /\ on_segment li i ld dt j x).
Proof.
  intros out li ld i dt Hi. unfold fill_times.
  destruct (fold_set_nth (fun j => Some (ld + round_div (Z.of_nat (j - li) * (dt - ld)) (Z.of_nat (i - li)))%Z)
              (i - S li) (S li) out) as [L H].
  split; auto. split.
  - intros j Hj. rewrite H. destruct (Nat.leb_spec (S li) j), (Nat.ltb_spec j (S li + (i - S li))); simpl; auto; lia.
  - intros j Hj HL. eexists. split.
    + rewrite H. destruct (Nat.leb_spec (S li) j), (Nat.ltb_spec j (S li + (i - S li))), (Nat.ltb_spec j (length out));
        try lia. simpl. reflexivity.
    + unfold on_segment. rewrite Z.add_simpl_l. apply round_div_spec. lia.
Qed.

(** State of the loop before row [i]. *)
Definition interp_inv (mx : Z) (ts : list (option Z)) (i : nat) (last : option (Z * nat)) (out : list (option Z)) : Prop :=
  length out = length ts /\
  (forall j, i <= j -> nth_error out j = nth_error ts j) /\
  (forall j t, nth_error ts j = Some (Some t) -> nth_error out j = Some (Some t)) /\
  (forall j x, nth_error ts j = Some None -> nth_error out j = Some (Some x) ->
     exists a b ta tb, neighbours ts a b ta tb /\ a < j < b /\ (tb - ta <= mx)%Z /\ on_segment a b ta tb j x) /\
  (forall a b ta tb j, neighbours ts a b ta tb -> b < i -> a < j < b ->
     (forall p q tp tq, neighbours ts p q tp tq -> q <= b -> (tq - tp <= mx)%Z) ->
     exists x, nth_error out j = Some (Some x) /\ on_segment a b ta tb j x) /\
  match last with
  | None => forall j, j < i -> nth_error ts j = Some None
  | Some (ld, li) =>
      li < i /\ nth_error ts li = Some (Some ld) /\
      ((forall j, li < j < i -> nth_error ts j = Some None) \/
       exists q tq, q < i /\ neighbours ts li q ld tq /\ (mx < tq - ld)%Z)
  end.

Lemma neighbours_prev : forall ts a b ta tb li ld,
  neighbours ts a b ta tb -> li < b -> nth_error ts li = Some (Some ld) ->
  (forall j, li < j < b -> nth_error ts j = Some None) -> a = li /\ ta = ld.
Proof.
  intros ts a b ta tb li ld [Hab [Ha [Hb Hn]]] Hl He Hm.
  assert (a = li) as ->.
  { destruct (Nat.lt_trichotomy a li) as [H|[H|H]]; auto.
    - rewrite Hn in He by lia. discriminate.
    - rewrite Hm in Ha by lia. discriminate. }
  split; congruence.
Qed.

Lemma interp_loop_inv : forall mx ts, chronological ts -> forall rest i last out,
  rest = skipn i ts -> i + length rest = length ts -> interp_inv mx ts i last out ->
  exists last', interp_inv mx ts (length ts) last' (interp_loop mx rest i last out).
Proof.
  intros mx ts CH. induction rest as [|o rest IH]; intros i last out HS HL INV; cbn [interp_loop].
  - simpl in HL. rewrite Nat.add_0_r in HL. subst. eauto.
  - assert (rest = skipn (S i) ts) as HS'.
    { change (skipn (S i) ts) with (skipn 1 ts) || idtac.
      clear - HS. revert i HS. induction ts as [|t ts IH]; intros [|i] HS; simpl in *; try discriminate.
      - injection HS as _ ->. auto.
      - apply IH; auto. }
    assert (nth_error ts i = Some o) as Hi.
    { clear - HS. revert i HS. induction ts as [|t ts IH]; intros [|i] HS; simpl in *; try discriminate.
      - injection HS as -> _. auto.
      - apply IH; auto. }
    assert (S i + length rest = length ts) as HL' by (simpl in HL; lia).
    destruct INV as [V1 [V2 [V3 [V4 [V5 V6]]]]].
    destruct o as [dt|].
    + destruct last as [[ld li]|].
      * destruct V6 as [U1 [U2 U3]].
        destruct (mx <? Z.abs (dt - ld))%Z eqn:EM.
        -- (* too far *)
           assert (ld <= dt)%Z as Hc by (apply (CH li i ld dt); auto; lia).
           apply Z.ltb_lt in EM. rewrite Z.abs_eq in EM by lia.
           apply IH; auto.
           assert (exists q tq, q < S i /\ neighbours ts li q ld tq /\ (mx < tq - ld)%Z) as BQ.
           { destruct U3 as [U3|[q [tq [Q1 [Q2 Q3]]]]].
             - exists i, dt. split; [lia|]. split; [|lia]. repeat split; auto.
             - exists q, tq. split; [lia|]. auto. }
           repeat split; auto; try (intros; apply V2; lia).
           intros a b ta tb j Hn Hb Hj HP. destruct (Nat.eq_dec b i) as [->|Hbi].
           ++ destruct BQ as [q [tq [Q1 [Q2 Q3]]]]. specialize (HP li q ld tq Q2 ltac:(lia)). lia.
           ++ apply (V5 a b ta tb j Hn ltac:(lia) Hj HP).
        -- (* close *)
           apply Z.ltb_ge in EM. assert (ld <= dt)%Z as Hc by (apply (CH li i ld dt); auto; lia).
           rewrite Z.abs_eq in EM by lia.
           destruct U3 as [U3|[q [tq [Q1 [Q2 Q3]]]]].
           2:{ exfalso. assert (tq <= dt)%Z; [|lia]. apply (CH q i); auto; [lia|apply Q2]. }
           destruct (fill_times_spec out li ld i dt U1) as [F1 [F2 F3]].
           assert (neighbours ts li i ld dt) as HN by (repeat split; auto).
           apply IH; auto. split; [congruence|]. split; [|split; [|split; [|split]]].
           ++ intros j Hj. rewrite F2 by lia. apply V2. lia.
           ++ intros j t Hj. assert (~ li < j < i) as HO.
              { intros HO. rewrite U3 in Hj by lia. discriminate. }
              rewrite F2; auto.
           ++ intros j x Hj Hx. assert (li < j < i \/ ~ li < j < i) as [HO|HO] by lia.
              ** exists li, i, ld, dt. split; auto. split; auto. split; auto.
                 destruct (F3 j HO) as [x' [X1 X2]]. { rewrite V1. apply nth_error_Some. congruence. }
                 replace x with x' by congruence. auto.
              ** rewrite F2 in Hx by auto. apply (V4 j x); auto.
           ++ intros a b ta tb j Hn Hb Hj HP. destruct (Nat.eq_dec b i) as [->|Hbi].
              ** destruct (neighbours_prev ts a i ta tb li ld Hn U1 U2 U3) as [-> ->].
                 assert (tb = dt) as -> by (destruct Hn as [_ [_ [Hn _]]]; congruence).
                 apply F3; auto. rewrite V1. apply nth_error_Some. rewrite U3 by lia. discriminate.
              ** rewrite F2. { apply (V5 a b ta tb j Hn); auto. lia. }
                 intros HO. assert (b <= li).
                 { destruct (Nat.le_gt_cases b li); auto. exfalso.
                   assert (nth_error ts b = Some None) by (apply U3; lia).
                   destruct Hn as [_ [_ [Hn _]]]. congruence. }
                 lia.
           ++ split; [lia|]. split; auto. left. intros j Hj. lia.
      * (* first known stamp *)
        apply IH; auto. repeat split; auto; try (intros; apply V2; lia).
        -- intros a b ta tb j Hn Hb Hj HP. exfalso. destruct Hn as [N1 [N2 _]].
           rewrite V6 in N2 by lia. discriminate.
        -- left. intros j Hj. lia.
    + apply IH; auto. repeat split; auto; try (intros; apply V2; lia).
      * intros a b ta tb j Hn Hb Hj HP. assert (b <> i).
        { intros ->. destruct Hn as [_ [_ [Hn _]]]. congruence. }
        apply (V5 a b ta tb j Hn); auto. lia.
      * destruct last as [[ld li]|].
        -- destruct V6 as [U1 [U2 U3]]. split; [lia|]. split; auto. destruct U3 as [U3|[q [tq [Q1 [Q2 Q3]]]]].
           ++ left. intros j Hj. destruct (Nat.eq_dec j i) as [->|]; auto. apply U3. lia.
           ++ right. exists q, tq. split; [lia|]. auto.
        -- intros j Hj. destruct (Nat.eq_dec j i) as [->|]; auto. apply V6. lia.
Qed.

Lemma interp_times_filled : forall mx ts, chronological ts -> times_filled mx ts (interp_times mx ts).
Proof.
  intros mx ts CH. unfold interp_times.
  destruct (interp_loop_inv mx ts CH ts 0 None ts) as [l [V1 [V2 [V3 [V4 [V5 _]]]]]]; auto.
  - repeat split; auto.
    + intros j x H1 H2. congruence.
    + intros; lia.
    + intros; lia.
  - repeat split; auto.
    intros a b ta tb j Hn Hj HP. apply (V5 a b ta tb j Hn); auto.
    destruct Hn as [_ [_ [Hn _]]]. apply nth_error_Some. congruence.
Qed.

(* ------------------------------------------------------------------ *)
(** ** Gaps *)

(** [j] is the nearest measured row before [i] within the time limit. *)
Definition near_before (mx : Z) (T : list Z) (c : list cell) (i j : nat) : Prop :=
  let ok j := j < i /\ nth j c None <> None /\ (nth i T 0%Z - nth j T 0%Z < mx)%Z in
  ok j /\ forall j', ok j' -> j' <= j.
Definition near_after (mx : Z) (T : list Z) (c : list cell) (i j : nat) : Prop :=
  let ok j := i < j /\ nth j c None <> None /\ (nth j T 0%Z - nth i T 0%Z < mx)%Z in
  ok j /\ forall j', ok j' -> j <= j'.

(** [x] is what should stand in row [i] of the column [c] of name [k]: a measured value
    as it is, nothing without measured neighbours, and the fill functions otherwise.
    The flag tells whether a gap was filled. *)
Inductive filled_entry (fb : string -> pyval -> Q -> cell) (fw : string -> pyval -> pyval -> Q -> cell)
    (fa : string -> pyval -> Q -> cell) (mx : Z) (k : string) (T : list Z) (c : list cell) (i : nat)
    : cell -> bool -> Prop :=
| FE_measured : forall v, nth i c None = Some v -> filled_entry fb fw fa mx k T c i (Some v) false
| FE_alone : nth i c None = None -> (forall j, ~ near_before mx T c i j) -> (forall j, ~ near_after mx T c i j) ->
    filled_entry fb fw fa mx k T c i None false
| FE_before : forall e v, nth i c None = None -> (forall j, ~ near_before mx T c i j) ->
    near_after mx T c i e -> nth e c None = Some v ->
    filled_entry fb fw fa mx k T c i (fb k v (inject_Z (nth e T 0%Z - nth i T 0%Z) / inject_Z mx)%Q) true
| FE_after : forall s v, nth i c None = None -> near_before mx T c i s -> nth s c None = Some v ->
    (forall e, near_after mx T c i e -> (mx < nth e T 0%Z - nth s T 0%Z)%Z) ->
    filled_entry fb fw fa mx k T c i (fa k v (inject_Z (nth i T 0%Z - nth s T 0%Z) / inject_Z mx)%Q) true
| FE_between : forall s e v w, nth i c None = None -> near_before mx T c i s -> near_after mx T c i e ->
    nth s c None = Some v -> nth e c None = Some w -> (nth e T 0%Z - nth s T 0%Z <= mx)%Z ->
    filled_entry fb fw fa mx k T c i
      (fw k v w (if (nth e T 0%Z =? nth s T 0%Z)%Z then 1
                 else inject_Z (nth i T 0%Z - nth s T 0%Z) / inject_Z (nth e T 0%Z - nth s T 0%Z))%Q) true.

Lemma opt_max_spec : forall l, match opt_max l with
  | None => l = [] | Some m => In m l /\ forall x, In x l -> x <= m end.
Proof.
  intros [|x l]; simpl; auto.
  assert (forall l x, (fold_left Nat.max l x = x \/ In (fold_left Nat.max l x) l) /\ x <= fold_left Nat.max l x /\
            forall y, In y l -> y <= fold_left Nat.max l x) as G.
  { clear. induction l as [|y l IH]; intros x; simpl. { repeat split; auto; tauto. }
    destruct (IH (Nat.max x y)) as [A [B C]]. split; [|split].
    - destruct A as [A|A]; auto. rewrite A. destruct (Nat.max_spec x y) as [[_ ->]|[_ ->]]; auto.
    - lia.
    - intros z [->|Hz]; [lia|auto]. }
  destruct (G l x) as [A [B C]]. split.
  - destruct A as [A|A]; [rewrite A|]; auto.
  - intros y [->|Hy]; auto.
Qed.

Lemma opt_min_spec : forall l, match opt_min l with
  | None => l = [] | Some m => In m l /\ forall x, In x l -> m <= x end.
Proof.
  intros [|x l]; simpl; auto.
  assert (forall l x, (fold_left Nat.min l x = x \/ In (fold_left Nat.min l x) l) /\ fold_left Nat.min l x <= x /\
            forall y, In y l -> fold_left Nat.min l x <= y) as G.
  { clear. induction l as [|y l IH]; intros x; simpl. { repeat split; auto; tauto. }
    destruct (IH (Nat.min x y)) as [A [B C]]. split; [|split].
    - destruct A as [A|A]; auto. rewrite A. destruct (Nat.min_spec x y) as [[_ ->]|[_ ->]]; auto.
    - lia.
    - intros z [->|Hz]; [lia|auto]. }
  destruct (G l x) as [A [B C]]. split.
  - destruct A as [A|A]; [rewrite A|]; auto.
  - intros y [->|Hy]; auto.
Qed.

Lemma measured_In : forall c j, In j (measured c) <-> nth j c None <> None.
Proof.
  intros c j. unfold measured. rewrite filter_In, in_seq, negb_true_iff. split.
  - intros [_ H] E. rewrite E in H. discriminate.
  - intros H. split.
    + destruct (Nat.le_gt_cases (length c) j) as [L|L]; [|lia]. rewrite nth_overflow in H by auto. congruence.
    + destruct (nth j c None); auto. congruence.
Qed.

Lemma start_spec : forall mx T c i,
  match fst (start_end mx T i (measured c)) with
  | None => forall j, ~ near_before mx T c i j
  | Some s => near_before mx T c i s
  end.
Proof.
  intros mx T c i. unfold start_end. cbn [fst].
  pose proof (opt_max_spec (filter (fun j => (j <? i) && (nth i T 0%Z - nth j T 0%Z <? mx)%Z) (measured c))) as H.
  assert (forall j, In j (filter (fun j => (j <? i) && (nth i T 0%Z - nth j T 0%Z <? mx)%Z) (measured c)) <->
            j < i /\ nth j c None <> None /\ (nth i T 0%Z - nth j T 0%Z < mx)%Z) as G.
  { intros j. rewrite filter_In, measured_In, andb_true_iff, Nat.ltb_lt, Z.ltb_lt. tauto. }
  destruct (opt_max _) as [s|].
  - destruct H as [H1 H2]. split; [apply G; auto|]. intros j Hj. apply H2, G; auto.
  - intros j [Hj _]. apply G in Hj. rewrite H in Hj. auto.
Qed.

Lemma end_spec : forall mx T c i,
  match snd (start_end mx T i (measured c)) with
  | None => forall j, ~ near_after mx T c i j
  | Some s => near_after mx T c i s
  end.
Proof.
  intros mx T c i. unfold start_end. cbn [snd].
  pose proof (opt_min_spec (filter (fun j => (i <? j) && (nth j T 0%Z - nth i T 0%Z <? mx)%Z) (measured c))) as H.
  assert (forall j, In j (filter (fun j => (i <? j) && (nth j T 0%Z - nth i T 0%Z <? mx)%Z) (measured c)) <->
            i < j /\ nth j c None <> None /\ (nth j T 0%Z - nth i T 0%Z < mx)%Z) as G.
  { intros j. rewrite filter_In, measured_In, andb_true_iff, Nat.ltb_lt, Z.ltb_lt. tauto. }
  destruct (opt_min _) as [s|].
  - destruct H as [H1 H2]. split; [apply G; auto|]. intros j Hj. apply H2, G; auto.
  - intros j [Hj _]. apply G in Hj. rewrite H in Hj. auto.
Qed.

Lemma near_after_unique : forall mx T c i e e', near_after mx T c i e -> near_after mx T c i e' -> e = e'.
Proof. intros mx T c i e e' [A B] [A' B']. apply B in A'. apply B' in A. lia. Qed.

Lemma fill_entry_spec : forall fb fw fa mx k T c i x b,
  fill_entry fb fw fa mx k T c i = (x, b) -> filled_entry fb fw fa mx k T c i x b.
Proof.
  intros fb fw fa mx k T c i x b H. unfold fill_entry in H.
  destruct (nth i c None) as [v|] eqn:E.
  { injection H as <- <-. constructor. auto. }
  pose proof (start_spec mx T c i) as HS. pose proof (end_spec mx T c i) as HE.
  destruct (start_end mx T i (measured c)) as [[s|] [e|]]; cbn [fst snd] in HS, HE.
  - pose proof HS as [[_ [S1 _]] _]. pose proof HE as [[_ [E1 _]] _]. unfold value_at in H.
    destruct (nth s c None) as [v|] eqn:Es; [|congruence].
    destruct (nth e c None) as [w|] eqn:Ee; [|congruence].
    destruct (Z.ltb_spec mx (nth e T 0%Z - nth s T 0%Z)%Z); injection H as <- <-.
    + apply FE_after; auto. intros e' He'. rewrite <- (near_after_unique _ _ _ _ _ _ HE He'). auto.
    + apply FE_between; auto.
  - pose proof HS as [[_ [S1 _]] _]. unfold value_at in H.
    destruct (nth s c None) as [v|] eqn:Es; [|congruence]. injection H as <- <-.
    apply FE_after; auto. intros e' He'. exfalso. apply (HE e'); auto.
  - pose proof HE as [[_ [E1 _]] _]. unfold value_at in H.
    destruct (nth e c None) as [w|] eqn:Ee; [|congruence]. injection H as <- <-.
    apply FE_before; auto.
  - injection H as <- <-. apply FE_alone; auto.
Qed.

(* ------------------------------------------------------------------ *)
(** ** The whole imputation *)

Definition tabular (d : Data) (n : nat) : Prop := NoDup (dkeys (cols d)) /\ rectangular d n.

Lemma dget_map_snd : forall A B (f : string -> A -> B) (d : dict A) k,
  dget k (map (fun kc => (fst kc, f (fst kc) (snd kc))) d) = option_map (f k) (dget k d).
Proof.
  intros A B f. induction d as [|[k0 v] d IH]; intros k; simpl; auto.
  destruct (String.eqb_spec k0 k); subst; simpl; auto.
Qed.

Lemma surviving_nil : forall n, surviving n [] = seq 0 n.
Proof. intros. unfold surviving. simpl. apply filter_all. auto. Qed.

Lemma delete_rows_tabular : forall d n idx, tabular d n -> NoDup idx ->
  (forall i, In i idx -> (0 <= i < Z.of_nat n)%Z) ->
  tabular (delete_rows d idx) (length (surviving n idx)) /\ data_keys (delete_rows d idx) = data_keys d /\
  forall k, dget k (cols (delete_rows d idx)) =
    option_map (fun c => map (fun i => nth i c None) (surviving n idx)) (dget k (cols d)).
Proof.
  intros d n idx [ND [M R]] NI RG. destruct (surviving_length n idx NI RG) as [SL SN].
  assert (forall k, dget k (cols (delete_rows d idx)) =
    option_map (fun c => map (fun i => nth i c None) (surviving n idx)) (dget k (cols d))) as G.
  { intros k. destruct idx as [|z idx].
    - simpl. rewrite surviving_nil. destruct (dget k (cols d)) as [c|] eqn:E; simpl; auto.
      f_equal. rewrite <- (R k c E). symmetry. apply map_nth_seq.
    - cbn [delete_rows cols]. unfold dmap.
      pose proof (dget_map_snd _ _ (fun _ => drop_rows (z :: idx)) (cols d) k) as Q.
      cbn beta in Q. rewrite Q. destruct (dget k (cols d)) as [c|] eqn:E; cbn [option_map]; auto.
      f_equal. rewrite drop_rows_surviving, (R k c E). auto. }
  assert (data_keys (delete_rows d idx) = data_keys d) as K.
  { destruct idx; auto. cbn [delete_rows]. unfold data_keys, dkeys, dmap. cbn [cols].
    rewrite map_map. auto. }
  split; [|split]; auto. split; [|split].
  - unfold data_keys in K. rewrite K. auto.
  - rewrite SL. destruct idx as [|z idx]; [simpl; rewrite Nat.sub_0_r; auto|].
    unfold n_rows in *. cbn [delete_rows max_len]. rewrite M. lia.
  - intros k c Hc. rewrite G in Hc. destruct (dget k (cols d)); [|discriminate]. injection Hc as <-.
    rewrite map_length. auto.
Qed.

Lemma mapM_time_of : forall col, (forall v, In (Some v) col -> exists t, v = VDatetime t) ->
  exists ts, mapM time_of col = Ok ts /\ col = map (option_map VDatetime) ts.
Proof.
  induction col as [|c col IH]; intros H.
  - exists []. auto.
  - destruct IH as [ts [E1 E2]]. { intros v Hv. apply H. simpl; auto. }
    destruct c as [v|].
    + destruct (H v) as [t ->]; simpl; auto. exists (Some t :: ts). cbn [mapM time_of rbind]. rewrite E1.
      split; auto. simpl. congruence.
    + exists (None :: ts). cbn [mapM time_of rbind]. rewrite E1. split; auto. simpl. congruence.
Qed.

Lemma interp_loop_length : forall mx rest i last out,
  length (interp_loop mx rest i last out) = length out.
Proof.
  intros mx. induction rest as [|[dt|] rest IH]; intros i last out; cbn [interp_loop]; auto.
  destruct last as [[ld li]|]; auto. destruct (mx <? Z.abs (dt - ld))%Z; auto.
  rewrite IH. unfold fill_times. apply (fold_set_nth _ (i - S li) (S li) out).
Qed.

Lemma filter_map_nth : forall A (d : A) (p : A -> bool) l,
  map (fun i => nth i l d) (filter (fun i => p (nth i l d)) (seq 0 (length l))) = filter p l.
Proof.
  intros A d p l. transitivity (filter p (map (fun i => nth i l d) (seq 0 (length l)))).
  - induction (seq 0 (length l)) as [|i s IH]; simpl; auto.
    destruct (p (nth i l d)); simpl; congruence.
  - rewrite map_nth_seq. auto.
Qed.

Lemma exactly_unique : forall l l' n P, exactly l n P -> exactly l' n P -> l = l'.
Proof.
  intros l l' n P [S1 H1] [S2 H2]. apply (sorted_same_elements _ lt); auto; try (intros; lia).
  intros x. rewrite H1, H2. tauto.
Qed.

Lemma exactly_filter : forall n p, exactly (filter p (seq 0 n)) n (fun i => p i = true).
Proof.
  intros n p. split; [apply StronglySorted_filter, seq_sorted_lt|].
  intros i. rewrite filter_In, in_seq. split; intros; repeat split; try tauto; lia.
Qed.

Definition time_or_zero (o : option Z) : Z := match o with Some t => t | None => 0%Z end.

Lemma somes_map : forall ts keep, exactly keep (length ts) (fun i => nth i ts None <> None) ->
  somes ts = map (fun i => time_or_zero (nth i ts None)) keep.
Proof.
  intros ts keep H.
  assert (keep = filter (fun i => match nth i ts None with Some _ => true | None => false end) (seq 0 (length ts))) as ->.
  { eapply exactly_unique; [exact H|]. eapply exactly_iff; [apply exactly_filter|].
    intros i Hi. simpl. destruct (nth i ts None); split; congruence. }
  pose proof (filter_map_nth _ None (fun o : option Z => match o with Some _ => true | None => false end) ts) as Q.
  rewrite <- (map_map (fun i => nth i ts None) time_or_zero), Q. clear.
  induction ts as [|[t|] ts IH]; simpl; auto. congruence.
Qed.

Lemma none_rows_spec : forall l, NoDup (none_rows l) /\
  (forall i, In i (none_rows l) -> (0 <= i < Z.of_nat (length l))%Z) /\
  exactly (surviving (length l) (none_rows l)) (length l) (fun i => nth i l None <> None).
Proof.
  intros l. assert (forall z, In z (none_rows l) <-> exists i, z = Z.of_nat i /\ i < length l /\ nth i l None = None) as G.
  { intros z. unfold none_rows. rewrite in_map_iff. split.
    - intros [[i c] [<- H]]. apply filter_In in H. destruct H as [H1 H2]. apply enumerate_In in H1.
      exists i. split; auto. assert (i < length l) by (apply nth_error_Some; congruence). split; auto.
      destruct c; [discriminate|]. exact (nth_error_nth l i None H1).
    - intros [i [-> [H1 H2]]]. exists (i, None). split; auto. apply filter_In. split; auto.
      apply enumerate_In. rewrite <- H2. apply nth_error_nth'. auto. }
  split; [apply enumerate_filter_sorted|]. split.
  - intros z Hz. apply G in Hz. destruct Hz as [i [-> [H _]]]. lia.
  - eapply exactly_iff; [apply surviving_exactly|]. intros i Hi. cbn beta. rewrite G. split.
    + intros H E. apply H. eauto.
    + intros H [j [Ej [_ E]]]. apply Nat2Z.inj in Ej. subst. auto.
Qed.

(** The time stamps of a column. *)
Definition stamps (c : list cell) : list (option Z) :=
  map (fun x => match x with Some (VDatetime t) => Some t | _ => None end) c.

(** C53: for every table with a usable column of time stamps the imputation succeeds.
    [ts] are the time stamps after interpolation (see [times_filled]), [rows1] the rows
    that have one, [T] their stamps; [F k] is the filled column [k] on these rows (see
    [filled_entry]), [keep] the rows without None; the result consists of exactly these
    rows, in order, and of the columns which are not None throughout. *)
Theorem fill_local_result : forall fb fw fa mx d n col,
  well_formed d n -> (0 < mx)%Z -> get_col d "datetime" = Ok col ->
  (forall v, In (Some v) col -> exists t, v = VDatetime t) -> (exists v, In (Some v) col) ->
  exists d' st ts rows1 T F G keep,
    fill_local fb fw fa mx d = Ok (d', st) /\
    (chronological (stamps col) -> times_filled mx (stamps col) ts) /\
    exactly rows1 n (fun i => nth i ts None <> None) /\
    length T = length rows1 /\
    (forall p i, nth_error rows1 p = Some i -> nth i ts None = Some (nth p T 0%Z)) /\
    (forall k, In k (data_keys d') <-> exists c v, get_col d k = Ok c /\ In (Some v) c) /\
    (forall k c p, k <> "datetime" -> In k (data_keys d') -> get_col d k = Ok c -> p < length rows1 ->
       filled_entry fb fw fa mx k T (map (fun i => nth i c None) rows1) p (F k p) (G k p)) /\
    exactly keep (length rows1) (fun p => forall k, In k (data_keys d') -> k <> "datetime" -> F k p <> None) /\
    (forall k, In k (data_keys d') -> k <> "datetime" -> get_col d' k = Ok (map (F k) keep)) /\
    get_col d' "datetime" = Ok (map (fun p => Some (VDatetime (nth p T 0%Z))) keep) /\
    tabular d' (length keep) /\
    is_rows_removed st = (Z.of_nat n - Z.of_nat (length keep))%Z /\
    is_cols_removed st = n_cols d - n_cols d' /\
    is_rows st = Z.of_nat (length keep) /\ is_cols st = n_cols d' /\
    is_filled st = list_sum (map (fun k => if String.eqb k "datetime" then 0
                                           else length (filter (G k) (seq 0 (length rows1)))) (data_keys d')).
Proof.
  intros fb fw fa mx d n col W Hmx HC HT HV. pose proof W as [TY [M R]].
  assert (dget "datetime" (cols d) = Some col) as HD.
  { unfold get_col in HC. destruct (dget "datetime" (cols d)); congruence. }
  destruct (mapM_time_of col HT) as [ts0 [Ets Ecol]].
  assert (stamps col = ts0) as EST.
  { rewrite Ecol. unfold stamps. rewrite map_map. rewrite <- (map_id ts0) at 2. apply map_ext. intros [t|]; auto. }
  assert (length ts0 = n) as Ln. { rewrite <- (R _ _ HD), Ecol, map_length. auto. }
  set (d1 := strip_cols d).
  assert (dget "datetime" (cols d1) = Some col) as HD1 by (apply strip_cols_exact; auto).
  assert (NoDup (dkeys (cols d1))) as ND1 by (apply typed_strip_cols; auto).
  assert (forall k c, dget k (cols d1) = Some c <-> dget k (cols d) = Some c /\ exists v, In (Some v) c) as SC
    by (intros; apply strip_cols_exact; auto).
  set (ts := interp_times mx ts0).
  assert (length ts = n) as Lts by (unfold ts, interp_times; rewrite interp_loop_length; auto).
  set (col1 := map (option_map VDatetime) ts).
  assert (@length cell col1 = n) as Lc1 by (unfold col1; rewrite map_length; auto).
  set (d2 := mkData (dset "datetime" col1 (cols d1)) (types d1) (max_len d1)).
  assert (data_keys d2 = data_keys d1) as K2.
  { unfold data_keys, d2. cbn [cols]. apply dset_keys_in. apply dget_In_key. eauto. }
  assert (forall k, k <> "datetime" -> dget k (cols d2) = dget k (cols d1)) as C2.
  { intros k Hk. unfold d2. cbn [cols]. apply dget_dset_other. auto. }
  assert (tabular d2 n) as T2.
  { split; [|split].
    - fold (data_keys d2). rewrite K2. auto.
    - exact M.
    - intros k c Hc. unfold d2 in Hc. cbn [cols] in Hc.
      destruct (string_dec k "datetime") as [->|Hk].
      + rewrite dget_dset_same in Hc. injection Hc as <-. auto.
      + rewrite dget_dset_other in Hc by auto. apply SC in Hc. apply (R k). tauto. }
  destruct (none_rows_spec col1) as [N1 [N2 N3]]. rewrite Lc1 in N2, N3.
  set (bad1 := none_rows col1) in *.
  set (rows1 := surviving n bad1) in *.
  assert (exactly rows1 n (fun i => nth i ts None <> None)) as X1.
  { eapply exactly_iff; [apply N3|]. intros i Hi. cbn beta. unfold col1.
    change (@None pyval) with (option_map VDatetime None). rewrite map_nth.
    destruct (nth i ts None); simpl; split; congruence. }
  destruct (delete_rows_tabular d2 n bad1 T2 N1 N2) as [T3 [K3 C3]]. fold rows1 in T3, C3.
  set (d3 := delete_rows d2 bad1) in *.
  assert (somes ts = map (fun i => time_or_zero (nth i ts None)) rows1) as ET.
  { apply somes_map. rewrite Lts. auto. }
  set (T := somes ts) in *.
  assert (length T = length rows1) as LT by (rewrite ET; apply map_length).
  assert (forall p i, nth_error rows1 p = Some i -> nth i ts None = Some (nth p T 0%Z)) as HTp.
  { intros p i Hp. assert (In i rows1) as Hi by (eapply nth_error_In; eauto). apply X1 in Hi.
    destruct Hi as [_ Hi]. rewrite ET.
    rewrite (nth_error_nth (map _ rows1) p 0%Z (x := time_or_zero (nth i ts None))).
    - destruct (nth i ts None); auto. congruence.
    - rewrite nth_error_map, Hp. auto. }
  assert (dget "datetime" (cols d3) = Some (map (fun t => Some (VDatetime t)) T)) as HD3.
  { rewrite C3. unfold d2. cbn [cols]. rewrite dget_dset_same. cbn [option_map]. f_equal. rewrite ET, map_map.
    apply map_ext_in. intros i Hi. apply X1 in Hi. destruct Hi as [_ Hi]. unfold col1.
    change (@None pyval) with (option_map VDatetime None). rewrite map_nth.
    destruct (nth i ts None); auto. congruence. }
  set (fc := fun (k : string) (c : list cell) =>
      if String.eqb k "datetime" then map (fun x => (x, false)) c else fill_column fb fw fa mx k T c).
  set (cs4 := map (fun kc => (fst kc, map fst (fc (fst kc) (snd kc)))) (cols d3)).
  set (d4 := mkData cs4 (types d3) (max_len d3)).
  assert (forall k, dget k cs4 = option_map (fun c => map fst (fc k c)) (dget k (cols d3))) as C4.
  { intros k. unfold cs4. apply (dget_map_snd _ _ (fun k c => map fst (fc k c))). }
  assert (data_keys d4 = data_keys d1) as K4.
  { rewrite <- K2, <- K3. unfold data_keys, d4, cs4, dkeys. cbn [cols]. rewrite map_map. auto. }
  assert (forall k c, length (fc k c) = length c) as Lfc.
  { intros k c. unfold fc, fill_column. destruct (String.eqb k "datetime"); rewrite map_length; auto.
    apply seq_length. }
  assert (tabular d4 (length rows1)) as T4.
  { split; [|split].
    - fold (data_keys d4). rewrite K4. auto.
    - apply T3.
    - intros k c Hc. unfold d4 in Hc. cbn [cols] in Hc. rewrite C4 in Hc.
      destruct (dget k (cols d3)) eqn:E; [|discriminate]. injection Hc as <-.
      rewrite map_length, Lfc. destruct T3 as [_ [_ T3]]. eauto. }
  set (isbad := fun i => existsb (fun kc => is_none (nth i (snd kc) None)) cs4).
  set (bad2 := map Z.of_nat (filter isbad (seq 0 (length T)))).
  assert (NoDup bad2) as B1.
  { apply FinFun.Injective_map_NoDup; [intros x y H; lia|]. apply NoDup_filter, seq_NoDup. }
  assert (forall i, In i bad2 -> (0 <= i < Z.of_nat (length rows1))%Z) as B2.
  { intros z Hz. apply in_map_iff in Hz. destruct Hz as [i [<- Hz]]. apply filter_In in Hz.
    destruct Hz as [Hz _]. apply in_seq in Hz. lia. }
  destruct (delete_rows_tabular d4 (length rows1) bad2 T4 B1 B2) as [T5 [K5 C5]].
  destruct (surviving_length _ _ B1 B2) as [SL2 SN2].
  destruct (surviving_length _ _ N1 N2) as [SL1 SN1]. fold rows1 in SL1.
  set (keep := surviving (length rows1) bad2) in *.
  set (d5 := delete_rows d4 bad2) in *.
  pose (F := fun k p => match dget k cs4 with Some c => nth p c None | None => None end).
  pose (G := fun k p => match dget k (cols d3) with
                        | Some c => snd (nth p (fc k c) (None, false)) | None => false end).
  assert (data_keys d5 = data_keys d1) as K51 by congruence.
  assert (forall k, In k (data_keys d1) <-> exists c v, get_col d k = Ok c /\ In (Some v) c) as KD.
  { intros k. unfold data_keys. rewrite dget_In_key. unfold get_col. split.
    - intros [c Hc]. apply SC in Hc. destruct Hc as [Hc [v Hv]]. exists c, v. rewrite Hc. auto.
    - intros [c [v [H1 H2]]]. exists c. apply SC. split; eauto. destruct (dget k (cols d)); congruence. }
  assert (forall k c, k <> "datetime" -> In k (data_keys d1) -> get_col d k = Ok c ->
            dget k (cols d3) = Some (map (fun i => nth i c None) rows1)) as C3'.
  { intros k c Hk HI Hc. rewrite C3, C2 by auto.
    unfold data_keys in HI. apply dget_In_key in HI. destruct HI as [c' Hc']. rewrite Hc'.
    apply SC in Hc'. unfold get_col in Hc. destruct Hc' as [Hc' _]. rewrite Hc' in Hc. injection Hc as ->. auto. }
  assert (dget "datetime" cs4 = Some (map (fun t => Some (VDatetime t)) T)) as HD4.
  { rewrite C4, HD3. cbn [option_map]. f_equal. unfold fc. rewrite String.eqb_refl. rewrite !map_map. auto. }
  exists d5. eexists (mkImpStats (n_cols d - n_cols d1) (Z.of_nat (length bad1 + length bad2)) _ (n_rows d5) (n_cols d5)).
  exists ts, rows1, T, F, G, keep.
  split.
  { unfold fill_local. unfold get_col. fold d1. rewrite HD1. cbn [rbind]. rewrite Ets. cbn [rbind].
    fold ts. fold col1. fold d2. fold bad1. fold d3. fold T. rewrite !map_map. cbn [fst snd].
    fold fc. fold cs4. fold d4. fold isbad. fold bad2. fold d5. reflexivity. }
  split. { intros CH. rewrite EST in *. apply interp_times_filled. auto. }
  split; auto. split; auto. split; auto.
  split. { intros k. rewrite K51. apply KD. }
  split.
  { intros k c p Hk HI Hc Hp. rewrite K51 in HI.
    pose proof (C3' k c Hk HI Hc) as E3. unfold F, G. rewrite C4, E3. cbn [option_map].
    apply fill_entry_spec. unfold fc. destruct (String.eqb_spec k "datetime"); [contradiction|].
    set (c' := map (fun i => nth i c None) rows1).
    assert (p < length c') as Hp' by (unfold c'; rewrite map_length; auto).
    assert (nth p (fill_column fb fw fa mx k T c') (None, false) = fill_entry fb fw fa mx k T c' p) as E.
    { unfold fill_column. rewrite nth_indep with (d' := fill_entry fb fw fa mx k T c' 0)
        by (rewrite map_length, seq_length; auto).
      rewrite map_nth, seq_nth; auto. }
    change (@None pyval) with (fst (@None pyval, false)) at 1. rewrite map_nth. rewrite E.
    destruct (fill_entry fb fw fa mx k T c' p); auto. }
  split.
  { eapply exactly_iff; [apply surviving_exactly|]. intros p Hp. cbn beta.
    assert (In (Z.of_nat p) bad2 <-> isbad p = true) as ->.
    { unfold bad2. rewrite in_map_iff. split.
      - intros [q [Eq Hq]]. apply Nat2Z.inj in Eq. subst. apply filter_In in Hq. tauto.
      - intros H. exists p. split; auto. apply filter_In. split; auto. apply in_seq. lia. }
    unfold isbad. split.
    - intros H k HI Hk HN. apply H. apply existsb_exists. unfold F in HN. rewrite K51, <- K4 in HI.
      unfold data_keys in HI. apply dget_In_key in HI. destruct HI as [c Hc]. unfold d4 in Hc. cbn [cols] in Hc.
      rewrite Hc in HN. exists (k, c). split; [apply dget_In; auto|]. exact (f_equal is_none HN).
    - intros H HE. apply existsb_exists in HE. destruct HE as [[k c] [H1 H2]]. simpl in H2.
      destruct T4 as [ND4 _]. unfold d4 in ND4. cbn [cols] in ND4.
      assert (dget k cs4 = Some c) as Hc by (apply NoDup_dget; auto).
      assert (nth p c None = None) as HN.
      { assert (forall x : cell, is_none x = true -> x = None) as IN by (intros [x|]; [discriminate|auto]).
        apply IN. exact H2. }
      destruct (string_dec k "datetime") as [->|Hk].
      + rewrite HD4 in Hc. injection Hc as <-.
        rewrite nth_indep with (d' := Some (VDatetime 0)) in HN by (rewrite map_length; lia).
        rewrite (map_nth (fun t => Some (VDatetime t))) in HN. discriminate.
      + apply (H k); auto.
        * rewrite K51, <- K4. unfold data_keys, d4. cbn [cols]. apply dget_In_key. eauto.
        * unfold F. rewrite Hc. auto. }
  split.
  { intros k HI Hk. unfold get_col. rewrite C5. unfold F. rewrite K51, <- K4 in HI.
    unfold data_keys in HI. apply dget_In_key in HI. destruct HI as [c Hc]. unfold d4 in *. cbn [cols] in *.
    rewrite Hc. auto. }
  split.
  { unfold get_col. rewrite C5. unfold d4. cbn [cols]. rewrite HD4. cbn [option_map]. f_equal.
    apply map_ext_in. intros p Hp. assert (p < length T) as HpT.
    { apply surviving_exactly in Hp. lia. }
    rewrite nth_indep with (d' := Some (VDatetime 0)) by (rewrite map_length; auto).
    apply (map_nth (fun t => Some (VDatetime t))). }
  split; auto.
  cbn [is_rows_removed is_cols_removed is_rows is_cols is_filled].
  assert (n_cols d5 = n_cols d1) as NC.
  { unfold n_cols. unfold data_keys, dkeys in K51. apply (f_equal (@length string)) in K51.
    rewrite !map_length in K51. auto. }
  split; [lia|]. split; [congruence|]. split; [apply T5|]. split; auto.
  rewrite K5. unfold data_keys, d4, dkeys, cs4. cbn [cols]. rewrite !map_map. cbn [fst snd]. f_equal.
  apply map_ext_in. intros [k c] Hkc. cbn [fst snd]. fold fc.
  assert (dget k (cols d3) = Some c) as Hc by (apply NoDup_dget; auto; apply T3).
  assert (length c = length rows1) as Lc by (destruct T3 as [_ [_ T3]]; eauto).
  unfold G. rewrite Hc. pose proof (Lfc k c) as Lf. rewrite Lc in Lf. fold (fc k c).
  change (length (filter snd (fc k c)) =
          if String.eqb k "datetime" then 0
          else length (filter (fun p => snd (nth p (fc k c) (None, false))) (seq 0 (length rows1)))).
  destruct (String.eqb k "datetime") eqn:Ek.
  - unfold fc. rewrite Ek. clear. induction c; simpl; auto.
  - pose proof (f_equal (@length _) (filter_map_nth (cell * bool) (None, false) snd (fc k c))) as Q.
    rewrite map_length in Q. rewrite <- Lf. symmetry. exact Q.
Qed.
Print Assumptions fill_local_result.

(** C53 in short: no None is left, the rows are rows of the input in their order and keep
    every measured value. *)
Theorem fill_local_keeps : forall fb fw fa mx d n col,
  well_formed d n -> (0 < mx)%Z -> get_col d "datetime" = Ok col ->
  (forall v, In (Some v) col -> exists t, v = VDatetime t) -> (exists v, In (Some v) col) ->
  exists d' st orig, fill_local fb fw fa mx d = Ok (d', st) /\
    StronglySorted lt orig /\ (forall i, In i orig -> i < n) /\ tabular d' (length orig) /\
    (forall k c, get_col d' k = Ok c -> ~ In None c) /\
    (forall k c c' p i v, k <> "datetime" -> get_col d k = Ok c -> get_col d' k = Ok c' ->
       nth_error orig p = Some i -> nth_error c i = Some (Some v) -> nth_error c' p = Some (Some v)) /\
    (chronological (stamps col) -> forall c' p i v, get_col d' "datetime" = Ok c' ->
       nth_error orig p = Some i -> nth_error col i = Some (Some v) -> nth_error c' p = Some (Some v)).
Proof.
  intros fb fw fa mx d n col W Hmx HC HT HV.
  destruct (fill_local_result fb fw fa mx d n col W Hmx HC HT HV)
    as [d' [st [ts [rows1 [T [F [G [keep [E [TF [X1 [LT [HTp [KD [FE [XK [GC [GD [TB _]]]]]]]]]]]]]]]]]]].
  exists d', st, (map (fun p => nth p rows1 0) keep).
  assert (forall p, In p keep -> p < length rows1) as KL by (intros p Hp; apply XK in Hp; tauto).
  assert (forall a b, a < b -> b < length rows1 -> nth a rows1 0 < nth b rows1 0) as MON.
  { destruct X1 as [S _]. clear - S. induction S as [|x l S IH FA]; intros a b Hab Hb; simpl in Hb; [lia|].
    destruct b as [|b]; [lia|]. destruct a as [|a]; simpl.
    - rewrite Forall_forall in FA. apply FA, nth_In. lia.
    - apply IH; lia. }
  assert (forall p q, nth_error (map (fun p => nth p rows1 0) keep) p = Some q ->
            exists p0, nth_error keep p = Some p0 /\ nth_error rows1 p0 = Some q) as NE.
  { intros p q H. rewrite nth_error_map in H. destruct (nth_error keep p) as [p0|] eqn:Ep; [|discriminate].
    simpl in H. injection H as <-. exists p0. split; auto. apply nth_error_nth'. apply KL. eapply nth_error_In; eauto. }
  split; auto. split; [|split; [|split; [|split; [|split]]]].
  - destruct XK as [SK _]. clear - SK MON KL. induction SK as [|x l S IH FA]; simpl; constructor.
    + apply IH. intros p Hp. apply KL. simpl; auto.
    + apply Forall_forall. intros y Hy. apply in_map_iff in Hy. destruct Hy as [z [<- Hz]].
      apply MON. { rewrite Forall_forall in FA. auto. } apply KL. simpl; auto.
  - intros i Hi. apply in_map_iff in Hi. destruct Hi as [p [<- Hp]]. apply X1, nth_In, KL. auto.
  - rewrite map_length. auto.
  - intros k c Hc HI. pose proof (get_col_key _ _ _ Hc) as Hk.
    destruct (string_dec k "datetime") as [->|Hkd].
    + rewrite GD in Hc. injection Hc as <-. apply in_map_iff in HI. destruct HI as [p [HI _]]. discriminate.
    + rewrite GC in Hc by auto. injection Hc as <-. apply in_map_iff in HI. destruct HI as [p [HI Hp]].
      apply XK in Hp. destruct Hp as [_ Hp]. apply (Hp k); auto.
  - intros k c c' p i v Hk Hc Hc' Hp Hi. apply NE in Hp. destruct Hp as [p0 [P1 P2]].
    pose proof (get_col_key _ _ _ Hc') as HI. rewrite GC in Hc' by auto. injection Hc' as <-.
    rewrite nth_error_map, P1. cbn [option_map]. f_equal.
    assert (p0 < length rows1) as L0 by (apply KL; eapply nth_error_In; eauto).
    specialize (FE k c p0 Hk HI Hc L0).
    assert (nth p0 (map (fun i => nth i c None) rows1) None = Some v) as EV.
    { apply nth_error_nth. rewrite nth_error_map, P2. cbn [option_map]. f_equal.
      exact (nth_error_nth c i None Hi). }
    inversion FE; try congruence.
  - intros CH c' p i v Hc' Hp Hi. apply NE in Hp. destruct Hp as [p0 [P1 P2]].
    rewrite GD in Hc'. injection Hc' as <-. rewrite nth_error_map, P1. cbn [option_map]. f_equal.
    destruct (HT v) as [t ->]. { eapply nth_error_In; eauto. } do 2 f_equal.
    destruct (TF CH) as [_ [KP _]]. specialize (KP i t).
    specialize (HTp p0 i P2). 
    assert (nth_error ts i = Some (Some t)) as E2.
    { apply KP. unfold stamps. rewrite nth_error_map.
      match goal with |- option_map ?f _ = _ => exact (f_equal (option_map f) Hi) end. }
    apply nth_error_nth with (d := None) in E2. congruence.
Qed.
Print Assumptions fill_local_keeps.

Definition minute : Z := 60000000%Z.
Definition stamp (m : Z) : cell := Some (VDatetime (m * minute)).
Definition keep_value : string -> pyval -> Q -> cell := fun _ v _ => Some v.
Definition keep_left : string -> pyval -> pyval -> Q -> cell := fun _ v _ _ => Some v.

(** Five rows: a missing time stamp between close ones, gaps and an empty column. *)
Definition gappy : Data :=
  mkData [("datetime", [stamp 0; None; stamp 1; stamp 2; stamp 9]);
          ("bsp", [None; Some (VInt 5); None; Some (VInt 6); None]);
          ("void", [None; None; None; None; None])]
         [("datetime", Some TDatetime); ("bsp", Some TInt); ("void", None)] 5.

Example fill_local_meets : well_formed gappy 5 /\
  (exists col, get_col gappy "datetime" = Ok col /\ chronological (stamps col) /\
     (forall v, In (Some v) col -> exists t, v = VDatetime t) /\ exists v, In (Some v) col) /\
  fill_local keep_value keep_left keep_value (2 * minute) gappy =
    Ok (mkData [("datetime", [stamp 0; Some (VDatetime 30000000); stamp 1; stamp 2]);
                ("bsp", [Some (VInt 5); Some (VInt 5); Some (VInt 5); Some (VInt 6)])]
         [("datetime", Some TDatetime); ("bsp", Some TInt); ("void", None)] 4,
        mkImpStats 1 1 2 4 2).
Proof.
  split; [apply wfb_ok; vm_compute; reflexivity|split; [|vm_compute; reflexivity]].
  eexists. split; [reflexivity|]. split; [|split].
  - intros a b ta tb Hab Ha Hb.
    do 5 (destruct a as [|a]; [do 5 (destruct b as [|b]; [cbn in Ha, Hb; try discriminate; injection Ha as <-;
        injection Hb as <-; unfold minute; lia|]); destruct b; discriminate|]).
    destruct a; discriminate.
  - intros v Hv. simpl in Hv. unfold stamp in Hv.
    repeat (destruct Hv as [Hv|Hv]; [try discriminate; injection Hv as <-; eauto|]). contradiction.
  - eexists. simpl. left. reflexivity.
Qed.

(** C53, refuted part: after one jump larger than the limit no later time stamp is
    interpolated, although its neighbours are close: here the stamps are 0, 9, none and 10
    minutes. *)
Theorem fill_local_jump_refuted : exists d n col a b ta tb j d' st c',
  well_formed d n /\ get_col d "datetime" = Ok col /\ neighbours (stamps col) a b ta tb /\ a < j < b /\
  (tb - ta <= 2 * minute)%Z /\ (forall k c, get_col d k = Ok c -> k <> "datetime" -> ~ In None c) /\
  fill_local keep_value keep_left keep_value (2 * minute) d = Ok (d', st) /\
  get_col d' "datetime" = Ok c' /\ length c' < length col.
Proof.
  exists (mkData [("datetime", [stamp 0; stamp 9; None; stamp 10]);
                  ("bsp", [Some (VInt 5); Some (VInt 5); Some (VInt 5); Some (VInt 6)])]
            [("datetime", Some TDatetime); ("bsp", Some TInt)] 4), 4.
  eexists. exists 1, 3. eexists. eexists. exists 2. eexists. eexists. eexists.
  split; [apply wfb_ok; vm_compute; reflexivity|]. split; [reflexivity|].
  split. { split; [lia|]. split; [reflexivity|]. split; [reflexivity|].
           intros j Hj. replace j with 2 by lia. reflexivity. }
  split; [lia|]. split; [unfold minute; lia|]. split.
  - intros k c Hc Hk. unfold get_col in Hc. cbn [cols dget] in Hc.
    destruct (String.eqb_spec "datetime" k); [congruence|].
    destruct (String.eqb_spec "bsp" k); [|discriminate]. injection Hc as <-. simpl. intuition discriminate.
  - split; [vm_compute; reflexivity|]. split; [vm_compute; reflexivity|]. simpl. lia.
Qed.
Print Assumptions fill_local_jump_refuted.

(** C53, refuted part: without chronological order a measured time stamp can be
    overwritten: with the stamps 0, 9 and 1 minutes the second becomes 30 seconds. *)
Theorem fill_local_overwrites_refuted : exists d n d' st c' v,
  well_formed d n /\ fill_local keep_value keep_left keep_value (2 * minute) d = Ok (d', st) /\
  get_col d "datetime" = Ok [stamp 0; v; stamp 1] /\ v <> None /\
  get_col d' "datetime" = Ok [stamp 0; c'; stamp 1] /\ c' <> v.
Proof.
  exists (mkData [("datetime", [stamp 0; stamp 9; stamp 1])] [("datetime", Some TDatetime)] 3), 3.
  eexists. eexists. exists (Some (VDatetime 30000000)). eexists.
  split; [apply wfb_ok; vm_compute; reflexivity|]. split; [vm_compute; reflexivity|].
  split; [reflexivity|]. split; [discriminate|]. split; [reflexivity|]. discriminate.
Qed.
Print Assumptions fill_local_overwrites_refuted.

(** Without time stamps nothing can be imputed. *)
Theorem fill_local_raises : forall fb fw fa mx d n, well_formed d n ->
  (forall col v, get_col d "datetime" = Ok col -> ~ In (Some v) col) ->
  fill_local fb fw fa mx d = Raise KeyError.
Proof.
  intros fb fw fa mx d n [TY _] H. unfold fill_local, get_col.
  destruct (dget "datetime" (cols (strip_cols d))) as [c|] eqn:E; auto.
  apply strip_cols_exact in E; auto. destruct E as [E [v Hv]]. exfalso. apply (H c v); auto.
  unfold get_col. rewrite E. auto.
Qed.
Print Assumptions fill_local_raises.

Example fill_local_raises_meets : well_formed sample_table 3 /\
  fill_local keep_value keep_left keep_value minute sample_table = Raise KeyError.
Proof. split; [apply wfb_ok; vm_compute; reflexivity|vm_compute; reflexivity]. Qed.
