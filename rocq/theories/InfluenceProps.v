(** * Influence models: properties C74, C94, C95 *)

From Coq Require Import String List Bool Arith ZArith Reals Lra Lia.
From Verif Require Import Py Num ListX Dict Trig WindModel WindSpec WindProofs WindProps BaseModel BaseProps
  InterpProofs InfluenceModel.
Import ListNotations.
Open Scope string_scope.
Open Scope list_scope.
Open Scope R_scope.

(** ** Vocabulary of the statements *)

(** The data hold the lists [l] under key [k]. *)
Definition holds (d : idata) (k : string) (l : list R) : Prop := dget k d = Some (PyList l).

(** The boat speeds: those under "BSP", or under "SOG" if there is no "BSP". *)
Definition boat_speeds (d : idata) (l : list R) : Prop :=
  holds d "BSP" l \/ (dget "BSP" d = None /\ holds d "SOG" l).

(** Angles agreeing modulo full turns. *)
Definition same_direction (a b : R) : Prop := exists k, a = b + 360 * IZR k.

Lemma same_direction_nmod : forall a, same_direction (nmod a 360) a.
Proof.
  intros a. destruct (nmod_cong a 360) as [k E]. exists (- k)%Z. rewrite opp_IZR. lra.
Qed.

Lemma dmem_get : forall (d : idata) k v, dget k d = Some v -> dmem k d = true.
Proof. intros d k v H. unfold dmem. rewrite H. reflexivity. Qed.

Lemma dmem_none : forall (d : idata) k, dget k d = None -> dmem k d = false.
Proof. intros d k H. unfold dmem. rewrite H. reflexivity. Qed.

Lemma speed_key : forall d l, boat_speeds d l ->
  iget (if dmem "BSP" d then "BSP" else "SOG") d = Ok (PyList l).
Proof.
  intros d l [H|[H1 H2]]; unfold iget.
  - rewrite (dmem_get _ _ _ H), H. reflexivity.
  - rewrite (dmem_none _ _ H1), H2. reflexivity.
Qed.

Lemma true_list : forall d ws wa bs,
  holds d "TWS" ws -> holds d "TWA" wa -> boat_speeds d bs ->
  length ws = length wa -> length wa = length bs ->
  get_true_wind_data d =
  Ok (W2 (map (fun p => let '(s, a, b) := p in (s, Some a, b)) (combine (combine ws wa) bs))).
Proof.
  intros d ws wa bs H1 H2 H3 L1 L2. unfold get_true_wind_data.
  rewrite (dmem_get _ _ _ H1), (dmem_get _ _ _ H2), (speed_key _ _ H3).
  unfold holds in *. unfold iget. rewrite H1, H2. cbn [andb rbind stack3 column].
  unfold stack3. cbn [column]. rewrite L1, L2, Nat.eqb_refl. reflexivity.
Qed.

Lemma combine3_nth : forall (a b c : list R) i,
  length a = length b -> length b = length c -> (i < length a)%nat ->
  nth_error (combine (combine a b) c) i = Some (nth i a 0, nth i b 0, nth i c 0).
Proof.
  induction a as [|x a IH]; intros [|y b] [|z c] i L1 L2 Hi; simpl in *; try lia.
  destruct i; simpl; auto. apply IH; lia.
Qed.

Lemma combine3_length : forall (a b c : list R),
  length a = length b -> length b = length c -> length (combine (combine a b) c) = length a.
Proof. intros. rewrite !combine_length. lia. Qed.

(** C74.  With true wind lists [IdentityInfluenceModel.remove_influence]
    delivers one row (TWS, TWA, boat speed) per record, unchanged. *)
Theorem identity_remove_true_wind : forall d ws wa bs,
  holds d "TWS" ws -> holds d "TWA" wa -> boat_speeds d bs ->
  length ws = length wa -> length wa = length bs ->
  exists rows, identity_remove d = Ok (W2 rows) /\ length rows = length ws /\
    forall i, (i < length ws)%nat ->
      nth_error rows i = Some (nth i ws 0, Some (nth i wa 0), nth i bs 0).
Proof.
  intros d ws wa bs H1 H2 H3 L1 L2. unfold identity_remove.
  rewrite (true_list d ws wa bs) by assumption.
  eexists. split; [reflexivity|]. rewrite map_length, combine3_length by assumption.
  split; [reflexivity|]. intros i Hi. rewrite nth_error_map, combine3_nth by assumption. reflexivity.
Qed.
Print Assumptions identity_remove_true_wind.

(** C74.  Without true wind the apparent wind is converted: row i is the
    vector difference of apparent wind and boat speed. *)
Theorem identity_remove_apparent_wind : forall d ws wa bs,
  (dget "TWS" d = None \/ dget "TWA" d = None) ->
  holds d "AWS" ws -> holds d "AWA" wa -> boat_speeds d bs ->
  length ws = length wa -> length wa = length bs ->
  (forall s, In s ws -> 0 <= s) ->
  exists rows, identity_remove d = Ok (W2 rows) /\ length rows = length ws /\
    forall i, (i < length ws)%nat -> exists s a,
      nth_error rows i = Some (s, a, nth i bs 0) /\
      match a with
      | Some a => 0 <= a <= 360 /\
          along s a = along (nth i ws 0) (nth i wa 0) - nth i bs 0 /\
          across s a = across (nth i ws 0) (nth i wa 0)
      | None => s = 0 /\ along (nth i ws 0) (nth i wa 0) = nth i bs 0 /\
          across (nth i ws 0) (nth i wa 0) = 0
      end.
Proof.
  intros d ws wa bs N H1 H2 H3 L1 L2 P. unfold identity_remove, get_true_wind_data.
  assert (dmem "TWA" d && dmem "TWS" d = false) as ->.
  { destruct N as [N|N]; rewrite (dmem_none _ _ N); [apply andb_false_r|reflexivity]. }
  rewrite (dmem_get _ _ _ H1), (dmem_get _ _ _ H2), (speed_key _ _ H3).
  unfold holds in *. unfold iget. rewrite H1, H2. cbn [andb rbind].
  unfold stack3. cbn [column].
  rewrite (proj2 (Nat.eqb_eq _ _) L1), (proj2 (Nat.eqb_eq _ _) L2). cbn [andb rbind].
  unfold convert_apparent_wind_to_true. rewrite conversion_is_rowwise.
  - cbn [rbind]. eexists. split; [reflexivity|].
    rewrite !map_length, combine3_length by assumption. split; [reflexivity|].
    intros i Hi. rewrite !nth_error_map, combine3_nth by assumption. cbn [option_map row_of nth].
    destruct (convert_row TO_TRUE (nth i ws 0) (nth i wa 0) (nth i bs 0)) as [[s a] b] eqn:E.
    assert (0 <= nth i ws 0) as Pi by (apply P, nth_In; assumption).
    destruct a as [a|].
    + destruct (conversion_is_vector_sum _ _ _ _ _ _ _ Pi E) as [-> [_ [A [B [C _]]]]].
      exists s, (Some a). split; [reflexivity|]. split; [assumption|]. split; [lra|assumption].
    + apply conversion_undefined_iff in E. destruct E as [-> [-> [A B]]].
      exists 0, None. split; [reflexivity|]. split; [reflexivity|]. split; [lra|assumption].
  - intros r Hr. apply in_map_iff in Hr. destruct Hr as [[[s a] b] [<- Hr]]. cbn [row_of nth].
    apply in_combine_l, in_combine_l in Hr. auto.
Qed.
Print Assumptions identity_remove_apparent_wind.

(** C74.  Data with neither kind of wind are refused with ValueError; without
    a boat speed KeyError. *)
Theorem remove_refuses : forall shift d,
  ((dget "TWS" d = None \/ dget "TWA" d = None) -> (dget "AWS" d = None \/ dget "AWA" d = None) ->
     identity_remove d = Raise ValueError /\ wac_remove shift d = Raise ValueError) /\
  (dget "BSP" d = None -> dget "SOG" d = None ->
   (dget "TWS" d <> None /\ dget "TWA" d <> None) \/ (dget "AWS" d <> None /\ dget "AWA" d <> None) ->
     identity_remove d = Raise KeyError /\ wac_remove shift d = Raise KeyError).
Proof.
  intros shift d.
  assert (forall x y : string, (dget x d = None \/ dget y d = None) -> dmem y d && dmem x d = false) as F.
  { intros x y [N|N]; rewrite (dmem_none _ _ N); [apply andb_false_r|reflexivity]. }
  split.
  - intros N1 N2. unfold wac_remove, identity_remove, get_true_wind_data.
    rewrite (F _ _ N1), (F _ _ N2). split; reflexivity.
  - intros N1 N2 W.
    assert (get_true_wind_data d = Raise KeyError) as H.
    2: { unfold wac_remove, identity_remove. rewrite H. split; reflexivity. }
    unfold get_true_wind_data. rewrite (dmem_none _ _ N1). unfold dmem, iget. rewrite N2.
    destruct (dget "TWA" d), (dget "TWS" d), (dget "AWA" d), (dget "AWS" d); cbn [andb rbind];
      try reflexivity; destruct W as [[? ?]|[? ?]]; congruence.
Qed.
Print Assumptions remove_refuses.

(** Two records with apparent wind only. *)
Definition apparent_example : idata :=
  [("AWS", PyList [4; 10]); ("AWA", PyList [90; 400]); ("SOG", PyList [3; 2])].

Example remove_example :
  (exists rows, identity_remove apparent_example = Ok (W2 rows) /\ length rows = 2%nat) /\
  identity_remove [("TWS", PyList [4; 10]); ("TWA", PyList [90; 400]); ("SOG", PyList [3; 2]); ("BSP", PyList [5; 6])]
  = Ok (W2 [(4, Some 90, 5); (10, Some 400, 6)]) /\
  identity_remove [("TWS", PyList [4; 10]); ("AWA", PyList [90; 400]); ("SOG", PyList [3; 2])] = Raise ValueError /\
  identity_remove [("TWS", PyList [4; 10]); ("TWA", PyList [90; 400])] = Raise KeyError.
Proof.
  split; [|split; [|split]; reflexivity].
  destruct (identity_remove_apparent_wind apparent_example [4; 10] [90; 400] [3; 2]) as [rows [A [B _]]].
  - left; reflexivity.
  - reflexivity.
  - reflexivity.
  - right; split; reflexivity.
  - reflexivity.
  - reflexivity.
  - intros s [<-|[<-|[]]]; lra.
  - exists rows. split; assumption.
Qed.

Lemma mapM_zip_ok : forall (pd : R -> R -> result R) f ws wa vs, length ws = length wa ->
  (mapM (fun p => pd (fst p) (f (snd p))) (combine ws wa) = Ok vs <->
   length vs = length ws /\
   forall i, (i < length ws)%nat -> pd (nth i ws 0) (f (nth i wa 0)) = Ok (nth i vs 0)).
Proof.
  intros pd f. induction ws as [|w ws IH]; intros [|a wa] vs L; simpl in L; try lia.
  - cbn. split.
    + intros E. inversion E. subst. split; [reflexivity|]. simpl. intros; lia.
    + intros [E _]. destruct vs; [reflexivity|discriminate].
  - cbn [combine mapM fst snd rbind]. specialize (IH wa).
    destruct (pd w (f a)) as [v|e] eqn:E; cbn [rbind].
    + destruct (mapM (fun p => pd (fst p) (f (snd p))) (combine ws wa)) as [l|e] eqn:M; cbn [rbind].
      * split.
        -- intros X. inversion X. subst vs.
           destruct (IH l ltac:(lia)) as [A _]. destruct (A eq_refl) as [B C].
           split; [simpl; lia|]. intros [|i] Hi; [assumption|]. simpl in *. apply C. lia.
        -- intros [A B]. destruct vs as [|v' vs]; [discriminate|].
           pose proof (B 0%nat ltac:(simpl; lia)) as B0. simpl in B0. rewrite E in B0. inversion B0. subst v'.
           destruct (IH vs ltac:(lia)) as [_ C].
           assert (Ok l = Ok vs) as X.
           { apply C. simpl in A. split; [lia|]. intros i Hi. apply (B (S i)). simpl; lia. }
           inversion X. reflexivity.
      * split; [discriminate|]. intros [A B]. destruct vs as [|v' vs]; [discriminate|].
        destruct (IH vs ltac:(lia)) as [_ C].
        assert (Raise e = Ok vs) as X; [|discriminate].
        apply C. simpl in A. split; [lia|]. intros i Hi. apply (B (S i)). simpl; lia.
    + split; [discriminate|]. intros [A B]. specialize (B 0%nat ltac:(simpl; lia)). simpl in B.
      rewrite E in B. discriminate.
Qed.

(** C74.  [IdentityInfluenceModel.add_influence] evaluates the diagram at the
    given winds, for a single record and for every record of lists. *)
Theorem identity_add_evaluates : forall pd pda d,
  (forall ws wa, dget "TWS" d = Some (Single ws) -> dget "TWA" d = Some (Single wa) ->
     identity_add pd pda d = rbind (pd ws wa) (fun v => Ok (SpOne v))) /\
  (forall ws wa vs, holds d "TWS" ws -> holds d "TWA" wa -> length ws = length wa ->
     (identity_add pd pda d = Ok (SpList vs) <->
      length vs = length ws /\
      forall i, (i < length ws)%nat -> pd (nth i ws 0) (nth i wa 0) = Ok (nth i vs 0))).
Proof.
  intros pd pda d. split.
  - intros ws wa H1 H2. unfold identity_add, iget. rewrite H1, H2. reflexivity.
  - intros ws wa vs H1 H2 L. unfold identity_add, iget. unfold holds in *. rewrite H1, H2.
    cbn [rbind pd_zip]. rewrite <- (mapM_zip_ok pd (fun a => a) ws wa vs L).
    destruct (mapM _ _) as [l|e]; cbn [rbind]; split; intros X; inversion X; reflexivity.
Qed.
Print Assumptions identity_add_evaluates.

(** C74, lists.  [WindAngleCorrectingInfluenceModel.add_influence] evaluates
    the diagram at wind angle + shift, taken in [0, 360).  Full statement
    (single records too): false, see [wac_single_record_refuted]. *)
Theorem wac_add_lists_partial : forall pd pda shift d ws wa vs,
  holds d "TWS" ws \/ dget "TWS" d = Some (NpArray ws) ->
  holds d "TWA" wa \/ dget "TWA" d = Some (NpArray wa) ->
  length ws = length wa ->
  (wac_add pd pda shift d = Ok (SpList vs) <->
   length vs = length ws /\
   forall i, (i < length ws)%nat -> exists a,
     0 <= a < 360 /\ same_direction a (nth i wa 0 + shift) /\
     pd (nth i ws 0) a = Ok (nth i vs 0)).
Proof.
  intros pd pda shift d ws wa vs H1 H2 L. unfold wac_add, iget.
  assert (forall ws' wa', (ws' = PyList ws \/ ws' = NpArray ws) -> (wa' = PyList wa \/ wa' = NpArray wa) ->
    (match ws' with
     | PyList ws0 | NpArray ws0 => pd_zip pd (fun a => nmod (a + shift) 360) ws0 wa'
     | Single _ => pd_any pd pda ws' wa'
     end = Ok (SpList vs) <->
     length vs = length ws /\
     forall i, (i < length ws)%nat -> exists a,
       0 <= a < 360 /\ same_direction a (nth i wa 0 + shift) /\ pd (nth i ws 0) a = Ok (nth i vs 0))) as K.
  { intros ws' wa' W1 W2.
    assert (match ws' with
     | PyList ws0 | NpArray ws0 => pd_zip pd (fun a => nmod (a + shift) 360) ws0 wa'
     | Single _ => pd_any pd pda ws' wa'
     end = rbind (mapM (fun p => pd (fst p) (nmod (snd p + shift) 360)) (combine ws wa)) (fun l => Ok (SpList l))) as ->
      by (destruct W1 as [-> | ->], W2 as [-> | ->]; reflexivity).
    pose proof (mapM_zip_ok pd (fun a => nmod (a + shift) 360) ws wa vs L) as M.
    destruct (mapM _ _) as [l|e]; cbn [rbind].
    - transitivity (@Ok (list R) l = Ok vs).
      + split; intros X; inversion X; reflexivity.
      + rewrite M. apply and_iff_compat_l. split; intros K i Hi; specialize (K i Hi).
        * exists (nmod (nth i wa 0 + shift) 360). split; [apply nmod_range; lra|].
          split; [apply same_direction_nmod|assumption].
        * destruct K as [a [A [[k B] C]]].
          rewrite (nmod_unique _ 360 a (- k)%Z); [assumption|lra| |assumption]. rewrite opp_IZR. lra.
    - split; [discriminate|]. intros K. exfalso.
      assert (@Raise (list R) e = Ok vs); [|discriminate]. apply M. destruct K as [K1 K2].
      split; [assumption|]. intros i Hi. destruct (K2 i Hi) as [a [A [[k B] C]]].
      rewrite (nmod_unique _ 360 a (- k)%Z); [assumption|lra| |assumption]. rewrite opp_IZR. lra. }
  unfold holds in *.
  destruct H1 as [-> | ->], H2 as [-> | ->]; cbn [rbind].
  - apply (K (PyList ws) (PyList wa)); auto.
  - apply (K (PyList ws) (NpArray wa)); auto.
  - apply (K (NpArray ws) (PyList wa)); auto.
  - apply (K (NpArray ws) (NpArray wa)); auto.
Qed.
Print Assumptions wac_add_lists_partial.

(** C74, lists.  Removing subtracts the shift from the angle, in [0, 360), and
    keeps wind and boat speed.  Full statement (single records too): false,
    see [wac_single_record_refuted]. *)
Theorem wac_remove_lists_partial : forall shift d rows,
  identity_remove d = Ok (W2 rows) ->
  exists rows', wac_remove shift d = Ok (W2 rows') /\ length rows' = length rows /\
    forall i s a b, nth_error rows i = Some (s, a, b) ->
      exists a', nth_error rows' i = Some (s, a', b) /\
        match a, a' with
        | Some a, Some a' => 0 <= a' < 360 /\ same_direction a' (a - shift)
        | None, None => True
        | _, _ => False
        end.
Proof.
  intros shift d rows E. unfold wac_remove. unfold identity_remove in E. rewrite E. cbn [rbind].
  eexists. split; [reflexivity|]. rewrite map_length. split; [reflexivity|].
  intros i s a b N. rewrite nth_error_map. unfold out_row in *. rewrite N. cbn [option_map].
  eexists. split; [reflexivity|]. destruct a as [a|]; cbn [option_map]; [|exact I].
  split; [apply nmod_range; lra|apply same_direction_nmod].
Qed.
Print Assumptions wac_remove_lists_partial.

(** C74 for single records: the shift is ignored when the influence is added,
    and removing the influence raises IndexError, though single records are
    documented input. *)
Theorem wac_single_record_refuted : exists (pd : R -> R -> result R) pda shift d ws wa bs,
  dget "TWS" d = Some (Single ws) /\ dget "TWA" d = Some (Single wa) /\ dget "BSP" d = Some (Single bs) /\
  (* lists of length one *)
  wac_add pd pda shift [("TWS", PyList [ws]); ("TWA", PyList [wa])] = Ok (SpList [100]) /\
  wac_add pd pda shift d = Ok (SpOne 90) /\
  wac_remove shift d = Raise IndexError.
Proof.
  exists (fun _ a => Ok a), (fun _ _ => Raise TypeError), 10,
    [("TWS", Single 5); ("TWA", Single 90); ("BSP", Single 3)], 5, 90, 3.
  repeat (split; [reflexivity|]). split; [|split; reflexivity].
  unfold wac_add. cbn. rewrite nmod_small by lra. repeat f_equal. lra.
Qed.
Print Assumptions wac_single_record_refuted.

Example wac_lists_example :
  wac_add (fun s a => Ok (s + a)) (fun _ _ => Raise TypeError) 20
    [("TWS", PyList [5; 6]); ("TWA", PyList [350; 30])] = Ok (SpList [15; 56]) /\
  wac_remove 20 [("TWS", PyList [5; 6]); ("TWA", PyList [10; 30]); ("BSP", PyList [1; 2])]
    = Ok (W2 [(5, Some 350, 1); (6, Some 10, 2)]).
Proof.
  split.
  - unfold wac_add. cbn. rewrite (nmod_unique (350 + 20) 360 10 1), (nmod_small (30 + 20)) by lra.
    repeat f_equal; lra.
  - unfold wac_remove. cbn. rewrite (nmod_unique (10 - 20) 360 350 (-1)), (nmod_small (30 - 20)) by lra.
    repeat f_equal; lra.
Qed.

(** C94.  Removing the influence and adding it again refers to the recorded
    direction: the diagram is evaluated at the recorded angle. *)
Theorem wac_add_undoes_remove : forall pd pda shift d ws wa bs rows,
  holds d "TWS" ws -> holds d "TWA" wa -> boat_speeds d bs ->
  length ws = length wa -> length wa = length bs ->
  (forall a, In a wa -> 0 <= a < 360) ->
  wac_remove shift d = Ok (W2 rows) ->
  exists was, map snd (map fst rows) = map Some was /\
  forall vs, wac_add pd pda shift [("TWS", PyList (map fst (map fst rows))); ("TWA", PyList was)] = Ok (SpList vs) <->
             identity_add pd pda d = Ok (SpList vs).
Proof.
  intros pd pda shift d ws wa bs rows H1 H2 H3 L1 L2 P E.
  unfold wac_remove in E. rewrite (true_list d ws wa bs) in E by assumption. cbn [rbind] in E.
  injection E as E. subst rows. exists (map (fun a => nmod (a - shift) 360) wa).
  assert (forall bs' ws' wa' : list R, length ws' = length wa' -> length wa' = length bs' ->
    map snd (map fst (map (fun r : out_row => let '(s, a, b) := r in
       (s, option_map (fun x => nmod (x - shift) 360) a, b))
       (map (fun p : R * R * R => let '(s, a, b) := p in (s, Some a, b)) (combine (combine ws' wa') bs'))))
    = map Some (map (fun a => nmod (a - shift) 360) wa') /\
    map fst (map fst (map (fun r : out_row => let '(s, a, b) := r in
       (s, option_map (fun x => nmod (x - shift) 360) a, b))
       (map (fun p : R * R * R => let '(s, a, b) := p in (s, Some a, b)) (combine (combine ws' wa') bs'))))
    = ws') as K.
  { induction bs' as [|b bs' IH]; intros [|s ws'] [|a wa'] M1 M2; simpl in M1, M2; try lia.
    - split; reflexivity.
    - destruct (IH ws' wa' ltac:(lia) ltac:(lia)) as [A B]. split; simpl; f_equal; assumption. }
  destruct (K bs ws wa L1 L2) as [K1 K2]. split; [exact K1|]. unfold out_row in *. rewrite K2. intros vs.
  rewrite (wac_add_lists_partial pd pda shift _ ws (map (fun a => nmod (a - shift) 360) wa) vs);
    [|left; reflexivity|left; reflexivity|rewrite map_length; assumption].
  rewrite (proj2 (identity_add_evaluates pd pda d) ws wa vs H1 H2 L1).
  apply and_iff_compat_l. split; intros Q i Hi; specialize (Q i Hi).
  - destruct Q as [a [A [[k B] C]]].
    replace (nth i wa 0) with a; [assumption|].
    assert (0 <= nth i wa 0 < 360) as Pi by (apply P, nth_In; lia).
    rewrite (nth_indep (map (fun a => nmod (a - shift) 360) wa) 0 (nmod (0 - shift) 360)) in B by (rewrite map_length; lia).
    rewrite (map_nth (fun a => nmod (a - shift) 360)) in B.
    destruct (same_direction_nmod (nth i wa 0 - shift)) as [k' D].
    rewrite <- (nmod_small (nth i wa 0) 360 Pi).
    symmetry. apply nmod_unique with (k := (- (k + k'))%Z); [lra| |assumption].
    rewrite opp_IZR, plus_IZR. lra.
  - exists (nth i wa 0).
    assert (0 <= nth i wa 0 < 360) as Pi by (apply P, nth_In; lia).
    split; [assumption|]. split; [|assumption].
    rewrite (nth_indep (map (fun a => nmod (a - shift) 360) wa) 0 (nmod (0 - shift) 360)) by (rewrite map_length; lia).
    rewrite (map_nth (fun a => nmod (a - shift) 360)).
    destruct (same_direction_nmod (nth i wa 0 - shift)) as [k' D]. exists (- k')%Z.
    rewrite opp_IZR. lra.
Qed.
Print Assumptions wac_add_undoes_remove.

(** C94.  But a diagram that reproduces the cleaned data does not reproduce
    the recorded data when the influence is added: both directions would need
    opposite signs, [add_influence] turns the angle away by twice the shift. *)
Theorem wac_recorded_speeds_refuted : exists (pd : R -> R -> result R) pda shift d rows vs,
  wac_remove shift d = Ok (W2 rows) /\
  (forall s a b, In (s, Some a, b) rows -> pd s a = Ok b) /\
  wac_add pd pda shift d = Ok (SpList vs) /\
  map snd rows <> vs.
Proof.
  exists (fun _ a => Ok a), (fun _ _ => Raise TypeError), 10,
    [("TWS", PyList [5]); ("TWA", PyList [90]); ("BSP", PyList [80])], [(5, Some 80, 80)], [100].
  split; [|split; [|split]].
  - unfold wac_remove. cbn. rewrite nmod_small by lra. repeat f_equal; lra.
  - intros s a b [E|[]]. inversion E. reflexivity.
  - unfold wac_add. cbn. rewrite nmod_small by lra. repeat f_equal; lra.
  - simpl. intros E. inversion E. lra.
Qed.
Print Assumptions wac_recorded_speeds_refuted.

(** ** Fitting *)

(** Gaussian density of the recorded angles (weighted with the wind speeds)
    at angle [a], the distance of two angles given by [dist]. *)
Definition density (dist : R -> R -> R) (interval : R) (was wss : list R) (a : R) : R :=
  Rsum (map (fun p => snd p * exp (- (dist a (fst p) / interval) ^ 2)) (combine was wss)).

(** Distance on a line. *)
Definition line_dist (a b : R) : R := Rabs (a - b).
(** Distance on the circle. *)
Definition circle_dist (a b : R) : R := Rmin (nmod (a - b) 360) (nmod (b - a) 360).

Lemma count_value : forall interval was wss a,
  interval <> 0 -> 0 <= a < 360 -> (forall o, In o was -> 0 <= o < 360) ->
  count interval (combine was wss) a = Ok (density line_dist interval was wss a).
Proof.
  intros interval was wss a N A P. unfold count, density.
  rewrite mapM_Ok_map with (g := fun p => snd p * exp (- (line_dist a (fst p) / interval) ^ 2)).
  - cbn [rbind]. rewrite nsum_R. reflexivity.
  - intros [o s] Hp. apply in_combine_l in Hp. specialize (P o Hp). unfold kernel, np_div. rnum.
    cbn [fst snd]. rewrite Reqb_false by assumption. cbn [rbind]. rewrite nabs_R.
    rewrite nmod_small. 2: { split; [apply Rabs_pos|]. apply Rabs_def1; lra. }
    unfold line_dist. repeat f_equal. ring.
Qed.

Lemma min_by_snd_spec : forall l best,
  In (min_by_snd best l) (best :: l) /\
  (forall p, In p (best :: l) -> snd (min_by_snd best l) <= snd p) /\
  exists l1 l2, best :: l = l1 ++ min_by_snd best l :: l2 /\
    forall p, In p l1 -> snd (min_by_snd best l) < snd p.
Proof.
  induction l as [|p l IH]; intros best.
  - cbn [min_by_snd]. split; [left; reflexivity|]. split.
    + intros q [<-|[]]. lra.
    + exists [], []. split; [reflexivity|]. intros q [].
  - cbn [min_by_snd]. destruct (Rltb_spec (snd p) (snd best)) as [L|L].
    + destruct (IH p) as [A [B [l1 [l2 [C D]]]]]. split; [right; exact A|]. split.
      * intros q [<-|Hq]; [|apply B, Hq]. specialize (B p (or_introl eq_refl)). lra.
      * exists (best :: l1), l2. split; [simpl; f_equal; exact C|].
        intros q [<-|Hq]; [|apply D, Hq]. specialize (B p (or_introl eq_refl)). lra.
    + destruct (IH best) as [A [B [l1 [l2 [C D]]]]]. split; [|split].
      * destruct A as [A|A]; [left; exact A|right; right; exact A].
      * intros q [<-|[<-|Hq]].
        -- apply B. left; reflexivity.
        -- specialize (B best (or_introl eq_refl)). lra.
        -- apply B. right; exact Hq.
      * destruct l1 as [|x l1].
        -- simpl in C. injection C as C1 C2. exists [], (p :: l2). split; [|intros q []].
           simpl. rewrite <- C1. f_equal. f_equal. exact C2.
        -- simpl in C. injection C as C1 C2. exists (x :: p :: l1), l2. split.
           ++ simpl. rewrite <- C1. f_equal. f_equal. exact C2.
           ++ intros q [<-|[<-|Hq]].
              ** apply D. left; reflexivity.
              ** specialize (D x (or_introl eq_refl)). subst x. lra.
              ** apply D. right; exact Hq.
Qed.

Lemma combine_map_self : forall (f : R -> R) l, combine l (map f l) = map (fun x => (x, f x)) l.
Proof. induction l as [|x l IH]; simpl; [reflexivity|]. f_equal. exact IH. Qed.

Lemma wac_fit_on_spec : forall sample interval d was wss,
  sample <> [] -> interval <> 0 -> (forall a, In a sample -> 0 <= a < 360) ->
  holds d "TWA" was -> holds d "TWS" wss ->
  (forall o, In o was -> 0 <= o < 360) ->
  exists s1 shift s2, sample = s1 ++ shift :: s2 /\
    wac_fit_on sample interval d = Ok shift /\
    (forall a, In a sample ->
       density line_dist interval was wss shift <= density line_dist interval was wss a) /\
    (forall a, In a s1 ->
       density line_dist interval was wss shift < density line_dist interval was wss a).
Proof.
  intros sample interval d was wss NE N S H1 H2 P.
  unfold wac_fit_on, iget. unfold holds in *. rewrite H1, H2. cbn [rbind column].
  rewrite mapM_Ok_map with (g := density line_dist interval was wss)
    by (intros a Ha; apply count_value; auto).
  cbn [rbind]. rewrite combine_map_self. set (f := density line_dist interval was wss).
  destruct sample as [|a0 sample]; [contradiction|]. cbn [map].
  destruct (min_by_snd_spec (map (fun x => (x, f x)) sample) (a0, f a0)) as [A [B [l1 [l2 [C D]]]]].
  set (m := min_by_snd (a0, f a0) (map (fun x => (x, f x)) sample)) in *.
  assert (map (fun x => (x, f x)) (a0 :: sample) = l1 ++ m :: l2) as C' by exact C.
  clear C. apply map_eq_app in C'. destruct C' as [s1 [s2' [E1 [E2 E3]]]].
  destruct s2' as [|sh s2]; [discriminate|]. simpl in E3. injection E3 as E3 E4.
  assert (fst m = sh) as F1 by (rewrite <- E3; reflexivity).
  assert (snd m = f sh) as F2 by (rewrite <- E3; reflexivity).
  exists s1, sh, s2. rewrite F1. split; [exact E1|]. split; [reflexivity|]. split.
  - intros a Ha. fold f. rewrite <- F2. apply (B (a, f a)).
    change ((a0, f a0) :: map (fun x => (x, f x)) sample) with (map (fun x => (x, f x)) (a0 :: sample)).
    apply in_map_iff. exists a. split; auto.
  - intros a Ha. rewrite <- F2. apply (D (a, f a)). rewrite <- E2. apply in_map_iff. exists a. auto.
Qed.

Lemma fit_sample_In : forall a, In a fit_sample <->
  exists i, (i < 3600)%nat /\ a = INR i * (359 / 3599).
Proof.
  intros a. unfold fit_sample. change (10 * 360)%nat with 3600%nat.
  assert (INR 3599 = 3599) as V by (rewrite INR_IZR_INZ; reflexivity).
  assert (2 <= 3600)%nat as N2 by (apply Nat.leb_le; reflexivity).
  assert (3600 - 1 = 3599)%nat as S1 by reflexivity.
  pose proof (linspace_length 0 359 3600) as L.
  pose proof (fun i => linspace_nth 0 359 3600 i N2) as NTH. rewrite S1, V in NTH.
  clear S1. revert L NTH. generalize (linspace 0 359 3600). generalize 3600%nat. intros n l L NTH.
  split.
  - intros H. apply In_nth_error in H. destruct H as [i Hi].
    assert (i < n)%nat as Li by (rewrite <- L; apply nth_error_Some; congruence).
    exists i. split; [exact Li|]. rewrite (NTH i Li) in Hi. injection Hi as <-. lra.
  - intros [i [Li ->]]. apply nth_error_In with (n := i). rewrite (NTH i Li). f_equal. lra.
Qed.

Lemma fit_sample_range : forall a, In a fit_sample -> 0 <= a < 360.
Proof.
  intros a H. apply fit_sample_In in H. destruct H as [i [Li ->]].
  assert (INR i <= 3599) as B.
  { replace 3599 with (INR 3599) by (rewrite INR_IZR_INZ; reflexivity). apply le_INR.
    apply (proj1 (Nat.lt_succ_r _ _)). exact Li. }
  pose proof (pos_INR i). lra.
Qed.

(** C95.  [fit] sets the shift to the first of the sampled angles
    i * 359/3599 with the smallest density of recorded angles, distances taken
    along the line from 0 to 360.  Full statement (angles on a circle): false,
    see [fit_circle_refuted]. *)
Theorem fit_smallest_density_partial : forall interval d was wss,
  interval <> 0 -> holds d "TWA" was -> holds d "TWS" wss ->
  (forall o, In o was -> 0 <= o < 360) ->
  exists i, (i < 3600)%nat /\ wac_fit interval d = Ok (INR i * (359 / 3599)) /\
    forall j, (j < 3600)%nat ->
      density line_dist interval was wss (INR i * (359 / 3599))
        <= density line_dist interval was wss (INR j * (359 / 3599)).
Proof.
  intros interval d was wss N H1 H2 P.
  destruct (wac_fit_on_spec fit_sample interval d was wss) as [s1 [sh [s2 [E [F [G _]]]]]]; auto.
  - intros E. assert (In 0 fit_sample) as X.
    + apply fit_sample_In. exists 0%nat. split; [|simpl; lra]. apply Nat.ltb_lt. reflexivity.
    + rewrite E in X. destruct X.
  - apply fit_sample_range.
  - assert (In sh fit_sample) as X by (rewrite E; apply in_elt).
    apply fit_sample_In in X. destruct X as [i [Li ->]]. exists i. split; [exact Li|].
    split; [exact F|]. intros j Lj. apply G. apply fit_sample_In. exists j. auto.
Qed.
Print Assumptions fit_smallest_density_partial.

Example fit_example : exists i, (i < 3600)%nat /\
  wac_fit 30 [("TWA", PyList [45; 90]); ("TWS", PyList [8; 10])] = Ok (INR i * (359 / 3599)).
Proof.
  destruct (fit_smallest_density_partial 30 [("TWA", PyList [45; 90]); ("TWS", PyList [8; 10])] [45; 90] [8; 10])
    as [i [A [B _]]]; try reflexivity; try lra.
  - intros o [<-|[<-|[]]]; lra.
  - exists i. auto.
Qed.

(** C95.  The circle is cut at 0: with a single record at 359 degrees, [fit]
    takes the wind angle 0, one degree beside it, for the emptiest. *)
Theorem fit_circle_refuted : exists interval d was wss a,
  holds d "TWA" was /\ holds d "TWS" wss /\ was <> [] /\ (forall o, In o was -> 0 <= o < 360) /\
  wac_fit interval d = Ok 0 /\
  (exists i, (i < 3600)%nat /\ a = INR i * (359 / 3599)) /\
  density circle_dist interval was wss a < density circle_dist interval was wss 0.
Proof.
  exists 30, [("TWA", PyList [359]); ("TWS", PyList [10])], [359], [10], (INR 1800 * (359 / 3599)).
  split; [reflexivity|]. split; [reflexivity|]. split; [discriminate|].
  split; [intros o [<-|[]]; lra|]. split; [|split].
  - assert (forall a, density line_dist 30 [359] [10] a = 10 * exp (- ((a - 359) / 30) ^ 2)) as V.
    { intros a. unfold density, line_dist. cbn [combine map fst snd Rsum]. rewrite Rplus_0_r. f_equal. f_equal.
      f_equal. rewrite <- !Rsqr_pow2. rewrite !Rsqr_div by lra. rewrite <- Rsqr_abs. reflexivity. }
    destruct (wac_fit_on_spec fit_sample 30 [("TWA", PyList [359]); ("TWS", PyList [10])] [359] [10])
      as [s1 [sh [s2 [E [F [G _]]]]]]; try reflexivity; try lra.
    + intros E. assert (In 0 fit_sample) as X.
      * apply fit_sample_In. exists 0%nat. split; [|simpl; lra]. apply Nat.ltb_lt. reflexivity.
      * rewrite E in X. destruct X.
    + apply fit_sample_range.
    + intros o [<-|[]]; lra.
    + unfold wac_fit. rewrite F. f_equal.
      assert (In sh fit_sample) as X by (rewrite E; apply in_elt).
      pose proof (fit_sample_range sh X) as R1. pose proof X as X'.
      apply fit_sample_In in X'. destruct X' as [i [Li Ei]].
      assert (sh <= 359) as R2.
      { rewrite Ei. assert (INR i <= 3599) as B; [|lra].
        replace 3599 with (INR 3599) by (rewrite INR_IZR_INZ; reflexivity). apply le_INR.
        apply (proj1 (Nat.lt_succ_r _ _)). exact Li. }
      assert (In 0 fit_sample) as Z0.
      { apply fit_sample_In. exists 0%nat. split; [|simpl; lra]. apply Nat.ltb_lt. reflexivity. }
      specialize (G 0 Z0). rewrite !V in G.
      destruct (Rle_lt_dec sh 0) as [|C]; [lra|]. exfalso.
      assert (exp (- ((0 - 359) / 30) ^ 2) < exp (- ((sh - 359) / 30) ^ 2)); [|lra].
      apply exp_increasing. nra.
  - exists 1800%nat. split; [|reflexivity]. apply Nat.ltb_lt. reflexivity.
  - assert (INR 1800 = 1800) as -> by (rewrite INR_IZR_INZ; reflexivity).
    unfold density, circle_dist. cbn [combine map fst snd Rsum].
    rewrite (nmod_unique (0 - 359) 360 1 (-1)), (nmod_small (359 - 0)) by lra.
    rewrite (nmod_small (359 - 1800 * (359 / 3599))), (nmod_unique (1800 * (359 / 3599) - 359) 360 (1 + 1800 * (359 / 3599)) (-1)) by lra.
    rewrite (Rmin_left 1 (359 - 0)), (Rmin_right (1 + 1800 * (359 / 3599))) by lra.
    assert (exp (- ((359 - 1800 * (359 / 3599)) / 30) ^ 2) < exp (- (1 / 30) ^ 2)); [|lra].
    apply exp_increasing. lra.
Qed.
Print Assumptions fit_circle_refuted.
