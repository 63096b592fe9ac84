(** * Properties of the plotting model *)

From Coq Require Import String List Bool Arith ZArith Reals Lra Lia Permutation Sorting.Sorted.
From Verif Require Import Py Num Dict PySort Trig ListX InterpModel MultiModel GlobeProofs PlotModel.
Import ListNotations.
Open Scope string_scope.
Open Scope list_scope.
Open Scope R_scope.

(** ** Specification *)

(** The names of a list in the order of their first appearance. *)
Fixpoint first_seen (l : list string) : list string :=
  match l with
  | [] => []
  | x :: r => x :: filter (fun y => negb (String.eqb x y)) (first_seen r)
  end.

(** What is marked with a name, in order. *)
Definition group {A} (name : string) (marked : list (A * string)) : list A :=
  map fst (filter (fun p => String.eqb (snd p) name) marked).

(** Lists separated by gaps. *)
Fixpoint with_gaps {A} (gs : list (list A)) : list (option A) :=
  match gs with
  | [] => []
  | [g] => map Some g
  | g :: r => map Some g ++ None :: with_gaps r
  end.

(** The contract of [argsort]. *)
Definition sorts (argsort : list (pt3 R) -> list (pt3 R)) : Prop :=
  forall l, Permutation (argsort l) l /\ StronglySorted (fun p q => pwa p <= pwa q) (argsort l).

(** ** C80: groups *)

Lemma first_seen_In : forall l x, In x (first_seen l) <-> In x l.
Proof.
  induction l as [|y r IH]; intros x; [reflexivity|]. cbn. rewrite filter_In, IH.
  destruct (String.eqb_spec y x) as [->|NE]; cbn; intuition congruence.
Qed.

Lemma first_seen_NoDup : forall l, NoDup (first_seen l).
Proof.
  induction l as [|y r IH]; [constructor|]. cbn. constructor.
  - rewrite filter_In. rewrite String.eqb_refl. cbn. intuition congruence.
  - apply NoDup_filter; auto.
Qed.

Lemma first_seen_snoc : forall l x, first_seen (l ++ [x]) =
  if smem x l then first_seen l else first_seen l ++ [x].
Proof.
  induction l as [|y r IH]; intros x; [reflexivity|]. cbn [app first_seen]. rewrite IH.
  cbn [smem existsb]. fold (smem x r). destruct (String.eqb_spec x y) as [->|NE]; cbn.
  - destruct (smem y r); auto. rewrite filter_app. cbn. rewrite String.eqb_refl. cbn. rewrite app_nil_r. reflexivity.
  - destruct (smem x r); auto. rewrite filter_app. cbn. rewrite (proj2 (String.eqb_neq y x)) by congruence. reflexivity.
Qed.

Definition positions (name : string) (info : list string) : list nat :=
  map fst (filter (fun p => String.eqb (snd p) name) (enumerate info)).

Lemma enumerate_snoc : forall A (l : list A) x, enumerate (l ++ [x]) = enumerate l ++ [(length l, x)].
Proof.
  intros. unfold enumerate. rewrite app_length. cbn. rewrite Nat.add_1_r, seq_S. cbn.
  assert (forall (a b : list nat) (c d : list A), length a = length c -> combine (a ++ b) (c ++ d) = combine a c ++ combine b d) as K.
  { induction a as [|z a IH]; intros b [|w c] d H; cbn in *; try discriminate; auto. rewrite IH; auto. }
  rewrite K by apply seq_length. reflexivity.
Qed.

Lemma positions_snoc : forall n l x, positions n (l ++ [x]) = positions n l ++ (if String.eqb x n then [length l] else []).
Proof.
  intros. unfold positions. rewrite enumerate_snoc, filter_app, map_app. f_equal. cbn. destruct (String.eqb x n); reflexivity.
Qed.

Lemma positions_nil : forall n l, ~ In n l -> positions n l = [].
Proof.
  induction l as [|x l IH] using rev_ind; intros NI; [reflexivity|]. rewrite positions_snoc, IH.
  - destruct (String.eqb_spec x n) as [->|NE]; auto. exfalso. apply NI. apply in_or_app. cbn; auto.
  - intros I. apply NI. apply in_or_app; auto.
Qed.

Lemma dget_map_keys : forall V (f : string -> V) l k, In k l -> dget k (map (fun n => (n, f n)) l) = Some (f k).
Proof.
  induction l as [|x r IH]; intros k I; [destruct I|]. cbn. destruct (String.eqb_spec x k) as [->|NE]; auto.
  destruct I as [EQ|I]; [congruence|auto].
Qed.

Lemma dget_map_none : forall V (f : string -> V) l k, ~ In k l -> dget k (map (fun n => (n, f n)) l) = None.
Proof. intros. apply dget_None. unfold dkeys. rewrite map_map. cbn. rewrite map_id. auto. Qed.

Lemma dset_map_new : forall V (f g : string -> V) l k, ~ In k l -> (forall n, In n l -> f n = g n) ->
  dset k (g k) (map (fun n => (n, f n)) l) = map (fun n => (n, g n)) (l ++ [k]).
Proof.
  induction l as [|x r IH]; intros k NI E; [reflexivity|]. cbn.
  rewrite (proj2 (String.eqb_neq x k)) by (intros ->; apply NI; cbn; auto).
  rewrite E by (cbn; auto). f_equal. apply IH; [intros I; apply NI; cbn; auto|intros; apply E; cbn; auto].
Qed.

Lemma dset_map_old : forall V (f g : string -> V) l k, In k l -> NoDup l -> (forall n, In n l -> n <> k -> f n = g n) ->
  dset k (g k) (map (fun n => (n, f n)) l) = map (fun n => (n, g n)) l.
Proof.
  induction l as [|x r IH]; intros k I ND E; [destruct I|]. cbn. inversion ND; subst.
  destruct (String.eqb_spec x k) as [->|NE].
  - f_equal. apply map_ext_in. intros n IN. f_equal. apply E; [cbn; auto|intros ->; auto].
  - destruct I as [EQ|I]; [congruence|]. rewrite E by (cbn; auto). f_equal. apply IH; auto. intros; apply E; cbn; auto.
Qed.

Lemma info_intervals_spec : forall info,
  info_intervals info = map (fun n => positions n info) (first_seen info).
Proof.
  intros info. unfold info_intervals.
  enough (forall l, fold_left (fun d je => let '(j, entry) := je in
      dset entry (match dget entry d with Some l => l | None => [] end ++ [j]) d) (enumerate l) [] =
      map (fun n => (n, positions n l)) (first_seen l)) as K.
  { rewrite K. unfold dvals. rewrite map_map. reflexivity. }
  induction l as [|x l IH] using rev_ind; [reflexivity|].
  rewrite enumerate_snoc, fold_left_app, IH. cbn [fold_left]. rewrite first_seen_snoc.
  destruct (smem x l) eqn:M.
  - apply smem_In in M. rewrite dget_map_keys by (apply first_seen_In; auto).
    replace (positions x l ++ [length l]) with (positions x (l ++ [x])) by (rewrite positions_snoc, String.eqb_refl; auto).
    apply (dset_map_old _ (fun n => positions n l) (fun n => positions n (l ++ [x]))); auto using first_seen_NoDup.
    + apply first_seen_In; auto.
    + intros n _ NE. rewrite positions_snoc, (proj2 (String.eqb_neq x n)), app_nil_r by auto. reflexivity.
  - apply smem_false in M. rewrite dget_map_none by (rewrite first_seen_In; auto). cbn [app].
    replace [length l] with (positions x (l ++ [x])) by (rewrite positions_snoc, positions_nil, String.eqb_refl by auto; auto).
    apply (dset_map_new _ (fun n => positions n l) (fun n => positions n (l ++ [x]))).
    + rewrite first_seen_In; auto.
    + intros n I. rewrite positions_snoc, (proj2 (String.eqb_neq x n)), app_nil_r; auto.
      intros ->. apply M. apply first_seen_In; auto.
Qed.

Lemma positions_group : forall n (col : list R) info, length col = length info ->
  mapM (py_nth col) (positions n info) = Ok (group n (combine col info)).
Proof.
  intros n col info L.
  assert (forall info (col pre : list R), length col = length info ->
    mapM (py_nth (pre ++ col)) (map fst (filter (fun p => String.eqb (snd p) n) (combine (seq (length pre) (length info)) info))) =
    Ok (group n (combine col info))) as K.
  { clear. induction info as [|x info IH]; intros [|c col] pre L; cbn in L; try discriminate; [reflexivity|].
    cbn [length seq combine filter snd]. unfold group. cbn [combine filter snd].
    specialize (IH col (pre ++ [c]) ltac:(lia)). rewrite <- app_assoc in IH. cbn in IH.
    rewrite app_length in IH. cbn in IH. rewrite Nat.add_1_r in IH.
    destruct (String.eqb x n); auto. cbn [map fst mapM].
    unfold py_nth at 1. rewrite nth_error_app2, Nat.sub_diag by lia. cbn [nth_error rbind]. rewrite IH. reflexivity. }
  apply (K info col [] L).
Qed.

Lemma removelast_gaps : forall A (gs : list (list A)), gs <> [] ->
  removelast (concat (map (fun g => map Some g ++ [None]) gs)) = with_gaps gs.
Proof.
  induction gs as [|g gs IH]; intros NE; [congruence|]. cbn [map concat with_gaps]. destruct gs as [|h gs].
  - cbn. rewrite app_nil_r. apply removelast_last.
  - rewrite <- app_assoc. rewrite removelast_app by (cbn; discriminate). f_equal. rewrite <- IH by discriminate.
    cbn [app map concat]. destruct (map Some h ++ [None]) eqn:E; [destruct h; discriminate|]. reflexivity.
Qed.

Lemma merge_groups : forall (col : list R) info, length col = length info ->
  merge col (info_intervals info) = Ok (with_gaps (map (fun n => group n (combine col info)) (first_seen info))).
Proof.
  intros col info L. unfold merge. rewrite info_intervals_spec.
  destruct (first_seen info) as [|n ns] eqn:E; [reflexivity|]. rewrite <- E.
  destruct (map (fun n => positions n info) (first_seen info)) as [|iv ivs] eqn:E2; [rewrite E in E2; discriminate|]. rewrite <- E2. clear E2.
  assert (forall l, mapM (fun interval => do xs <- mapM (py_nth col) interval; Ok (map Some xs ++ [None])) (map (fun n => positions n info) l) =
    Ok (map (fun g => map Some g ++ [None]) (map (fun n => group n (combine col info)) l))) as K.
  { induction l as [|m l IH]; [reflexivity|]. cbn [map mapM]. rewrite positions_group by auto. cbn [rbind]. rewrite IH. reflexivity. }
  rewrite K. cbn [rbind]. rewrite removelast_gaps; [reflexivity|]. rewrite E. discriminate.
Qed.

(** C80.  The splitting itself: one line per name in the order of first
    appearance, which consists of the entries marked with this name, in order. *)
Theorem split_by_info : forall wa bsp info, length wa = length info -> length bsp = length info ->
  alter_with_info wa bsp info =
    Ok (with_gaps (map (fun n => group n (combine wa info)) (first_seen info)),
        with_gaps (map (fun n => group n (combine bsp info)) (first_seen info))).
Proof. intros wa bsp info L1 L2. unfold alter_with_info. rewrite !merge_groups by auto. reflexivity. Qed.
Print Assumptions split_by_info.

(** Together the lines contain every entry exactly once. *)
Theorem split_complete : forall A (marked : list (A * string)),
  Permutation (concat (map (fun n => group n marked) (first_seen (map snd marked)))) (map fst marked).
Proof.
  intros A marked.
  assert (forall names (l : list (A * string)), NoDup names -> (forall p, In p l -> In (snd p) names) ->
    Permutation (concat (map (fun n => group n l) names)) (map fst l)) as K.
  { clear. induction names as [|n names IH]; intros l ND COV.
    - destruct l as [|p l]; [constructor|]. destruct (COV p); cbn; auto.
    - inversion ND as [|? ? NI ND']; subst. cbn [map concat].
      assert (Permutation l (filter (fun p => String.eqb (snd p) n) l ++ filter (fun p => negb (String.eqb (snd p) n)) l)) as PS.
      { clear. induction l as [|p l IH]; [constructor|]. cbn. destruct (String.eqb (snd p) n); cbn.
        - constructor; auto.
        - apply Permutation_cons_app; auto. }
      rewrite (Permutation_map fst PS), map_app. unfold group at 1. apply Permutation_app_head.
      set (l' := filter (fun p => negb (String.eqb (snd p) n)) l).
      rewrite <- (IH l' ND').
      + replace (map (fun m => group m l') names) with (map (fun m => group m l) names); [reflexivity|].
        apply map_ext_in. intros m I. unfold group, l'. f_equal. clear - I NI.
        induction l as [|p l IH]; [reflexivity|]. cbn. destruct (String.eqb_spec (snd p) n) as [E|E]; cbn.
        * destruct (String.eqb_spec (snd p) m) as [E'|E']; auto. congruence.
        * rewrite IH. reflexivity.
      + intros p I. unfold l' in I. apply filter_In in I. destruct I as [I NE].
        destruct (COV p I) as [E|E]; auto. rewrite <- E, String.eqb_refl in NE. discriminate. }
  apply K; [apply first_seen_NoDup|]. intros p I. apply first_seen_In. apply in_map. auto.
Qed.
Print Assumptions split_complete.

(** C80.  Plotting a slice in the order of ascending wind angles ([_partial]: for
    other slices the names are mixed up, see [plot_groups_refuted]). *)
Theorem plot_groups_partial : forall hull argsort use_radians slice info, sorts argsort ->
  length info = length slice -> StronglySorted (fun p q => pwa p < pwa q) slice ->
  plot_slice hull argsort use_radians false slice (Some info) =
    Ok (with_gaps (map (fun n => map (fun p => if use_radians then deg2rad (pwa p) else pwa p) (group n (combine slice info))) (first_seen info)),
        with_gaps (map (fun n => map pbs (group n (combine slice info))) (first_seen info))).
Proof.
  intros hull argsort rad slice info SO L SS. unfold plot_slice.
  destruct (SO slice) as [P S].
  assert (argsort slice = slice) as ->.
  { clear - P S SS. revert P S. generalize (argsort slice). induction SS as [|p l SS IH F]; intros l' P S.
    - apply Permutation_sym, Permutation_nil in P. auto.
    - destruct l' as [|q l']; [apply Permutation_nil in P; discriminate|].
      inversion S as [|? ? S' F']; subst. rewrite Forall_forall in F, F'.
      assert (q = p) as ->.
      { assert (In q (p :: l)) as [E|I] by (eapply Permutation_in; [exact P|cbn; auto]); auto.
        assert (In p (q :: l')) as [E|J] by (eapply Permutation_in; [symmetry; exact P|cbn; auto]); auto.
        apply F in I. apply F' in J. lra. }
      f_equal. apply IH; auto. eapply Permutation_cons_inv; eauto. }
  rewrite split_by_info by (rewrite map_length; auto).
  assert (forall (f : pt3 R -> R) n, group n (combine (map f slice) info) = map f (group n (combine slice info))) as G.
  { intros f n. clear. revert info. induction slice as [|p slice IH]; intros [|x info]; try reflexivity.
    unfold group in *. cbn. destruct (String.eqb x n); cbn; rewrite IH; reflexivity. }
  f_equal. f_equal; f_equal; apply map_ext; intros n; rewrite G; reflexivity.
Qed.
Print Assumptions plot_groups_partial.

Example plot_groups_example : forall hull argsort, sorts argsort ->
  plot_slice hull argsort false false [(10, 45, 5); (10, 90, 8); (10, 135, 7)] (Some ["jib"; "spi"; "jib"]) =
    Ok ([Some 45; Some 135; None; Some 90], [Some 5; Some 7; None; Some 8]).
Proof.
  intros. rewrite plot_groups_partial; auto. repeat (constructor; [|repeat (apply Forall_cons; [unfold pwa; cbn; lra|]); apply Forall_nil]).
  constructor.
Qed.

(** C80 is false for the slices of a diagram with several sails: they list the
    sails one after the other, the plot sorts the points by angle but not the
    names.  With two sails of two points each, the line of the first sail
    consists of the points of both sails at the smaller angle. *)
Definition jib_slice : list (pt3 R) := [(10, 45, 5); (10, 135, 6)].
Definition spi_slice : list (pt3 R) := [(10, 50, 1); (10, 140, 9)].

Theorem plot_groups_refuted : forall hull argsort, sorts argsort ->
  let d_slices := fun (d : list (pt3 R)) (ws : list R) => Ok (map (fun _ => d) ws) in
  let m := multi_new [jib_slice; spi_slice] (Some ["jib"; "spi"]) in
  exists slice info, multi_slices d_slices m [10] = Ok [slice] /\ multi_slice_info d_slices m [10] = Ok [info] /\
    plot_slice hull argsort false false slice (Some info) =
      Ok ([Some 45; Some 50; None; Some 135; Some 140], [Some 5; Some 1; None; Some 6; Some 9]) /\
    group "jib" (combine slice info) = jib_slice /\ group "spi" (combine slice info) = spi_slice.
Proof.
  intros hull argsort SO d_slices m. exists (jib_slice ++ spi_slice), ["jib"; "jib"; "spi"; "spi"].
  split; [reflexivity|]. split; [reflexivity|]. split; [|split; reflexivity].
  unfold plot_slice.
  assert (argsort (jib_slice ++ spi_slice) = [(10, 45, 5); (10, 50, 1); (10, 135, 6); (10, 140, 9)]) as ->.
  { destruct (SO (jib_slice ++ spi_slice)) as [P S]. revert P S. generalize (argsort (jib_slice ++ spi_slice)). intros l P S.
    assert (Permutation l [(10, 45, 5); (10, 50, 1); (10, 135, 6); (10, 140, 9)]) as P'.
    { rewrite P. unfold jib_slice, spi_slice. cbn. apply perm_skip. apply perm_swap. }
    clear P. destruct l as [|a [|b [|c [|d [|e l]]]]]; try (apply Permutation_length in P'; discriminate).
    assert (forall x y : pt3 R, In x [(10, 45, 5); (10, 50, 1); (10, 135, 6); (10, 140, 9)] ->
      In y [(10, 45, 5); (10, 50, 1); (10, 135, 6); (10, 140, 9)] -> pwa x <= pwa y -> pwa y <= pwa x -> x = y) as AS.
    { unfold pwa. cbn. intros x y I J. repeat (destruct I as [<-|I]); try destruct I;
        repeat (destruct J as [<-|J]); try destruct J; cbn; intros; auto; lra. }
    set (T := [(10, 45, 5); (10, 50, 1); (10, 135, 6); (10, 140, 9)]) in *.
    apply (sorted_perm_unique (pt3 R) (fun x y => In x T /\ In y T /\ pwa x <= pwa y)).
    - intros x y [I [J K]] [_ [_ K']]. apply AS; auto.
    - assert (forall l, StronglySorted (fun p q => pwa p <= pwa q) l -> (forall x, In x l -> In x T) ->
        StronglySorted (fun x y => In x T /\ In y T /\ pwa x <= pwa y) l) as W.
      { clear. induction 1 as [|x l S IH F]; intros I; constructor.
        - apply IH. intros; apply I; cbn; auto.
        - rewrite Forall_forall in *. intros y J. repeat split; try apply I; cbn; auto. }
      apply W; auto. intros x I. eapply Permutation_in; eauto.
    - unfold T at 3. repeat (constructor; [|repeat (apply Forall_cons; [unfold T, pwa; cbn; repeat split; auto 6; lra|]); apply Forall_nil]).
      constructor.
    - auto. }
  rewrite split_by_info by reflexivity. reflexivity.
Qed.
Print Assumptions plot_groups_refuted.

(** ** C112: convex hulls *)

Lemma py_last_app : forall A (l : list A) x, py_last (l ++ [x]) = Ok x.
Proof. intros. unfold py_last. rewrite rev_app_distr. reflexivity. Qed.

Lemma py_last_some : forall A (l : list A), l <> [] -> exists r x, l = r ++ [x] /\ py_last l = Ok x.
Proof.
  intros A l NE. destruct l as [|x r] using rev_ind; [congruence|]. exists r, x. split; auto. apply py_last_app.
Qed.

Lemma wrap_estimate_outcome : forall f l e, wrap_estimate f l = Raise e -> e = NonFinite.
Proof. intros f l e. unfold wrap_estimate, np_div. destruct (neqb _ _); cbn; congruence. Qed.

(** Points in front and behind that close the line. *)
Definition closing (pre post : list (pt3 R * option string)) (mid : list (pt3 R * option string)) : Prop :=
  (pre = [] /\ post = []) \/
  (exists p n, hd_error mid = Some (p, n) /\ pwa p = 0 /\ pre = [] /\ post = [((pws p, 360, pbs p), n)]) \/
  (exists p n r, mid = r ++ [(p, n)] /\ pwa p = 360 /\ pre = [((pws p, 0, pbs p), n)] /\ post = []) \/
  (exists w b, pre = [((w, 0, b), None)] /\ post = [((w, 360, b), None)]).

Lemma close_hull_marked : forall mid, mid <> [] ->
  (close_hull (map fst mid) (Some (map snd mid)) = Raise NonFinite) \/
  exists pre post, closing pre post mid /\
    close_hull (map fst mid) (Some (map snd mid)) =
      Ok (map fst (pre ++ mid ++ post), Some (map snd (pre ++ mid ++ post))).
Proof.
  intros mid NE. destruct (py_last_some _ mid NE) as [r [[l nl] [EL _]]].
  destruct mid as [|[f nf] m] eqn:EM; [congruence|]. rewrite EL. unfold close_hull. rewrite !map_app. cbn [map fst snd].
  rewrite !py_last_app.
  assert (py_nth (map fst r ++ [l]) 0 = Ok f) as N0.
  { destruct r as [|[a b] r]; injection EL as E1 E2; subst; reflexivity. }
  assert (py_nth (map snd r ++ [nl]) 0 = Ok nf) as N1.
  { destruct r as [|[a b] r]; injection EL as E1 E2; subst; reflexivity. }
  rewrite N0. cbn [rbind].
  destruct (Reqb_spec (pwa f) 0) as [F0|F0]; destruct (Reqb_spec (pwa l) 360) as [L0|L0]; cbn [andb].
  - right. exists [], []. split; [left; auto|]. cbn. rewrite app_nil_r, !map_app. reflexivity.
  - destruct (Rltb (pwa l - pwa f) 180).
    + right. exists [], []. split; [left; auto|]. cbn. rewrite app_nil_r, !map_app. reflexivity.
    + right. exists [], [((pws f, 360, pbs f), nf)]. split.
      * right; left. exists f, nf. rewrite <- EL. auto.
      * rewrite N1. cbn [rbind]. cbn [app]. rewrite !map_app. reflexivity.
  - destruct (Rltb (pwa l - pwa f) 180).
    + right. exists [], []. split; [left; auto|]. cbn. rewrite app_nil_r, !map_app. reflexivity.
    + right. exists [((pws l, 0, pbs l), nl)], []. split.
      * right; right; left. exists l, nl, r. auto.
      * cbn [rbind]. rewrite app_nil_r. cbn [app map fst snd]. rewrite !map_app. reflexivity.
  - destruct (Rltb (pwa l - pwa f) 180).
    + right. exists [], []. split; [left; auto|]. cbn. rewrite app_nil_r, !map_app. reflexivity.
    + destruct (wrap_estimate f l) as [[w b]|e] eqn:W.
      * right. exists [((w, 0, b), None)], [((w, 360, b), None)]. split.
        -- right; right; right. exists w, b. auto.
        -- cbn [rbind fst snd]. cbn [app map fst snd]. rewrite !map_app. reflexivity.
      * left. apply wrap_estimate_outcome in W. subst e. reflexivity.
Qed.

Lemma mapM_py_nth : forall A (l : list A) d vs, Forall (fun i => (i < length l)%nat) vs ->
  mapM (py_nth l) vs = Ok (map (fun i => nth i l d) vs).
Proof.
  intros A l d vs F. apply mapM_Ok_map. intros i I. rewrite Forall_forall in F. unfold py_nth.
  rewrite (nth_error_nth' A l i d) by auto. reflexivity.
Qed.

Lemma wa_le_sorted : forall B (l : list (pt3 R * B)),
  StronglySorted (fun a b => pwa (fst a) <= pwa (fst b)) (py_sorted (fun a b => wa_le (fst a) (fst b)) l).
Proof.
  intros B l.
  assert (StronglySorted (leP (fun a b : pt3 R * B => wa_le (fst a) (fst b))) (py_sorted (fun a b => wa_le (fst a) (fst b)) l)) as S.
  { apply py_sorted_sorted.
    - intros x y. unfold wa_le. destruct (Rleb_spec (pwa (fst x)) (pwa (fst y))); auto. right. apply Rleb_true. lra.
    - intros x y z. unfold wa_le. rewrite !Rleb_le. lra. }
  revert S. generalize (py_sorted (fun a b : pt3 R * B => wa_le (fst a) (fst b)) l). clear. intros l S.
  induction S as [|a l S IH F]; constructor; auto. eapply Forall_impl; [|exact F]. intros b H. apply Rleb_le. exact H.
Qed.

(** C112.  The convex hull of a slice: the corners of the hull with their own
    names in the order of ascending angles, and points closing the line.  The only
    other outcome is a division by zero in the estimate at 0 degrees. *)
Theorem hull_plot : forall hull slice info vs,
  length info = length slice ->
  hull (map (fun p => (pbs p * cos (deg2rad (pwa p)), pbs p * sin (deg2rad (pwa p)))) slice) = Some vs ->
  vs <> [] -> Forall (fun i => (i < length slice)%nat) vs ->
  convex_hull_slice hull slice (Some info) = Raise NonFinite \/
  exists pre mid post,
    convex_hull_slice hull slice (Some info) = Ok (map fst (pre ++ mid ++ post), Some (map snd (pre ++ mid ++ post))) /\
    Permutation mid (map (fun i => (nth i slice (0, 0, 0), Some (nth i info ""))) vs) /\
    StronglySorted (fun a b => pwa (fst a) <= pwa (fst b)) mid /\ closing pre post mid.
Proof.
  intros hull slice info vs L H NE F. unfold convex_hull_slice. rewrite H.
  rewrite (mapM_py_nth _ slice (0, 0, 0)) by auto. cbn [rbind].
  rewrite (mapM_py_nth _ info "") by (rewrite L; auto). cbn [rbind].
  set (srt := py_sorted (fun a b => wa_le (fst a) (fst b)) _).
  set (mid := map (fun b : pt3 R * string => (fst b, Some (snd b))) srt).
  assert (map fst srt = map fst mid) as -> by (unfold mid; rewrite map_map; apply map_ext; auto).
  assert (map (fun b : pt3 R * string => Some (snd b)) srt = map snd mid) as -> by (unfold mid; rewrite map_map; apply map_ext; auto).
  assert (Permutation mid (map (fun i => (nth i slice (0, 0, 0), Some (nth i info ""))) vs)) as P.
  { unfold mid, srt. rewrite (Permutation_map _ (py_sorted_perm _ _)). clear. induction vs as [|v vs IH]; [constructor|].
    cbn. constructor. auto. }
  assert (mid <> []) as NM.
  { intros E. rewrite E in P. apply Permutation_nil in P. destruct vs; [congruence|discriminate]. }
  destruct (close_hull_marked mid NM) as [E|[pre [post [C E]]]]; [left; auto|right].
  exists pre, mid, post. split; auto. split; auto. split; auto.
  unfold mid. assert (StronglySorted (fun a b => pwa (fst a) <= pwa (fst b)) srt) as S by (unfold srt; apply wa_le_sorted).
  revert S. generalize srt. clear. intros srt S. induction S as [|a l S IH F]; cbn; constructor; auto. rewrite Forall_map. auto.
Qed.
Print Assumptions hull_plot.

(** C112.  A line that spans at least half of the circle is closed. *)
Theorem hull_plot_closed : forall pts info f l pts' info',
  py_nth pts 0 = Ok f -> py_last pts = Ok l -> 180 <= pwa l - pwa f -> ~ (pwa f = 0 /\ pwa l = 360) ->
  close_hull pts info = Ok (pts', info') ->
  exists w b mid, pts' = (w, 0, b) :: mid ++ [(w, 360, b)].
Proof.
  intros pts info f l pts' info' F L G N E. unfold close_hull in E. rewrite F, L in E. cbn [rbind] in E.
  rewrite (Rltb_false _ 180) in E by lra.
  destruct pts as [|p r]; [discriminate|]. injection F as ->.
  destruct (py_last_some _ (f :: r)) as [r' [l' [EL LL]]]; [discriminate|]. rewrite L in LL. injection LL as <-.
  destruct (Reqb_spec (pwa f) 0) as [F0|F0]; destruct (Reqb_spec (pwa l) 360) as [L0|L0]; cbn [andb] in E.
  - exfalso; auto.
  - destruct f as [[w a] b]. unfold pwa in F0. cbn in F0. subst a.
    exists w, b, r. destruct info as [[|x i]|]; cbn in E; inversion E; subst; reflexivity.
  - destruct l as [[w a] b]. unfold pwa in L0. cbn in L0. subst a.
    exists w, b, r'. rewrite EL in E. destruct info as [i|]; [destruct (py_last i)|]; cbn in E; inversion E; subst; reflexivity.
  - destruct (wrap_estimate f l) as [[w b]|e]; cbn in E; [|discriminate]. inversion E; subst.
    exists w, b, (f :: r). reflexivity.
Qed.
Print Assumptions hull_plot_closed.

(** ** C113: the estimate at 0 degrees *)

(** The line through the two points meets the axis of 0 degrees at speed [b]
    (second coordinate: direction of 0 degrees). *)
Definition meets_axis (f l : pt3 R) (b : R) : Prop :=
  exists t, t * (pbs f * sin (deg2rad (pwa f))) + (1 - t) * (pbs l * sin (deg2rad (pwa l))) = 0 /\
            t * (pbs f * cos (deg2rad (pwa f))) + (1 - t) * (pbs l * cos (deg2rad (pwa l))) = b.

(** The estimate is right exactly if the end points lie symmetric in their offset
    from the axis or are level. *)
Theorem wrap_estimate_exact : forall f l w b, wrap_estimate f l = Ok (w, b) ->
  (meets_axis f l b <->
   pbs f * sin (deg2rad (pwa f)) = - (pbs l * sin (deg2rad (pwa l))) \/
   pbs f * cos (deg2rad (pwa f)) = pbs l * cos (deg2rad (pwa l))).
Proof.
  intros f l w b E. unfold wrap_estimate in E. unfold meets_axis.
  set (x0 := pbs f * sin (deg2rad (pwa f))) in *. set (x1 := pbs l * sin (deg2rad (pwa l))) in *.
  set (y0 := pbs f * cos (deg2rad (pwa f))) in *. set (y1 := pbs l * cos (deg2rad (pwa l))) in *.
  unfold np_div in E. rnum. destruct (Reqb_spec (x0 - x1) 0) as [Z|Z]; cbn in E; [discriminate|].
  injection E as _ <-. split.
  - intros [t [T1 T2]].
    assert (t = - x1 / (x0 - x1)) as ->.
    { apply (Rmult_eq_reg_r (x0 - x1)); [|auto]. replace (- x1 / (x0 - x1) * (x0 - x1)) with (- x1) by (field; auto). lra. }
    assert ((x0 + x1) * (y0 - y1) = 0) as K.
    { apply (Rmult_eq_compat_r (x0 - x1)) in T2. field_simplify in T2; auto. lra. }
    apply Rmult_integral in K. destruct K; [left|right]; lra.
  - intros [K|K].
    + exists (- x1 / (x0 - x1)). rewrite K. split; [field; lra|]. f_equal; f_equal; try f_equal; field; lra.
    + exists (- x1 / (x0 - x1)). rewrite K. split; field; auto.
Qed.
Print Assumptions wrap_estimate_exact.

(** C113 holds for the hulls of symmetric slices. *)
Theorem wrap_estimate_partial : forall ws ws' wa b, 0 < wa < 180 -> 0 < b ->
  exists w, wrap_estimate (ws, wa, b) (ws', 360 - wa, b) = Ok (w, b * cos (deg2rad wa)) /\
    w = (ws + ws') / 2 /\ meets_axis (ws, wa, b) (ws', 360 - wa, b) (b * cos (deg2rad wa)).
Proof.
  intros ws ws' wa b A B.
  assert (sin (deg2rad (360 - wa)) = - sin (deg2rad wa)) as S.
  { replace (deg2rad (360 - wa)) with (- deg2rad wa + 2 * PI) by (unfold deg2rad; field). rewrite sin_plus, cos_2PI, sin_2PI, sin_neg. ring. }
  assert (cos (deg2rad (360 - wa)) = cos (deg2rad wa)) as C.
  { replace (deg2rad (360 - wa)) with (- deg2rad wa + 2 * PI) by (unfold deg2rad; field). rewrite cos_plus, cos_2PI, sin_2PI, cos_neg. ring. }
  assert (0 < sin (deg2rad wa)) as P.
  { apply sin_gt_0; unfold deg2rad; pose proof PI_RGT_0; nra. }
  exists ((ws + ws') / 2). split; [|split; auto].
  - unfold wrap_estimate, pbs, pwa, pws. cbn [fst snd]. rewrite S, C. rewrite np_div_ok by nra. cbn [rbind]. f_equal. f_equal; field; nra.
  - unfold meets_axis, pbs, pwa. cbn [fst snd]. exists (1 / 2). rewrite S, C. split; field.
Qed.
Print Assumptions wrap_estimate_partial.

(** C113 is false in general: for corners at 30 degrees (speed 2) and 270 degrees
    (speed 3) the point drawn at 0 degrees has speed sqrt 3 / 4, the side of the
    hull crosses at 3 sqrt 3 / 4. *)
Definition skew_slice : list (pt3 R) := [(10, 30, 2); (10, 150, 2); (10, 270, 3)].

Theorem wrap_estimate_refuted : forall hull,
  hull (map (fun p => (pbs p * cos (deg2rad (pwa p)), pbs p * sin (deg2rad (pwa p)))) skew_slice) = Some [0; 1; 2]%nat ->
  convex_hull_slice hull skew_slice None =
    Ok ((10, 0, sqrt 3 / 4) :: skew_slice ++ [(10, 360, sqrt 3 / 4)], None) /\
  meets_axis (10, 30, 2) (10, 270, 3) (3 * sqrt 3 / 4) /\
  ~ meets_axis (10, 30, 2) (10, 270, 3) (sqrt 3 / 4).
Proof.
  intros hull H.
  assert (sin (deg2rad 30) = 1 / 2) as S1 by (replace (deg2rad 30) with (PI / 6) by (unfold deg2rad; field); apply sin_PI6).
  assert (cos (deg2rad 30) = sqrt 3 / 2) as C1 by (replace (deg2rad 30) with (PI / 6) by (unfold deg2rad; field); apply cos_PI6).
  assert (sin (deg2rad 270) = -1) as S2.
  { replace (deg2rad 270) with (PI / 2 + PI) by (unfold deg2rad; field). rewrite neg_sin, sin_PI2. ring. }
  assert (cos (deg2rad 270) = 0) as C2.
  { replace (deg2rad 270) with (PI / 2 + PI) by (unfold deg2rad; field). rewrite neg_cos, cos_PI2. ring. }
  assert (0 < sqrt 3) as Q by (apply sqrt_lt_R0; lra).
  split; [|split].
  - unfold convex_hull_slice. rewrite H. cbn [mapM py_nth nth_error skew_slice rbind].
    match goal with |- context [py_sorted wa_le ?l] => replace (py_sorted wa_le l) with l end.
    2: { symmetry. apply py_sorted_id. repeat (constructor; [|repeat (apply Forall_cons; [unfold leP, wa_le, pwa; cbn; apply Rleb_true; lra|]); apply Forall_nil]). constructor. }
    unfold close_hull, wrap_estimate, pwa, pbs, pws. cbn [py_nth py_last nth_error rev app rbind fst snd].
    rewrite Reqb_false by lra. cbn [andb]. rewrite Rltb_false by lra. rewrite Reqb_false by lra.
    rewrite S1, S2, C1, C2. rewrite np_div_ok by lra. cbn [rbind fst snd].
    assert (sqrt 3 / 4 = 2 * (1 / 2) / (2 * (1 / 2) - 3 * -1) * (2 * (sqrt 3 / 2)) + (1 - 2 * (1 / 2) / (2 * (1 / 2) - 3 * -1)) * (3 * 0)) as <- by field.
    replace (2 * (1 / 2) / (2 * (1 / 2) - 3 * -1) * 10 + (1 - 2 * (1 / 2) / (2 * (1 / 2) - 3 * -1)) * 10) with 10 by field.
    reflexivity.
  - unfold meets_axis, pwa, pbs. cbn [fst snd]. rewrite S1, S2, C1, C2. exists (3 / 4). split; field.
  - unfold meets_axis, pwa, pbs. cbn [fst snd]. rewrite S1, S2, C1, C2. intros [t [T1 T2]]. assert (t = 3 / 4) by lra. subst t. lra.
Qed.
Print Assumptions wrap_estimate_refuted.

Example hull_plot_example : forall hull,
  hull (map (fun p => (pbs p * cos (deg2rad (pwa p)), pbs p * sin (deg2rad (pwa p)))) [(10, 0, 2); (10, 120, 2); (10, 240, 2)]) =
    Some [2; 0; 1]%nat ->
  convex_hull_slice hull [(10, 0, 2); (10, 120, 2); (10, 240, 2)] (Some ["a"; "b"; "c"]) =
    Ok ([(10, 0, 2); (10, 120, 2); (10, 240, 2); (10, 360, 2)], Some [Some "a"; Some "b"; Some "c"; Some "a"]).
Proof.
  intros hull H. unfold convex_hull_slice. rewrite H. cbn [mapM py_nth nth_error rbind combine py_sorted insert fst snd].
  unfold wa_le, pwa. cbn [fst snd insert]. rewrite (Rleb_true 0 120) by lra. cbn [insert fst snd].
  rewrite (Rleb_false 240 0) by lra. cbn [insert fst snd]. rewrite (Rleb_false 240 120) by lra. cbn [insert map fst snd].
  unfold close_hull, pwa. cbn [py_nth py_last nth_error rev app rbind fst snd].
  rewrite (Reqb_true 0 0), (Reqb_false 240 360), (Rltb_false (240 - 0) 180) by lra. reflexivity.
Qed.

(** ** C81: gradients *)

Lemma fold_Rmin_spec : forall l g, (forall x, In x (g :: l) -> fold_left Rmin l g <= x) /\ In (fold_left Rmin l g) (g :: l).
Proof.
  induction l as [|y l IH]; intros g; cbn [fold_left].
  - split; [intros x [->|[]]; lra|cbn; auto].
  - destruct (IH (Rmin g y)) as [H1 H2]. split.
    + intros x [<-|[<-|I]].
      * specialize (H1 (Rmin g y) (or_introl eq_refl)). pose proof (Rmin_l g y). lra.
      * specialize (H1 (Rmin g y) (or_introl eq_refl)). pose proof (Rmin_r g y). lra.
      * apply H1. cbn; auto.
    + destruct H2 as [E|I]; [|cbn; auto]. rewrite <- E. unfold Rmin. destruct (Rle_dec g y); cbn; auto.
Qed.

Lemma fold_Rmax_spec : forall l g, (forall x, In x (g :: l) -> x <= fold_left Rmax l g) /\ In (fold_left Rmax l g) (g :: l).
Proof.
  induction l as [|y l IH]; intros g; cbn [fold_left].
  - split; [intros x [->|[]]; lra|cbn; auto].
  - destruct (IH (Rmax g y)) as [H1 H2]. split.
    + intros x [<-|[<-|I]].
      * specialize (H1 (Rmax g y) (or_introl eq_refl)). pose proof (Rmax_l g y). lra.
      * specialize (H1 (Rmax g y) (or_introl eq_refl)). pose proof (Rmax_r g y). lra.
      * apply H1. cbn; auto.
    + destruct H2 as [E|I]; [|cbn; auto]. rewrite <- E. unfold Rmax. destruct (Rle_dec g y); cbn; auto.
Qed.

(** [lo] and [hi] are the smallest and the largest entry. *)
Definition extremes (l : list R) (lo hi : R) : Prop :=
  In lo l /\ In hi l /\ forall x, In x l -> lo <= x <= hi.

(** C81.  With at least two different values the coefficients are the affine
    image that sends the smallest value to 0 and the largest to 1 ([_partial]:
    equal values have no coefficients, see [gradient_equal_refuted]). *)
Theorem gradient_partial : forall l lo hi, extremes l lo hi -> lo < hi ->
  exists cs, gradient_coefficients l = Ok cs /\ length cs = length l /\
    forall i x, nth_error l i = Some x -> exists c, nth_error cs i = Some c /\
      0 <= c <= 1 /\ x = lo + c * (hi - lo).
Proof.
  intros l lo hi [I1 [I2 RG]] LT. unfold gradient_coefficients. destruct l as [|g r]; [destruct I1|].
  destruct (fold_Rmin_spec r g) as [M1 M2]. destruct (fold_Rmax_spec r g) as [X1 X2].
  assert (fold_left Rmin r g = lo) as -> by (pose proof (M1 _ I1); pose proof (RG _ M2); lra).
  assert (fold_left Rmax r g = hi) as -> by (pose proof (X1 _ I2); pose proof (RG _ X2); lra).
  exists (map (fun x => (x - lo) / (hi - lo)) (g :: r)). split; [|split].
  - apply mapM_Ok_map. intros x _. apply np_div_ok. lra.
  - apply map_length.
  - intros i x N. exists ((x - lo) / (hi - lo)). split; [exact (map_nth_error (fun x => (x - lo) / (hi - lo)) _ _ N)|].
    apply nth_error_In in N. apply RG in N. assert (0 < / (hi - lo)) by (apply Rinv_0_lt_compat; lra). split.
    + split; unfold Rdiv; [nra|]. apply (Rmult_le_reg_r (hi - lo)); [lra|]. rewrite Rmult_assoc, Rinv_l by lra. lra.
    + field. lra.
Qed.
Print Assumptions gradient_partial.

(** Larger values get larger coefficients. *)
Theorem gradient_monotone : forall l cs, gradient_coefficients l = Ok cs ->
  forall i j x y c d, nth_error l i = Some x -> nth_error l j = Some y -> nth_error cs i = Some c -> nth_error cs j = Some d ->
  (x < y <-> c < d).
Proof.
  intros l cs E i j x y c d NX NY NC ND. unfold gradient_coefficients in E. destruct l as [|g r]; [discriminate|].
  destruct (fold_Rmin_spec r g) as [M1 M2]. destruct (fold_Rmax_spec r g) as [X1 X2].
  set (lo := fold_left Rmin r g) in *. set (hi := fold_left Rmax r g) in *.
  assert (lo <= hi) as LE by (apply M1; auto).
  destruct (mapM_nth _ _ _ _ _ E i x NX) as [c' [NC' EC]]. rewrite NC in NC'. injection NC' as <-.
  destruct (mapM_nth _ _ _ _ _ E j y NY) as [d' [ND' ED]]. rewrite ND in ND'. injection ND' as <-.
  unfold np_div in EC, ED. rnum. destruct (Reqb_spec (hi - lo) 0) as [Z|Z]; [discriminate|]. injection EC as <-. injection ED as <-.
  assert (0 < hi - lo) as P by lra. assert (0 < / (hi - lo)) as Q by (apply Rinv_0_lt_compat; auto).
  unfold Rdiv. split; intros L.
  - apply Rmult_lt_compat_r; lra.
  - apply Rmult_lt_reg_r in L; auto. lra.
Qed.
Print Assumptions gradient_monotone.

Example gradient_example : gradient_coefficients [6; 10; 8] = Ok [0; 1; 1 / 2].
Proof.
  unfold gradient_coefficients. cbn [fold_left]. rewrite (Rmin_left 6 10), (Rmin_left 6 8), (Rmax_right 6 10), (Rmax_left 10 8) by lra.
  cbn [mapM]. rewrite !np_div_ok by lra. cbn [rbind]. f_equal. f_equal; [field|]. f_equal; [field|]. f_equal. field.
Qed.

(** C81 is false for equal wind speeds: every coefficient is 0 / 0; and there is
    no gradient of an empty list. *)
Theorem gradient_equal_refuted : forall w n,
  gradient_coefficients (repeat w (S n)) = Raise NonFinite /\ gradient_coefficients [] = Raise ValueError.
Proof.
  intros w n. split; [|reflexivity]. unfold gradient_coefficients. cbn [repeat].
  assert (forall m, fold_left Rmin (repeat w m) w = w) as M.
  { induction m as [|m IH]; auto. cbn. rewrite Rmin_left by lra. auto. }
  assert (forall m, fold_left Rmax (repeat w m) w = w) as X.
  { induction m as [|m IH]; auto. cbn. rewrite Rmax_left by lra. auto. }
  rewrite M, X. cbn [mapM]. unfold np_div. rnum. rewrite Reqb_true by lra. reflexivity.
Qed.
Print Assumptions gradient_equal_refuted.

(** C81.  The mixed colours lie between the two given ones in every channel; the
    slice of the smallest wind speed has the first colour, that of the largest
    the second. *)
Definition between (x a b : R) : Prop := Rmin a b <= x <= Rmax a b.

Theorem gradient_colors : forall to_rgb l c1 c2 rgb1 rgb2 ws lo hi,
  extremes ws lo hi -> lo < hi -> l = [c1; c2] -> to_rgb c1 = Ok rgb1 -> to_rgb c2 = Ok rgb2 ->
  exists cs, color_gradient to_rgb l ws = Ok cs /\ length cs = length ws /\
    forall i w, nth_error ws i = Some w -> exists r g b, nth_error cs i = Some (r, g, b) /\
      between r (fst (fst rgb1)) (fst (fst rgb2)) /\ between g (snd (fst rgb1)) (snd (fst rgb2)) /\
      between b (snd rgb1) (snd rgb2) /\
      (w = lo -> (r, g, b) = rgb1) /\ (w = hi -> (r, g, b) = rgb2).
Proof.
  intros to_rgb l c1 c2 [[r1 g1] b1] [[r2 g2] b2] ws lo hi EX LT -> E1 E2.
  destruct (gradient_partial ws lo hi EX LT) as [cs [E [L N]]].
  unfold color_gradient. rewrite E. cbn [rbind py_nth nth_error]. rewrite E1. cbn [rbind]. rewrite E2. cbn [rbind].
  eexists. split; [reflexivity|]. split; [rewrite map_length; auto|]. intros i w NW.
  destruct (N i w NW) as [c [NC [RC EW]]].
  exists ((1 - c) * r1 + c * r2), ((1 - c) * g1 + c * g2), ((1 - c) * b1 + c * b2).
  assert (forall a b, between ((1 - c) * a + c * b) a b) as B.
  { intros a b. unfold between. unfold Rmin, Rmax. destruct (Rle_dec a b); nra. }
  split; [rewrite (map_nth_error _ _ _ NC); reflexivity|]. cbn [fst snd]. repeat (split; [apply B|]). split; intros ->.
  - assert (c = 0) as -> by nra. f_equal; [f_equal|]; ring.
  - assert (c = 1) as -> by nra. f_equal; [f_equal|]; ring.
Qed.
Print Assumptions gradient_colors.

(** ** C114: colours of the slices *)

Lemma set_nth_length : forall A (l : list A) i x, length (set_nth l i x) = length l.
Proof. induction l as [|y l IH]; intros [|i] x; cbn; auto. Qed.

Lemma set_nth_nth : forall A (l : list A) i j x, (i < length l)%nat ->
  nth_error (set_nth l i x) j = if Nat.eqb i j then Some x else nth_error l j.
Proof.
  induction l as [|y l IH]; intros [|i] [|j] x L; cbn in *; try lia; auto. apply IH. lia.
Qed.

Lemma label_index_ok : forall label labels x, as_number label = Some x -> In x labels ->
  exists i, label_index label labels = Ok i /\ nth_error labels i = Some x.
Proof.
  intros label labels x A. induction labels as [|w r IH]; intros I; [destruct I|]. cbn. rewrite A.
  destruct (Reqb_spec w x) as [->|NE]; [exists 0%nat; auto|]. destruct I as [E|I]; [congruence|].
  destruct (IH I) as [i [E N]]. rewrite E. exists (S i). auto.
Qed.

Lemma label_index_missing : forall label labels, (forall x, as_number label = Some x -> ~ In x labels) ->
  label_index label labels = Raise ValueError.
Proof.
  intros label labels N. induction labels as [|w r IH]; [reflexivity|]. cbn.
  destruct (as_number label) as [x|].
  - destruct (Reqb_spec w x) as [->|NE]; [exfalso; apply (N x); cbn; auto|]. rewrite IH; auto.
    intros y E I. apply (N y E). cbn; auto.
  - rewrite IH; auto. intros; discriminate.
Qed.

(** A list of (wind speed, colour) pairs as Python value. *)
Definition pair_color (p : R * pycolor) : pycolor := PTuple [PFloat (fst p); snd p].

(** The colour that the last pair for [w] names. *)
Fixpoint named (w : R) (ps : list (R * pycolor)) (default : pycolor) : pycolor :=
  match ps with
  | [] => default
  | (x, c) :: r => named w r (if Req_EM_T x w then c else default)
  end.

Lemma color_pairs_named : forall labels ps cycle, NoDup labels -> length cycle = length labels ->
  (forall p, In p ps -> In (fst p) labels) ->
  exists out, color_pairs cycle labels (map pair_color ps) = Ok out /\ length out = length labels /\
    forall i w d, nth_error labels i = Some w -> nth_error cycle i = Some d -> nth_error out i = Some (named w ps d).
Proof.
  intros labels ps. induction ps as [|[x c] ps IH]; intros cycle ND L COV.
  - exists cycle. cbn. auto.
  - cbn [map color_pairs pair_color entries rbind fst snd].
    destruct (label_index_ok (PFloat x) labels x eq_refl (COV _ (or_introl eq_refl))) as [i [E N]]. rewrite E. cbn [rbind].
    assert (i < length cycle)%nat as LI by (rewrite L; apply nth_error_Some; congruence).
    destruct (IH (set_nth cycle i c) ND) as [out [EO [LO F]]].
    + rewrite set_nth_length; auto.
    + intros p I. apply COV. cbn; auto.
    + exists out. split; auto. split; auto. intros j w d NJ NC. cbn [named].
      apply F; auto. rewrite set_nth_nth by auto. destruct (Req_EM_T x w) as [->|NE].
      * assert (i = j) as -> by (eapply NoDup_nth_error_inj; eauto). rewrite Nat.eqb_refl. auto.
      * destruct (Nat.eqb_spec i j) as [->|NJ']; auto. congruence.
Qed.

(** C114.  Pairs: the slice of every wind speed gets the colour named for it, the
    others are blue. *)
Theorem paired_colors : forall is_color_like to_rgb labels ps, ps <> [] -> NoDup labels ->
  (forall p, In p ps -> In (fst p) labels) ->
  (forall p, In p ps -> is_color_like (pair_color p) = false) ->
  exists out, configure_colors is_color_like to_rgb labels (PList (map pair_color ps)) = Ok (Colors out) /\
    length out = length labels /\
    forall i w, nth_error labels i = Some w -> nth_error out i = Some (named w ps (PStr "blue")).
Proof.
  intros icl to_rgb labels ps NE ND COV NC. unfold configure_colors. cbn [only_one_color entries rbind].
  assert (no_color_gradient icl (map pair_color ps) = true) as ->.
  { unfold no_color_gradient. destruct ps as [|p ps]; [congruence|]. cbn [map forallb]. rewrite (NC p) by (cbn; auto).
    cbn. apply orb_true_r. }
  rewrite orb_true_r. unfold color_cycle.
  destruct (color_pairs_named labels ps (map (fun _ => PStr "blue") labels) ND) as [out [E [L F]]]; auto.
  - apply map_length.
  - destruct ps as [|p ps]; [congruence|]. cbn [map py_nth nth_error rbind]. unfold pair_color at 1. cbn [map] in E. rewrite E. cbn [rbind].
    exists out. split; auto. split; auto. intros i w N. apply F; auto. exact (map_nth_error (fun _ : R => PStr "blue") i labels N).
Qed.
Print Assumptions paired_colors.

(** A wind speed that is not plotted is a ValueError. *)
Theorem paired_colors_missing : forall is_color_like to_rgb labels w c ps,
  is_color_like (pair_color (w, c)) = false -> ~ In w labels ->
  configure_colors is_color_like to_rgb labels (PList (map pair_color ((w, c) :: ps))) = Raise ValueError.
Proof.
  intros icl to_rgb labels w c ps NC NI. unfold configure_colors. cbn [only_one_color entries rbind].
  assert (no_color_gradient icl (map pair_color ((w, c) :: ps)) = true) as ->.
  { unfold no_color_gradient. cbn [map forallb]. rewrite NC. apply orb_true_r. }
  rewrite orb_true_r. unfold color_cycle. cbn [map py_nth nth_error rbind]. unfold pair_color at 1.
  cbn [color_pairs pair_color entries rbind fst snd].
  rewrite label_index_missing; [reflexivity|]. cbn. intros x [= <-]. auto.
Qed.
Print Assumptions paired_colors_missing.

(** C114.  A sequence of colours that is no gradient: in turn, blue behind. *)
Theorem listed_colors : forall is_color_like to_rgb labels cs c,
  nth_error cs 0 = Some c -> (forall a b, c <> PTuple [a; b]) ->
  (length labels <= length cs)%nat \/ length cs <> 2%nat ->
  exists out, configure_colors is_color_like to_rgb labels (PList cs) = Ok (Colors out) /\ length out = length labels /\
    forall i, (i < length labels)%nat -> nth_error out i = Some (nth i cs (PStr "blue")).
Proof.
  intros icl to_rgb labels cs c N0 NT LEN. unfold configure_colors. cbn [only_one_color entries rbind].
  assert ((Nat.leb (length labels) (length cs) || no_color_gradient icl cs)%bool = true) as ->.
  { destruct LEN as [LEN|LEN]; [rewrite (proj2 (Nat.leb_le _ _) LEN); auto|].
    unfold no_color_gradient. rewrite (proj2 (Nat.eqb_neq _ _) LEN). cbn. apply orb_true_r. }
  unfold color_cycle, py_nth. rewrite N0. cbn [rbind].
  set (blue := map (fun _ => PStr "blue") labels). assert (length blue = length labels) as LB by apply map_length.
  set (out := firstn (length blue) cs ++ skipn (length (firstn (length blue) cs)) blue).
  exists out. split; [|split].
  - destruct c as [| | |[|a [|b [|d r]]]|]; try reflexivity. exfalso; eapply NT; eauto.
  - unfold out. rewrite app_length, skipn_length, firstn_length. lia.
  - intros i LI. unfold out. rewrite LB. destruct (Nat.lt_ge_cases i (length cs)) as [LC|LC].
    + rewrite nth_error_app1 by (rewrite firstn_length; lia).
      rewrite (nth_error_nth' _ _ i (PStr "blue")) by (rewrite firstn_length; lia). f_equal.
      rewrite <- (firstn_skipn (length labels) cs) at 2. rewrite app_nth1; auto. rewrite firstn_length; lia.
    + rewrite nth_overflow by auto. rewrite nth_error_app2 by (rewrite firstn_length; lia).
      rewrite nth_error_skipn. rewrite firstn_length. rewrite (nth_error_nth' _ _ _ (PStr "blue")) by (rewrite LB; lia).
      f_equal. unfold blue. generalize (Nat.min (length labels) (length cs) + (i - Nat.min (length labels) (length cs)))%nat.
      clear. induction labels as [|w l IH]; intros [|k]; cbn; auto.
Qed.
Print Assumptions listed_colors.

Example paired_colors_example :
  configure_colors (fun _ => false) (fun _ => Raise ValueError) [6; 8; 10]
    (PList [PTuple [PInt 10; PStr "red"]; PTuple [PInt 6; PStr "green"]]) =
  Ok (Colors [PStr "green"; PStr "blue"; PStr "red"]).
Proof.
  unfold configure_colors. cbn. rewrite (Reqb_false 6 10), (Reqb_false 8 10), (Reqb_true 10 10), (Reqb_true 6 6) by lra. reflexivity.
Qed.

(** C114 is false for two colours and two slices: no gradient is used, the
    colours do not depend on the wind speeds.  Of two slices in descending
    order, the one of the larger wind speed is drawn in the first colour, of
    three slices the one of the smallest. *)
Theorem two_colors_refuted : forall is_color_like to_rgb g r rgb1 rgb2,
  is_color_like (PStr g) = true -> is_color_like (PStr r) = true ->
  to_rgb (PStr g) = Ok rgb1 -> to_rgb (PStr r) = Ok rgb2 ->
  configure_colors is_color_like to_rgb [20; 10] (PTuple [PStr g; PStr r]) = Ok (Colors [PStr g; PStr r]) /\
  exists c, configure_colors is_color_like to_rgb [20; 15; 10] (PTuple [PStr g; PStr r]) = Ok (Mixed [rgb2; c; rgb1]).
Proof.
  intros icl to_rgb g r [[r1 g1] b1] [[r2 g2] b2] C1 C2 E1 E2. split; [reflexivity|].
  unfold configure_colors. cbn [only_one_color entries rbind length Nat.leb orb]. unfold no_color_gradient. cbn [forallb length Nat.eqb].
  rewrite C1, C2. cbn [negb andb orb]. unfold color_gradient, gradient_coefficients. cbn [fold_left].
  rewrite (Rmin_right 20 15), (Rmin_right 15 10), (Rmax_left 20 15), (Rmax_left 20 10) by lra. cbn [mapM].
  rewrite !np_div_ok by lra. cbn [rbind py_nth nth_error]. rewrite E1. cbn [rbind]. rewrite E2. cbn [rbind map mix].
  eexists. f_equal. f_equal. f_equal; [f_equal; [f_equal|]; field|]. f_equal. f_equal. f_equal; [f_equal|]; field.
Qed.
Print Assumptions two_colors_refuted.

(** ** C115: a single colour *)

(** C115.  A colour given by name, or by integer channels, is used for all
    slices. *)
Theorem single_color_partial : forall is_color_like to_rgb labels s,
  is_color_like (PStr s) = true ->
  configure_colors is_color_like to_rgb labels (PStr s) = Ok (Colors [PStr s]).
Proof. intros icl to_rgb labels s C. unfold configure_colors, only_one_color. rewrite C. reflexivity. Qed.
Print Assumptions single_color_partial.

Theorem single_color_channels_partial : forall is_color_like to_rgb labels r l,
  length l = 2%nat \/ length l = 3%nat -> is_color_like (PTuple (PInt r :: l)) = true ->
  configure_colors is_color_like to_rgb labels (PTuple (PInt r :: l)) = Ok (Colors [PTuple (PInt r :: l)]).
Proof.
  intros icl to_rgb labels r l [L|L] C; unfold configure_colors, only_one_color; rewrite L, C; reflexivity.
Qed.
Print Assumptions single_color_channels_partial.

(** C115 is false for the usual channels, which are floating point numbers, and
    for lists: the channels are taken for colours of their own. *)
Theorem single_color_refuted : forall is_color_like to_rgb labels r g b,
  configure_colors is_color_like to_rgb [labels] (PTuple [PFloat r; PFloat g; PFloat b]) = Ok (Colors [PFloat r]) /\
  forall z, configure_colors is_color_like to_rgb [labels] (PList [PInt z; PFloat g; PFloat b]) = Ok (Colors [PInt z]).
Proof. intros. split; reflexivity. Qed.
Print Assumptions single_color_refuted.

(** ** C116: triangles of the surface *)

(** Some pair of corners differs in wind speed by more than the square root of 0.2. *)
Definition steep (a b c : R * R * R) : Prop :=
  2 / 10 < (snd a - snd b) ^ 2 \/ 2 / 10 < (snd a - snd c) ^ 2 \/ 2 / 10 < (snd b - snd c) ^ 2.

(** The corners lie above, and not all on the same side of the axis (0 is neither side). *)
Definition crosses_above (a b c : R * R * R) : Prop :=
  let side p s := match s with Lt => fst (fst p) < 0 | Eq => fst (fst p) = 0 | Gt => 0 < fst (fst p) end in
  0 < snd (fst a) /\ 0 < snd (fst b) /\ 0 < snd (fst c) /\ ~ (exists s, side a s /\ side b s /\ side c s).

(** C116.  A triangle that is drawn is steep and does not cross the axis above; one with
    positive first coordinates that is steep at its first corner is drawn ([_partial]: the converse and the
    independence of the order of the corners fail). *)
Theorem surface_partial : forall a b c,
  (draws_triangle a b c = true -> steep a b c /\ ~ crosses_above a b c) /\
  (2 / 10 < (snd a - snd b) ^ 2 \/ 2 / 10 < (snd a - snd c) ^ 2 ->
   0 < fst (fst a) -> 0 < fst (fst b) -> 0 < fst (fst c) -> draws_triangle a b c = true).
Proof.
  intros [[xa ya] za] [[xb yb] zb] [[xc yc] zc]. split.
  - intros D. unfold draws_triangle in D. apply andb_true_iff in D. destruct D as [D N]. split.
    + apply orb_true_iff in D. unfold steep. cbn [snd]. destruct D as [D|D]; apply Rltb_lt in D; auto.
    + intros [A [B [C H]]]. cbn [fst snd] in *. rewrite (Rltb_true 0 ya), (Rltb_true 0 yb) in N by auto. cbn [andb] in N.
      rewrite andb_true_r in N. apply negb_true_iff, orb_false_iff in N. destruct N as [N1 N2].
      unfold sign_differs in N1, N2. apply negb_false_iff, Z.eqb_eq in N1. apply negb_false_iff, Z.eqb_eq in N2.
      apply H. unfold sign in N1, N2.
      destruct (Rltb_spec 0 xa); [|destruct (Rltb_spec xa 0)];
        (destruct (Rltb_spec 0 xb); [|destruct (Rltb_spec xb 0)]); try discriminate;
        (destruct (Rltb_spec 0 xc); [|destruct (Rltb_spec xc 0)]); try discriminate;
        first [exists Gt; cbn; lra | exists Lt; cbn; lra | exists Eq; cbn; lra].
  - cbn [fst snd]. intros S A B C. unfold draws_triangle, sign_differs, sign. rewrite (Rltb_true 0 xa), (Rltb_true 0 xb), (Rltb_true 0 xc) by auto.
    cbn [Z.eqb Pos.eqb negb orb andb]. rewrite andb_true_r. apply orb_true_iff.
    destruct S as [S|S]; [left|right]; apply Rltb_true; auto.
Qed.
Print Assumptions surface_partial.

(** C116 is false: a steep triangle is not drawn when the first corner lies
    between the others, and the same triangle is drawn when its corners are
    listed in another order; a triangle across the upper half of the axis is
    drawn or not depending on the order, too. *)
Theorem surface_refuted :
  (let a := (1, -1, 0) in let b := (2, -1, 4 / 10) in let c := (1, -2, - (4 / 10)) in
   steep a b c /\ draws_triangle a b c = false /\ draws_triangle b a c = true) /\
  (let a := (1, 1, 0) in let b := (-1, 1, 5) in let c := (1, -1, 9) in
   draws_triangle a b c = false /\ draws_triangle a c b = true).
Proof.
  split; cbn zeta.
  - split; [unfold steep; cbn; right; right; lra|]. unfold draws_triangle, sign_differs, sign. split.
    + rewrite (Rltb_false (2 / 10) ((0 - 4 / 10) ^ 2)) by lra. rewrite (Rltb_false (2 / 10) ((0 - - (4 / 10)) ^ 2)) by lra. reflexivity.
    + rewrite (Rltb_false (2 / 10) ((4 / 10 - 0) ^ 2)) by lra. rewrite (Rltb_true (2 / 10) ((4 / 10 - - (4 / 10)) ^ 2)) by lra.
      rewrite (Rltb_false 0 (-1)) by lra. cbn. rewrite andb_false_r. reflexivity.
  - unfold draws_triangle, sign_differs, sign.
    rewrite (Rltb_true 0 1), (Rltb_false 0 (-1)), (Rltb_true (-1) 0), (Rltb_true (2 / 10) ((0 - 5) ^ 2)), (Rltb_true (2 / 10) ((0 - 9) ^ 2)) by lra.
    split; reflexivity.
Qed.
Print Assumptions surface_refuted.

(** The point of a record in the surface plot: its offset from the axis is the
    boat speed, its height the wind speed; 0 degrees are on top, 90 degrees on the right. *)
Theorem surface_point : forall p, let '(x, y, z) := prepare_point p in
  x ^ 2 + y ^ 2 = pbs p ^ 2 /\ z = pws p /\
  (pwa p = 0 -> x = 0 /\ y = pbs p) /\ (pwa p = 90 -> x = pbs p /\ y = 0) /\
  (0 < pbs p -> (0 < pwa p < 180 -> 0 < x) /\ (90 < pwa p < 270 -> y < 0)).
Proof.
  intros p. unfold prepare_point. split.
  { pose proof (sin2_cos2 (deg2rad (pwa p))) as SC. unfold Rsqr in SC. nra. }
  split; auto. pose proof PI_RGT_0 as PP. split; [|split].
  - intros ->. unfold deg2rad. rewrite Rmult_0_l, sin_0, cos_0. lra.
  - intros ->. replace (deg2rad 90) with (PI / 2) by (unfold deg2rad; field). rewrite sin_PI2, cos_PI2. lra.
  - intros B. split; intros A.
    + apply Rmult_lt_0_compat; auto. apply sin_gt_0; unfold deg2rad; nra.
    + assert (cos (deg2rad (pwa p)) < 0) by (apply cos_lt_0; unfold deg2rad; nra). nra.
Qed.
Print Assumptions surface_point.
