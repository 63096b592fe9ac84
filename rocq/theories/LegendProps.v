(** * Properties of legends *)

From Coq Require Import String List Bool Arith ZArith Reals Lra Lia.
From Verif Require Import Py Num ListX MultiModel GlobeProofs PlotModel PlotProps LegendModel.
Import ListNotations.
Open Scope nat_scope.
Open Scope string_scope.
Open Scope list_scope.
Open Scope R_scope.

(** ** Specification *)

(** A colour as it is given, or computed. *)
Inductive shade := Given (c : pycolor) | Computed (rgb : R * R * R).

(** The colour of the [i]-th slice drawn: matplotlib goes through the cycle again and
    again. *)
Definition drawn (c : cycle) (i : nat) : option shade :=
  match c with
  | Colors l => option_map Given (nth_error l (i mod length l))
  | Mixed l => option_map Computed (nth_error l (i mod length l))
  end.

(** The legend [h] says that the slice for wind speed [w] is drawn in the colour [c]. *)
Definition says (h : list (pycolor * pycolor)) (w : R) (c : pycolor) : Prop :=
  exists x, In (x, c) h /\ as_number x = Some w.

(** Every entry of the legend is right. *)
Definition truthful (labels : list R) (c : cycle) (h : list (pycolor * pycolor)) : Prop :=
  forall i w col, nth_error labels i = Some w -> says h w col -> drawn c i = Some (Given col).

(** Every slice has an entry. *)
Definition complete (labels : list R) (h : list (pycolor * pycolor)) : Prop :=
  forall w, In w labels -> exists col, says h w col.

(** ** Lists of colours *)

Lemma cycle_listed : forall labels cs c, nth_error cs 0 = Some c -> (forall a b, c <> PTuple [a; b]) ->
  exists out, color_cycle labels cs = Ok out /\ length out = length labels /\
    forall i, (i < length labels)%nat -> nth_error out i = Some (nth i cs (PStr "blue")).
Proof.
  intros labels cs c N0 NT. unfold color_cycle, py_nth. rewrite N0. cbn [rbind].
  set (blue := map (fun _ => PStr "blue") labels). assert (length blue = length labels) as LB by apply map_length.
  set (out := firstn (length blue) cs ++ skipn (length (firstn (length blue) cs)) blue).
  exists out. split; [|split].
  - destruct c as [| | |[|a [|b [|d r]]]|]; try reflexivity. exfalso; eapply NT; eauto.
  - unfold out. rewrite app_length, skipn_length, firstn_length. lia.
  - intros i LI. unfold out. rewrite LB. destruct (Nat.lt_ge_cases i (length cs)) as [LC|LC].
    + rewrite nth_error_app1 by (rewrite firstn_length; lia).
      rewrite (nth_error_nth' _ _ i (PStr "blue")) by (rewrite firstn_length; lia). f_equal.
      rewrite <- (firstn_skipn (length labels) cs) at 2. rewrite app_nth1; auto. rewrite firstn_length; lia.
    + rewrite nth_overflow by auto. rewrite nth_error_app2 by (rewrite firstn_length; lia).
      rewrite nth_error_skipn. rewrite firstn_length. rewrite (nth_error_nth' _ _ _ (PStr "blue")) by (rewrite LB; lia).
      f_equal. unfold blue. generalize (Nat.min (length labels) (length cs) + (i - Nat.min (length labels) (length cs)))%nat.
      clear. induction labels as [|w l IH]; intros [|k]; cbn; auto.
Qed.

Lemma lines_ok : forall icl l, (forall wc, In wc l -> icl (snd wc) = true) -> mapM (line icl) l = Ok l.
Proof.
  induction l as [|wc l IH]; intros A; [reflexivity|]. cbn [mapM]. unfold line at 1. rewrite (A wc) by (cbn; auto).
  cbn [rbind]. rewrite IH; [reflexivity|]. intros; apply A; cbn; auto.
Qed.

Lemma says_combine : forall labels cs w col, says (combine (map PFloat labels) cs) w col <->
  exists i, nth_error labels i = Some w /\ nth_error cs i = Some col.
Proof.
  unfold says. induction labels as [|x labels IH]; intros [|c cs] w col; cbn [map combine].
  1-3: split; [intros (? & [] & _)|intros ([|i] & A & B); discriminate].
  split.
  - intros (y & [E|I] & N).
    + inversion E; subst. inversion N; subst. exists 0%nat. auto.
    + destruct (proj1 (IH cs w col)) as [i H]; [eauto|]. exists (S i). auto.
  - intros ([|i] & A & B).
    + cbn in A, B. inversion A; inversion B; subst. exists (PFloat w). cbn. auto.
    + destruct (proj2 (IH cs w col)) as [y [I N]]; [eauto|]. exists y. cbn. auto.
Qed.

Lemma gradient_same : forall icl labels l,
  plot_with_color_gradient icl labels l = negb (Nat.leb (length labels) (length l) || no_color_gradient icl l).
Proof.
  intros. unfold plot_with_color_gradient, no_color_gradient.
  destruct (Nat.leb_spec (length labels) (length l)), (Nat.ltb_spec (length l) (length labels)); try lia;
    destruct (Nat.eqb (length l) 2), (forallb icl l); reflexivity.
Qed.

(** C120.  A sequence of colours, one for every slice or not: the legend has an entry for
    every slice that has a colour in the sequence, and all entries are right. *)
Theorem legend_listed : forall is_color_like to_rgb labels colors cs c,
  NoDup labels -> entries colors = Ok cs -> only_one_color is_color_like colors = false ->
  nth_error cs 0 = Some c -> (forall l, c <> PTuple l) -> (forall x, In x cs -> is_color_like x = true) ->
  (length labels <= length cs)%nat \/ length cs <> 2%nat ->
  exists cyc h, configure_axes is_color_like to_rgb labels colors = Ok (cyc, Handles h) /\
    truthful labels cyc h /\
    forall i w, nth_error labels i = Some w -> ((exists col, says h w col) <-> (i < length cs)%nat).
Proof.
  intros icl to_rgb labels colors cs c ND EN OO N0 NT ACL LEN.
  assert (G : (Nat.leb (length labels) (length cs) || no_color_gradient icl cs)%bool = true).
  { destruct LEN as [LEN|LEN]; [rewrite (proj2 (Nat.leb_le _ _) LEN); auto|].
    unfold no_color_gradient. rewrite (proj2 (Nat.eqb_neq _ _) LEN). cbn. apply orb_true_r. }
  destruct (cycle_listed labels cs c N0) as [out [EO [LO FO]]]; [intros a b; apply NT|].
  exists (Colors out), (combine (map PFloat labels) cs). split; [|split].
  - unfold configure_axes, configure_colors. rewrite OO, EN. cbn [rbind]. rewrite G, EO. cbn [rbind].
    unfold configure_legend. rewrite EN. cbn [rbind]. rewrite gradient_same, G. cbn [negb].
    unfold py_nth. rewrite N0. cbn [rbind].
    assert (L : legend_with_wind_speeds icl cs labels = Ok (Handles (combine (map PFloat labels) cs))).
    { unfold legend_with_wind_speeds. rewrite lines_ok; [reflexivity|]. intros [a b] I. apply in_combine_r in I. cbn. auto. }
    destruct c; try (rewrite L; reflexivity). exfalso. eapply NT; eauto.
  - intros i w col N S. apply says_combine in S. destruct S as (j & A & B).
    assert (i = j) as <-.
    { apply (proj1 (NoDup_nth_error labels) ND); [apply nth_error_Some; congruence|congruence]. }
    assert (LI : (i < length labels)%nat) by (apply nth_error_Some; congruence).
    unfold drawn. rewrite LO, Nat.mod_small by auto. rewrite FO by auto. cbn. f_equal. f_equal.
    apply nth_error_nth. auto.
  - intros i w N. split.
    + intros (col & S). apply says_combine in S. destruct S as (j & A & B).
      assert (i = j) as <-.
      { apply (proj1 (NoDup_nth_error labels) ND); [apply nth_error_Some; congruence|congruence]. }
      apply nth_error_Some. congruence.
    + intros LI. destruct (nth_error cs i) as [col|] eqn:E; [|apply nth_error_None in E; lia].
      exists col. apply says_combine. eauto.
Qed.
Print Assumptions legend_listed.

(** C120.  With a colour for every slice the legend is complete. *)
Theorem legend_listed_complete_partial : forall is_color_like to_rgb labels colors cs c,
  NoDup labels -> entries colors = Ok cs -> only_one_color is_color_like colors = false ->
  nth_error cs 0 = Some c -> (forall l, c <> PTuple l) -> (forall x, In x cs -> is_color_like x = true) ->
  (length labels <= length cs)%nat ->
  exists cyc h, configure_axes is_color_like to_rgb labels colors = Ok (cyc, Handles h) /\
    truthful labels cyc h /\ complete labels h.
Proof.
  intros icl to_rgb labels colors cs c ND EN OO N0 NT ACL LEN.
  destruct (legend_listed icl to_rgb labels colors cs c) as (cyc & h & E & T & C); auto.
  exists cyc, h. split; auto. split; auto. intros w I. apply In_nth_error in I. destruct I as [i N].
  apply (C i w N). assert ((i < length labels)%nat) by (apply nth_error_Some; congruence). lia.
Qed.
Print Assumptions legend_listed_complete_partial.

(** C120 is false with more slices than colours: those behind are drawn in blue and are
    not in the legend. *)
Theorem legend_listed_refuted : forall is_color_like to_rgb,
  (forall s, is_color_like (PStr s) = true) ->
  exists labels colors cyc h, configure_axes is_color_like to_rgb labels colors = Ok (cyc, Handles h) /\
    NoDup labels /\ ~ complete labels h.
Proof.
  intros icl to_rgb A. exists [6; 8; 10; 12], (PTuple [PStr "green"; PStr "red"; PStr "black"]).
  destruct (legend_listed icl to_rgb [6; 8; 10; 12] (PTuple [PStr "green"; PStr "red"; PStr "black"])
    [PStr "green"; PStr "red"; PStr "black"] (PStr "green")) as (cyc & h & E & T & C).
  - repeat constructor; cbn; lra.
  - reflexivity.
  - reflexivity.
  - reflexivity.
  - discriminate.
  - cbn. intros x [<-|[<-|[<-|[]]]]; auto.
  - right. discriminate.
  - exists cyc, h. split; auto. split; [repeat constructor; cbn; lra|]. intros K.
    assert (I : In 12 [6; 8; 10; 12]) by (cbn; auto). apply K in I. apply (C 3%nat 12) in I; cbn in *; auto; lia.
Qed.
Print Assumptions legend_listed_refuted.

(** ** A single colour *)

(** C120 is false for a single colour: its name is taken letter by letter.  The name "r"
    gives an entry for the first slice only, the name "red" is an error, as "e" is no
    colour. *)
Theorem legend_single_refuted : forall is_color_like to_rgb w1 w2 ws,
  is_color_like (PStr "r") = true -> is_color_like (PStr "red") = true -> is_color_like (PStr "e") = false ->
  configure_axes is_color_like to_rgb (w1 :: w2 :: ws) (PStr "r") =
    Ok (Colors [PStr "r"], Handles [(PFloat w1, PStr "r")]) /\
  configure_axes is_color_like to_rgb (w1 :: w2 :: ws) (PStr "red") = Raise ValueError.
Proof.
  intros icl to_rgb w1 w2 ws R1 R2 R3. unfold configure_axes, configure_colors, only_one_color. rewrite R1, R2.
  cbn [rbind]. unfold configure_legend. cbn [entries list_ascii_of_string map rbind].
  unfold plot_with_color_gradient, no_color_gradient. cbn [length Nat.eqb negb orb andb py_nth nth_error rbind].
  unfold legend_with_wind_speeds. cbn [map combine mapM]. unfold line. cbn [snd]. rewrite R1, R3. cbn [rbind].
  split; reflexivity.
Qed.
Print Assumptions legend_single_refuted.

(** ** Pairs *)

Lemma named_other : forall ps w d, ~ In w (map fst ps) -> named w ps d = d.
Proof.
  induction ps as [|[x c] ps IH]; intros w d N; cbn in *; auto. destruct (Req_EM_T x w); [tauto|]. apply IH. tauto.
Qed.

Lemma named_In : forall ps w c d, NoDup (map fst ps) -> In (w, c) ps -> named w ps d = c.
Proof.
  induction ps as [|[x e] ps IH]; intros w c d ND I; cbn in *; [destruct I|]. inversion ND as [|? ? NI ND']; subst.
  destruct I as [E|I].
  - inversion E; subst. destruct (Req_EM_T w w); [|congruence]. apply named_other; auto.
  - apply IH; auto.
Qed.

Lemma pair_lines : forall icl ps, (forall p, In p ps -> icl (snd p) = true) ->
  mapM (fun c => do lc <- entries c; match lc with [ws; color] => line icl (ws, color) | _ => Raise ValueError end)
    (map pair_color ps) = Ok (map (fun p => (PFloat (fst p), snd p)) ps).
Proof.
  induction ps as [|p ps IH]; intros A; [reflexivity|]. cbn [map mapM]. unfold pair_color at 1. cbn [entries rbind].
  unfold line at 1. cbn [snd]. rewrite (A p) by (cbn; auto). cbn [rbind]. rewrite IH; [reflexivity|].
  intros; apply A; cbn; auto.
Qed.

Lemma says_pairs : forall ps w c, says (map (fun p => (PFloat (fst p), snd p)) ps) w c <-> In (w, c) ps.
Proof.
  intros ps w c. unfold says. split.
  - intros (x & I & N). apply in_map_iff in I. destruct I as ([a b] & E & I). inversion E; subst. inversion N; subst. auto.
  - intros I. exists (PFloat w). split; auto. apply in_map_iff. exists (w, c). auto.
Qed.

(** C120.  Pairs of wind speeds and colours: the legend has exactly the named slices, and
    is right if no wind speed is named twice ([_partial]: the other slices, drawn in blue,
    are missing). *)
Theorem legend_pairs_partial : forall is_color_like to_rgb labels ps, ps <> [] -> NoDup labels -> NoDup (map fst ps) ->
  (forall p, In p ps -> In (fst p) labels) ->
  (forall p, In p ps -> is_color_like (pair_color p) = false /\ is_color_like (snd p) = true) ->
  exists cyc h, configure_axes is_color_like to_rgb labels (PList (map pair_color ps)) = Ok (cyc, Handles h) /\
    truthful labels cyc h /\ forall w c, says h w c <-> In (w, c) ps.
Proof.
  intros icl to_rgb labels ps NE ND NP COV CL.
  destruct (paired_colors icl to_rgb labels ps NE ND COV) as (out & E & L & F); [intros; apply CL; auto|].
  exists (Colors out), (map (fun p => (PFloat (fst p), snd p)) ps). split; [|split].
  - unfold configure_axes. rewrite E. cbn [rbind]. unfold configure_legend. cbn [entries rbind].
    assert (G : plot_with_color_gradient icl labels (map pair_color ps) = false).
    { unfold plot_with_color_gradient, no_color_gradient. destruct ps as [|p ps]; [congruence|]. cbn [map forallb].
      rewrite (proj1 (CL p (or_introl eq_refl))). cbn. rewrite orb_true_r. reflexivity. }
    rewrite G. assert (P := pair_lines icl ps (fun p I => proj2 (CL p I))).
    destruct ps as [|p ps]; [congruence|]. cbn [map py_nth nth_error rbind]. unfold pair_color at 1.
    rewrite (proj1 (CL p (or_introl eq_refl))).
    unfold legend_without_wind_speeds. cbn [map] in P. rewrite P. reflexivity.
  - intros i w col N S. apply says_pairs in S. unfold drawn.
    assert (LI : (i < length labels)%nat) by (apply nth_error_Some; congruence).
    rewrite L, Nat.mod_small by auto. rewrite (F i w N). cbn. rewrite (named_In ps w col); auto.
  - intros. apply says_pairs.
Qed.
Print Assumptions legend_pairs_partial.

(** ** Gradients *)

Lemma extremes_min : forall w r lo hi, extremes (w :: r) lo hi -> fold_left Rmin r w = lo.
Proof.
  intros w r lo hi (I1 & I2 & RG). destruct (fold_Rmin_spec r w) as [M1 M2].
  specialize (M1 lo I1). specialize (RG _ M2). lra.
Qed.

Lemma extremes_max : forall w r lo hi, extremes (w :: r) lo hi -> fold_left Rmax r w = hi.
Proof.
  intros w r lo hi (I1 & I2 & RG). destruct (fold_Rmax_spec r w) as [M1 M2].
  specialize (M1 hi I2). specialize (RG _ M2). lra.
Qed.

(** C120.  Two colours and more than two slices: a colour bar from the least to the
    greatest wind speed that shows at every wind speed the colour of its slice. *)
Theorem legend_gradient : forall is_color_like to_rgb labels colors c1 c2 rgb1 rgb2 lo hi,
  extremes labels lo hi -> lo < hi -> (2 < length labels)%nat ->
  entries colors = Ok [c1; c2] -> only_one_color is_color_like colors = false ->
  is_color_like c1 = true -> is_color_like c2 = true -> to_rgb c1 = Ok rgb1 -> to_rgb c2 = Ok rgb2 ->
  exists cyc, configure_axes is_color_like to_rgb labels colors = Ok (cyc, ColorBar lo hi rgb1 rgb2) /\
    forall i w, nth_error labels i = Some w -> exists rgb,
      bar_color lo hi rgb1 rgb2 w = Ok rgb /\ drawn cyc i = Some (Computed rgb).
Proof.
  intros icl to_rgb labels colors c1 c2 rgb1 rgb2 lo hi EX LT LEN EN OO C1 C2 E1 E2.
  destruct (gradient_partial labels lo hi EX LT) as [cs [E [L N]]].
  assert (G : (Nat.leb (length labels) (length [c1; c2]) || no_color_gradient icl [c1; c2])%bool = false).
  { unfold no_color_gradient. cbn [forallb length Nat.eqb]. rewrite C1, C2. cbn [negb andb orb].
    rewrite orb_false_r. apply Nat.leb_gt. auto. }
  exists (Mixed (map (fun c => mix c rgb1 rgb2) cs)). split.
  - unfold configure_axes, configure_colors. rewrite OO, EN. cbn [rbind]. rewrite G. unfold color_gradient.
    rewrite E. cbn [rbind py_nth nth_error]. rewrite E1. cbn [rbind]. rewrite E2. cbn [rbind].
    unfold configure_legend. rewrite EN. cbn [rbind]. rewrite gradient_same, G. cbn [negb].
    unfold set_colormap. cbn [py_nth nth_error rbind]. rewrite E1. cbn [rbind]. rewrite E2. cbn [rbind].
    destruct labels as [|w0 r]; [cbn in LEN; lia|].
    rewrite (extremes_min w0 r lo hi EX), (extremes_max w0 r lo hi EX). reflexivity.
  - intros i w NW. destruct (N i w NW) as [c [NC [RC EW]]].
    exists (mix c rgb1 rgb2). unfold bar_color, np_div. rnum. rewrite Reqb_false by lra. cbn [rbind].
    assert ((w - lo) / (hi - lo) = c) as -> by (rewrite EW; field; lra).
    split; [reflexivity|]. unfold drawn. rewrite map_length, L.
    rewrite Nat.mod_small by (apply nth_error_Some; congruence). rewrite (map_nth_error _ _ _ NC). reflexivity.
Qed.
Print Assumptions legend_gradient.

(** ** Examples *)

Example legend_listed_case :
  configure_axes (fun _ => true) (fun _ => Raise ValueError) [6; 8] (PTuple [PStr "green"; PStr "red"]) =
  Ok (Colors [PStr "green"; PStr "red"], Handles [(PFloat 6, PStr "green"); (PFloat 8, PStr "red")]).
Proof. reflexivity. Qed.

Example legend_gradient_case : exists l,
  configure_axes (fun _ => true) (fun c => match c with PStr "green" => Ok (0, 1 / 2, 0) | _ => Ok (1, 0, 0) end)
    [6; 8; 10] (PTuple [PStr "green"; PStr "red"]) = Ok (Mixed l, ColorBar 6 10 (0, 1 / 2, 0) (1, 0, 0)) /\
  drawn (Mixed l) 1 = Some (Computed (1 / 2, 1 / 4, 0)).
Proof.
  destruct (legend_gradient (fun _ => true) (fun c => match c with PStr "green" => Ok (0, 1 / 2, 0) | _ => Ok (1, 0, 0) end)
    [6; 8; 10] (PTuple [PStr "green"; PStr "red"]) (PStr "green") (PStr "red") (0, 1 / 2, 0) (1, 0, 0) 6 10) as (cyc & E & D); auto.
  - unfold extremes. split; [cbn; auto|]. split; [cbn; auto|]. cbn. intros x [<-|[<-|[<-|[]]]]; lra.
  - lra.
  - destruct (D 1%nat 8 eq_refl) as (rgb & B & DR).
    destruct cyc as [l|l].
    + exfalso. cbn in DR. destruct (nth_error l (1 mod length l)); discriminate.
    + exists l. split; auto. rewrite DR. unfold bar_color in B. rewrite np_div_ok in B by lra.
      cbn in B. inversion B; subst. f_equal. f_equal. f_equal; [f_equal|]; field.
Qed.

Example legend_pairs_case :
  configure_axes (fun c => match c with PStr _ => true | _ => false end) (fun _ => Raise ValueError) [6; 8; 10]
    (PList [pair_color (10, PStr "red")]) =
  Ok (Colors [PStr "blue"; PStr "blue"; PStr "red"], Handles [(PFloat 10, PStr "red")]).
Proof.
  unfold configure_axes, configure_colors. cbn.
  rewrite (Reqb_false 6 10), (Reqb_false 8 10), (Reqb_true 10 10) by lra. reflexivity.
Qed.
