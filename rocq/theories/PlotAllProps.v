(** * Properties of the plots of whole diagrams (C134) *)

From Coq Require Import String List Bool Arith ZArith Reals Lra Lia Permutation Sorting.Sorted.
From Verif Require Import Py Num ListX Trig WPointsModel InterpModel BaseModel PlotModel LegendModel PlotAllModel PlotProps.
Import ListNotations.
Open Scope string_scope.
Open Scope list_scope.
Open Scope R_scope.

(** ** Specification *)

(** The angle on the axes: in radians on polar axes, in degrees on flat ones. *)
Definition on_axis (polar : bool) (a : R) : R := if polar then a * PI / 180 else a.

(** A line through exactly the points of the slice, by increasing angle. *)
Definition shows (polar : bool) (slice : list (pt3 R)) (x : drawing) : Prop :=
  exists pts, Permutation pts slice /\ StronglySorted (fun p q => pwa p <= pwa q) pts /\
    d_angles x = map (fun p => Some (on_axis polar (pwa p))) pts /\ d_speeds x = map (fun p => Some (pbs p)) pts.

(** A line for every wind speed [w], the [i]-th of the labels, in a colour with [P i w]. *)
Definition drawn (polar : bool) (labels : list R) (slices : list (list (pt3 R)))
    (r : result (list drawing * option legend)) (P : nat -> R -> shade -> Prop) : Prop :=
  exists lines, r = Ok (lines, None) /\ length lines = length labels /\
    forall i w slice, nth_error labels i = Some w -> nth_error slices i = Some slice ->
      exists x, nth_error lines i = Some x /\ shows polar slice x /\ P i w (d_shade x).

(** ** Proofs *)

Lemma deg_on_axis : forall (polar : bool) a, (if polar then deg2rad a else a) = on_axis polar a.
Proof. intros [] a; unfold on_axis, deg2rad; [field|reflexivity]. Qed.

Lemma mapM_exists : forall A B (f : A -> result B) l, (forall x, In x l -> exists y, f x = Ok y) ->
  exists ys, mapM f l = Ok ys /\ length ys = length l /\
    forall i x, nth_error l i = Some x -> exists y, nth_error ys i = Some y /\ f x = Ok y.
Proof.
  intros A B f l. induction l as [|x l IH]; intros H.
  - exists []. split; [reflexivity|]. split; auto. intros [|i] x E; discriminate.
  - destruct (H x (or_introl eq_refl)) as [y E]. destruct IH as [ys [EM [L F]]]; [intros; apply H; right; auto|].
    exists (y :: ys). cbn [mapM]. rewrite E. cbn [rbind]. rewrite EM. split; [reflexivity|]. split; [cbn; auto|].
    intros [|i] x' EX; [injection EX as <-; exists y; auto|]. apply F. exact EX.
Qed.

Section All.
  Variable icl : pycolor -> bool.
  Variable to_rgb : pycolor -> result (R * R * R).
  Variable hull : list (R * R) -> option (list nat).
  Variable argsort : list (pt3 R) -> list (pt3 R).
  Hypothesis SO : sorts argsort.

  Lemma take_ok : forall cs i, cs <> [] -> exists c, nth_error cs (i mod length cs) = Some c /\ take_color cs i = Ok c.
  Proof.
    intros cs i NE. unfold take_color, py_nth.
    destruct (nth_error cs (i mod length cs)) as [c|] eqn:E; [eauto|]. exfalso. apply nth_error_None in E.
    assert (length cs <> 0)%nat by (destruct cs; [contradiction|discriminate]).
    pose proof (Nat.mod_upper_bound i (length cs) H). lia.
  Qed.

  Lemma plot_all_lines : forall cs polar slices, cs <> [] -> slices <> [] ->
    exists lines, plot_all hull argsort cs polar false slices None = Ok lines /\ length lines = length slices /\
      forall i slice, nth_error slices i = Some slice ->
        exists x, nth_error lines i = Some x /\ shows polar slice x /\ nth_error cs (i mod length cs) = Some (d_shade x).
  Proof.
    intros cs polar slices NC NS.
    destruct (mapM_exists _ _ (fun isl : nat * (list (pt3 R) * option (list string)) =>
      do xy <- plot_slice hull argsort polar false (fst (snd isl)) (snd (snd isl));
      do c <- take_color cs (fst isl); Ok (mkDrawing (fst xy) (snd xy) c)) (enumerate (safe_zip slices None))) as [lines [E [L F]]].
    { intros [i [s o]] I. apply enumerate_In in I. cbn [fst snd].
      assert (o = None) as ->.
      { apply nth_error_In in I. unfold safe_zip in I. apply in_map_iff in I. destruct I as [s' [I _]]. congruence. }
      destruct (take_ok cs i NC) as [c [_ TC]]. unfold plot_slice. cbn [rbind]. rewrite TC. cbn [rbind]. eauto. }
    exists lines. split; [|split].
    - unfold plot_all. destruct slices; [contradiction|]. exact E.
    - rewrite L, enumerate_length. unfold safe_zip. rewrite map_length. reflexivity.
    - intros i slice N. destruct (F i (i, (slice, None))) as [x [NX EX]].
      { apply nth_error_enumerate. split; auto. unfold safe_zip. rewrite nth_error_map, N. reflexivity. }
      exists x. split; auto. cbn [fst snd] in EX. destruct (take_ok cs i NC) as [c [NTH TC]]. rewrite TC in EX.
      unfold plot_slice in EX. cbn [rbind] in EX. injection EX as <-. split; [|exact NTH].
      destruct (SO slice) as [P S]. exists (argsort slice). split; auto. split; auto. cbn [d_angles d_speeds fst snd].
      rewrite !map_map. split; apply map_ext; intros p; rewrite ?deg_on_axis; reflexivity.
  Qed.

  Lemma draw_drawn : forall polar pd default ws n labels slices colors c cs (P : nat -> R -> shade -> Prop),
    (ws = WNone -> pl_default pd = Ok default) -> get_windspeeds default ws n = Ok labels ->
    pl_slices pd labels = Ok slices -> pl_info pd labels = None -> length slices = length labels -> labels <> [] ->
    configure_colors icl to_rgb labels colors = Ok c -> set_cycle icl c = Ok cs -> cs <> [] ->
    (forall i w x, nth_error labels i = Some w -> nth_error cs (i mod length cs) = Some x -> P i w x) ->
    drawn polar labels slices (draw icl to_rgb hull argsort polar pd ws n colors false false) P.
  Proof.
    intros polar pd default ws n labels slices colors c cs P HD HW HS HI HL NE HC HCS NC HP.
    assert (slices <> []) as NS by (destruct slices; [destruct labels; [contradiction|discriminate]|discriminate]).
    destruct (plot_all_lines cs polar slices NC NS) as [lines [E [L F]]].
    exists lines. split; [|split; [congruence|]].
    - unfold draw, get_slices.
      assert ((do default' <- match ws with WNone => pl_default pd | _ => Ok [] end;
               do labels <- get_windspeeds default' ws n;
               do slices <- pl_slices pd labels;
               do info <- match pl_info pd labels with None => Ok None | Some r => do i <- r; Ok (Some i) end;
               Ok (labels, slices, info)) = Ok (labels, slices, None)) as ->.
      { assert (exists d', match ws with WNone => pl_default pd | _ => Ok [] end = Ok d' /\ get_windspeeds d' ws n = Ok labels) as [d' [-> E']].
        { destruct ws; [exists default; split; auto|exists []; split; auto..]. }
        cbn [rbind]. rewrite E'. cbn [rbind]. rewrite HS. cbn [rbind]. rewrite HI. reflexivity. }
      cbn [rbind]. rewrite HC. cbn [rbind]. rewrite HCS. cbn [rbind]. rewrite E. reflexivity.
    - intros i w slice N1 N2. destruct (F i slice N2) as [x [NX [SH NCX]]]. exists x. split; [auto|split; [auto|eapply HP; eauto]].
  Qed.

  Lemma given_cycle : forall l, (forall c, In c l -> icl c = true) -> set_cycle icl (Colors l) = Ok (map Given l).
  Proof.
    intros l H. unfold set_cycle. assert (forallb icl l = true) as -> by (apply forallb_forall; auto). reflexivity.
  Qed.
End All.

(** C134.  Plots of a diagram without several sails (tables, curves and clouds), lines and markers
    alike, on polar and on flat axes: one line for every wind speed, through the points of its
    slice by increasing angle, in the documented colour, that is
    (1) a single colour,
    (2) the mixture of two colours for more than two slices,
    (3) the colours in turn, then blue,
    (4) the colour named in the pairs, blue without one. *)
Theorem whole_plot : forall is_color_like to_rgb hull argsort polar pd default ws n labels slices, sorts argsort ->
  (ws = WNone -> pl_default pd = Ok default) -> get_windspeeds default ws n = Ok labels ->
  pl_slices pd labels = Ok slices -> pl_info pd labels = None -> length slices = length labels -> labels <> [] ->
  let result colors := draw is_color_like to_rgb hull argsort polar pd ws n colors false false in
  let drawn colors P := drawn polar labels slices (result colors) P in
  (forall s, is_color_like (PStr s) = true -> drawn (PStr s) (fun _ _ x => x = Given (PStr s))) /\
  (forall c1 c2 r1 g1 b1 r2 g2 b2 lo hi, (2 < length labels)%nat ->
     is_color_like c1 = true -> is_color_like c2 = true ->
     to_rgb c1 = Ok (r1, g1, b1) -> to_rgb c2 = Ok (r2, g2, b2) -> extremes labels lo hi -> lo < hi ->
     drawn (PTuple [c1; c2]) (fun _ w x => exists t, w = lo + t * (hi - lo) /\
       x = Rgb (r1 + t * (r2 - r1), g1 + t * (g2 - g1), b1 + t * (b2 - b1)))) /\
  (forall cs c, nth_error cs 0 = Some c -> (forall a b, c <> PTuple [a; b]) ->
     (length labels <= length cs)%nat \/ length cs <> 2%nat ->
     (forall c, In c (PStr "blue" :: cs) -> is_color_like c = true) ->
     drawn (PList cs) (fun i _ x => x = Given (nth i cs (PStr "blue")))) /\
  (forall ps, ps <> [] -> NoDup labels -> (forall p, In p ps -> In (fst p) labels) ->
     (forall p, In p ps -> is_color_like (pair_color p) = false) ->
     (forall c, In c (PStr "blue" :: map snd ps) -> is_color_like c = true) ->
     drawn (PList (map pair_color ps)) (fun _ w x => x = Given (named w ps (PStr "blue")))).
Proof.
  intros icl to_rgb hull argsort polar pd default ws n labels slices SO HD HW HS HI HL NE result drawn. subst result drawn. cbn beta.
  assert (forall out (P : nat -> R -> shade -> Prop) colors, configure_colors icl to_rgb labels colors = Ok (Colors out) ->
    length out = length labels -> (forall c, In c out -> icl c = true) ->
    (forall i w c, nth_error labels i = Some w -> nth_error out i = Some c -> P i w (Given c)) ->
    PlotAllProps.drawn polar labels slices (draw icl to_rgb hull argsort polar pd ws n colors false false) P) as K.
  { intros out P colors E L OK HP.
    eapply draw_drawn; eauto; [apply given_cycle; auto| |].
    - destruct out; [destruct labels; [contradiction|discriminate]|discriminate].
    - intros i w x N1 N2. rewrite map_length, L, Nat.mod_small in N2 by (apply nth_error_Some; congruence).
      rewrite nth_error_map in N2. destruct (nth_error out i) as [c|] eqn:EC; [|discriminate]. injection N2 as <-. eauto. }
  split; [|split; [|split]].
  - intros s C. eapply draw_drawn; eauto.
    + apply single_color_partial. exact C.
    + apply given_cycle. intros c [<-|[]]. exact C.
    + discriminate.
    + intros i w x _ N. cbn [map length] in N. rewrite Nat.mod_1_r in N. cbn in N. congruence.
  - intros c1 c2 r1 g1 b1 r2 g2 b2 lo hi L2 C1 C2 E1 E2 EX LT.
    destruct (gradient_partial labels lo hi EX LT) as [co [EC [LC FC]]].
    assert (configure_colors icl to_rgb labels (PTuple [c1; c2]) = Ok (Mixed (map (fun c => mix c (r1, g1, b1) (r2, g2, b2)) co))) as E.
    { unfold configure_colors.
      assert (only_one_color icl (PTuple [c1; c2]) = false) as -> by (unfold only_one_color; destruct c1; reflexivity).
      cbn [entries rbind]. change (length [c1; c2]) with 2%nat. rewrite (proj2 (Nat.leb_gt _ _)) by auto.
      unfold no_color_gradient. cbn [length Nat.eqb negb forallb orb]. rewrite C1, C2. cbn [andb negb].
      unfold color_gradient. rewrite EC. cbn [rbind py_nth nth_error]. rewrite E1. cbn [rbind]. rewrite E2. reflexivity. }
    eapply draw_drawn; eauto; [reflexivity| |].
    + cbn [shades]. destruct co; [|discriminate]. destruct labels; [contradiction|discriminate].
    + intros i w x N1 N2. cbn [shades] in N2. rewrite !map_length, LC, Nat.mod_small in N2 by (apply nth_error_Some; congruence).
      destruct (FC i w N1) as [c [NC [_ EW]]]. rewrite !nth_error_map, NC in N2. cbn [option_map mix] in N2. injection N2 as <-.
      exists c. split; auto. f_equal. f_equal; [f_equal|]; ring.
  - intros cs c N0 NT LEN OK.
    destruct (listed_colors icl to_rgb labels cs c N0 NT LEN) as [out [E [L F]]].
    apply (K out); auto.
    + intros x I. apply In_nth_error in I. destruct I as [i I].
      assert (i < length labels)%nat as LI by (rewrite <- L; apply nth_error_Some; congruence).
      rewrite F in I by auto. injection I as <-. apply OK. destruct (nth_in_or_default i cs (PStr "blue")) as [I| ->]; [right|left]; auto.
    + intros i w x N1 N2. rewrite F in N2 by (apply nth_error_Some; congruence). congruence.
  - intros ps NP ND COV NC OK.
    destruct (paired_colors icl to_rgb labels ps NP ND COV NC) as [out [E [L F]]].
    apply (K out); auto.
    + intros x I. apply In_nth_error in I. destruct I as [i I].
      destruct (nth_error labels i) as [w|] eqn:EW; [|apply nth_error_None in EW; assert (i < length out)%nat by (apply nth_error_Some; congruence); lia].
      rewrite (F i w EW) in I. injection I as <-. clear - OK. revert OK. generalize (PStr "blue"). induction ps as [|[a c] ps IH]; intros b OK.
      * apply OK. left. auto.
      * cbn [named]. apply IH. intros x [<-|I]; [destruct (Req_EM_T a w)|]; apply OK; cbn; auto.
    + intros i w x N1 N2. rewrite (F i w N1) in N2. congruence.
Qed.
Print Assumptions whole_plot.

(** A diagram of which it is forgotten that it has several sails. *)
Definition unmarked (pd : plotted) : plotted := mkPlotted (pl_default pd) (pl_slices pd) (fun _ => None).

(** C134.  Plots of a diagram with several sails: if the angles of every slice increase, every
    line consists of the groups of the sails with gaps between them; the colours are those of
    [whole_plot].  (Without increasing angles this is false, see [plot_groups_refuted].) *)
Theorem whole_plot_sails_partial : forall is_color_like to_rgb hull argsort polar pd default ws n labels slices infos colors lines leg show_legend,
  sorts argsort ->
  (ws = WNone -> pl_default pd = Ok default) -> get_windspeeds default ws n = Ok labels -> labels <> [] ->
  pl_slices pd labels = Ok slices -> length slices = length labels ->
  pl_info pd labels = Some (Ok infos) -> map (@length string) infos = map (@length (pt3 R)) slices ->
  (forall slice, In slice slices -> StronglySorted (fun p q => pwa p < pwa q) slice) ->
  draw is_color_like to_rgb hull argsort polar pd ws n colors show_legend false = Ok (lines, leg) ->
  length lines = length labels /\
  (exists lines', draw is_color_like to_rgb hull argsort polar (unmarked pd) ws n colors show_legend false = Ok (lines', leg) /\
     map d_shade lines' = map d_shade lines) /\
  forall i slice info, nth_error slices i = Some slice -> nth_error infos i = Some info ->
    exists x, nth_error lines i = Some x /\
      let sail name := group name (combine slice info) in
      d_angles x = with_gaps (map (fun name => map (fun p => on_axis polar (pwa p)) (sail name)) (first_seen info)) /\
      d_speeds x = with_gaps (map (fun name => map pbs (sail name)) (first_seen info)).
Proof.
  intros icl to_rgb hull argsort polar pd default ws n labels slices infos colors lines leg sl SO HD HW NE HS HL HI HLI HST E.
  assert (forall pd', pl_default pd' = pl_default pd -> pl_slices pd' = pl_slices pd ->
    get_slices pd' ws n = do info <- match pl_info pd' labels with None => Ok None | Some r => do i <- r; Ok (Some i) end; Ok (labels, slices, info)) as G.
  { intros pd' E1 E2. unfold get_slices. rewrite E1, E2.
    assert (exists d', match ws with WNone => pl_default pd | _ => Ok [] end = Ok d' /\ get_windspeeds d' ws n = Ok labels) as [d' [-> E']].
    { destruct ws; [exists default; split; auto|exists []; split; auto..]. }
    cbn [rbind]. rewrite E'. cbn [rbind]. rewrite HS. reflexivity. }
  unfold draw in *. rewrite G in E by auto. rewrite HI in E. cbn [rbind] in E. rewrite G by auto. cbn [unmarked pl_info rbind].
  destruct (configure_colors icl to_rgb labels colors) as [c|]; [|discriminate]. cbn [rbind] in *.
  destruct (set_cycle icl c) as [cs|]; [|discriminate]. cbn [rbind] in *.
  destruct (if sl then _ else _) as [leg'|]; [|discriminate]. cbn [rbind] in *.
  destruct (plot_all hull argsort cs polar false slices (Some infos)) as [l|] eqn:EP; [|discriminate]. cbn [rbind] in E.
  injection E as -> ->.
  assert (slices <> []) as NS by (destruct slices; [destruct labels; [contradiction|discriminate]|discriminate]).
  assert (length infos = length slices) as LIS by (apply (f_equal (@length nat)) in HLI; rewrite !map_length in HLI; auto).
  assert (plot_all hull argsort cs polar false slices (Some infos) =
    mapM (fun isl : nat * (list (pt3 R) * option (list string)) => do xy <- plot_slice hull argsort polar false (fst (snd isl)) (snd (snd isl));
                    do c <- take_color cs (fst isl); Ok (mkDrawing (fst xy) (snd xy) c)) (enumerate (safe_zip slices (Some infos)))) as U
    by (unfold plot_all; destruct slices; [contradiction|reflexivity]).
  rewrite U in EP.
  assert (length lines = length labels) as LL.
  { rewrite (mapM_length _ _ _ _ _ EP), enumerate_length. unfold safe_zip. rewrite map_length, combine_length. lia. }
  assert (forall i slice info, nth_error slices i = Some slice -> nth_error infos i = Some info ->
    exists x, nth_error lines i = Some x /\ take_color cs i = Ok (d_shade x) /\
      d_angles x = with_gaps (map (fun name => map (fun p => on_axis polar (pwa p)) (group name (combine slice info))) (first_seen info)) /\
      d_speeds x = with_gaps (map (fun name => map pbs (group name (combine slice info))) (first_seen info))) as F.
  { intros i slice info N1 N2.
    destruct (mapM_nth _ _ _ _ _ EP i (i, (slice, Some info))) as [x [NX EX]].
    { apply nth_error_enumerate. split; auto. unfold safe_zip. rewrite nth_error_map, (proj2 (nth_error_combine _ _ slices infos i slice info)) by auto. reflexivity. }
    cbn [fst snd] in EX. rewrite plot_groups_partial in EX; auto.
    - cbn [rbind fst snd] in EX. destruct (take_color cs i) as [s|]; [|discriminate]. cbn [rbind] in EX. injection EX as <-.
      exists (mkDrawing (with_gaps (map (fun name => map (fun p => if polar then deg2rad (pwa p) else pwa p) (group name (combine slice info))) (first_seen info)))
                        (with_gaps (map (fun name => map pbs (group name (combine slice info))) (first_seen info))) s).
      split; [exact NX|]. split; [reflexivity|]. split; [|reflexivity]. cbn [d_angles]. f_equal. apply map_ext. intros name. apply map_ext. intros p. apply deg_on_axis.
    - assert (nth_error (map (@length string) infos) i = nth_error (map (@length (pt3 R)) slices) i) as X by (rewrite HLI; auto).
      rewrite !nth_error_map, N1, N2 in X. cbn in X. congruence.
    - apply HST. eapply nth_error_In; eauto. }
  split; [exact LL|]. split.
  - destruct cs as [|c0 cs'] eqn:EC.
    { exfalso. destruct slices as [|s0 sl0]; [contradiction|]. destruct infos as [|i0 in0]; [discriminate|].
      destruct (F 0%nat s0 i0 eq_refl eq_refl) as [x [_ [T _]]]. discriminate. }
    rewrite <- EC in *.
    destruct (plot_all_lines hull argsort SO cs polar slices) as [lines' [E' [L' F']]]; [congruence|auto|].
    rewrite E'. cbn [rbind]. exists lines'. split; [reflexivity|].
    apply nth_error_ext. intros i. rewrite !nth_error_map.
    destruct (nth_error slices i) as [slice|] eqn:N1.
    + destruct (nth_error infos i) as [info|] eqn:N2; [|apply nth_error_None in N2; assert (i < length slices)%nat by (apply nth_error_Some; congruence); lia].
      destruct (F i slice info N1 N2) as [x [NX [T _]]]. destruct (F' i slice N1) as [x' [NX' [_ T']]]. rewrite NX, NX'. cbn [option_map].
      unfold take_color, py_nth in T. rewrite T' in T. congruence.
    + apply nth_error_None in N1. rewrite (proj2 (nth_error_None lines i)), (proj2 (nth_error_None lines' i)) by lia. reflexivity.
  - intros i slice info N1 N2. destruct (F i slice info N1 N2) as [x [NX [_ [A B]]]]. exists x. auto.
Qed.
Print Assumptions whole_plot_sails_partial.

(** ** Examples *)

Definition ex_pd (info : option (list (list string))) : plotted :=
  mkPlotted (Ok [6; 8; 10]) (fun ws => Ok (map (fun w => [(w, 120, w); (w, 60, w / 2)]) ws))
            (fun _ => match info with None => None | Some i => Some (Ok i) end).

(** Three wind speeds from green to red: the line of the middle one has the mixed colour. *)
Example whole_plot_meets : forall hull argsort, sorts argsort ->
  let icl := fun c => match c with PStr _ => true | _ => false end in
  let to_rgb := fun c => match c with PStr "red" => Ok (1, 0, 0) | _ => Ok (0, 1, 0) end in
  extremes [6; 8; 10] 6 10 /\
  exists lines x, draw icl to_rgb hull argsort false (ex_pd None) WNone None (PTuple [PStr "green"; PStr "red"]) false false = Ok (lines, None) /\
    nth_error lines 1 = Some x /\ d_shade x = Rgb (1 / 2, 1 / 2, 0) /\
    d_angles x = [Some 60; Some 120] /\ d_speeds x = [Some (8 / 2); Some 8].
Proof.
  intros hull argsort SO icl to_rgb.
  assert (extremes [6; 8; 10] 6 10) as EX by (split; [cbn; auto|split; [cbn; auto|intros x [<-|[<-|[<-|[]]]]; lra]]).
  split; auto.
  destruct (whole_plot icl to_rgb hull argsort false (ex_pd None) [6; 8; 10] WNone None [6; 8; 10] (map (fun w => [(w, 120, w); (w, 60, w / 2)]) [6; 8; 10]) SO)
    as [_ [H _]]; auto; [discriminate|].
  destruct (H (PStr "green") (PStr "red") 0 1 0 1 0 0 6 10) as [lines [E [L F]]]; auto; [lra|].
  destruct (F 1%nat 8 [(8, 120, 8); (8, 60, 8 / 2)] eq_refl eq_refl) as [x [NX [[pts [P [S [A B]]]] [t [T SH]]]]].
  exists lines, x. split; auto. split; auto. assert (t = 1 / 2) as -> by lra. split; [rewrite SH; f_equal; f_equal; [f_equal|]; lra|].
  rewrite A, B. clear - P S. apply Permutation_sym in P.
  destruct pts as [|p [|q [|r pts]]]; try (apply Permutation_length in P; discriminate).
  assert (p = (8, 120, 8) /\ q = (8, 60, 8 / 2) \/ p = (8, 60, 8 / 2) /\ q = (8, 120, 8)) as [[-> ->]|[-> ->]].
  { apply Permutation_length_2_inv in P. destruct P as [P|P]; injection P as -> ->; auto. }
  - inversion S as [|? ? _ FA]; subst. inversion FA; subst. cbn in H1. lra.
  - cbn. auto.
Qed.

(** Two sails, each with one of the two angles. *)
Example whole_plot_sails_meets : forall hull argsort, sorts argsort ->
  let pd := mkPlotted (Ok [6]) (fun ws => Ok (map (fun w => [(w, 60, w / 2); (w, 120, w)]) ws)) (fun _ => Some (Ok [["jib"; "spi"]])) in
  draw (fun _ => true) (fun _ => Ok (0, 0, 0)) hull argsort false pd (WNum 6) None (PStr "red") false false =
    Ok ([mkDrawing [Some 60; None; Some 120] [Some (6 / 2); None; Some 6] (Given (PStr "red"))], None).
Proof.
  intros hull argsort SO pd. unfold draw, get_slices. cbn [rbind get_windspeeds pl_slices pl_info pd map].
  unfold configure_colors, only_one_color. cbn [rbind set_cycle forallb andb shades map plot_all enumerate safe_zip combine length seq fst snd mapM].
  rewrite plot_groups_partial; auto.
  constructor; [constructor; constructor|]. constructor; [cbn; lra|constructor].
Qed.
