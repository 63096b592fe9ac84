(** * Plots of whole diagrams with convex hulls, and refused colours (C134)

    [HROPolar.plot], [HROFlat.plot] and their [scatter] with [use_convex_hull=True]
    (projections.py 57-236, 438-475, 499-556), modelled in PlotAllModel.v. *)

From Coq Require Import String List Bool Arith ZArith Reals Lra Lia Permutation Sorting.Sorted.
From Verif Require Import Py Num PySort ListX Trig WPointsModel InterpModel BaseModel PlotModel LegendModel PlotAllModel PlotProps PlotAllProps.
Import ListNotations.
Open Scope string_scope.
Open Scope list_scope.
Open Scope R_scope.

(** ** Specification *)

(** Where the points are drawn, as given to [ConvexHull]. *)
Definition positions_of (pts : list (pt3 R)) : list (R * R) :=
  map (fun p => (pbs p * cos (on_axis true (pwa p)), pbs p * sin (on_axis true (pwa p)))) pts.

(** The line runs through these points. *)
Definition through (polar : bool) (pts : list (pt3 R)) (x : drawing) : Prop :=
  d_angles x = map (fun p => Some (on_axis polar (pwa p))) pts /\ d_speeds x = map (fun p => Some (pbs p)) pts.

(** [pre] and [post] close a line from [f] to [l] that spans half of the circle: it then begins at 0 and ends at 360
    degrees with the same boat speed. *)
Definition closes (pre post : list (pt3 R)) (f l : pt3 R) : Prop :=
  pre = [] /\ post = [] /\ (pwa l - pwa f < 180 \/ pwa f = 0 /\ pwa l = 360) \/
  180 <= pwa l - pwa f /\ exists w b,
    (pre = [(w, 0, b)] \/ pre = [] /\ f = (w, 0, b)) /\ (post = [(w, 360, b)] \/ post = [] /\ l = (w, 360, b)).

(** The line runs through the corners [vs] of the hull of [pts] by increasing angle and is closed. *)
Definition outlines (polar : bool) (pts : list (pt3 R)) (vs : list nat) (x : drawing) : Prop :=
  exists pre mid post f l, through polar (pre ++ mid ++ post) x /\
    Permutation mid (map (fun i => nth i pts (0, 0, 0)) vs) /\ StronglySorted (fun p q => pwa p <= pwa q) mid /\
    hd_error mid = Some f /\ (exists r, mid = r ++ [l]) /\ closes pre post f l.

(** ** Proofs *)

Lemma coordinates_positions : forall pts,
  map (fun p => (pbs p * cos (deg2rad (pwa p)), pbs p * sin (deg2rad (pwa p)))) pts = positions_of pts.
Proof.
  intros pts. unfold positions_of. apply map_ext. intros p.
  assert (deg2rad (pwa p) = on_axis true (pwa p)) as -> by (unfold on_axis, deg2rad; field). reflexivity.
Qed.

Lemma close_hull_plain : forall mid out info, mid <> [] -> close_hull mid None = Ok (out, info) ->
  exists pre post f l, out = pre ++ mid ++ post /\ hd_error mid = Some f /\ (exists r, mid = r ++ [l]) /\ closes pre post f l.
Proof.
  intros mid out info NE E. destruct (py_last_some _ mid NE) as [r [l [EL PL]]].
  destruct mid as [|f m]; [congruence|]. unfold close_hull in E. rewrite PL in E. cbn [py_nth nth_error rbind] in E.
  destruct (Reqb_spec (pwa f) 0) as [F0|F0]; destruct (Reqb_spec (pwa l) 360) as [L0|L0]; cbn [andb] in E.
  - injection E as <- _. exists [], [], f, l. rewrite app_nil_r. split; auto. split; auto. split; eauto. left. auto.
  - destruct (Rltb_spec (pwa l - pwa f) 180) as [LT|GE]; cbn [rbind] in E.
    + injection E as <- _. exists [], [], f, l. rewrite app_nil_r. split; auto. split; auto. split; eauto. left. auto.
    + injection E as <- _. exists [], [(pws f, 360, pbs f)], f, l. split; auto. split; auto. split; eauto. right. split; [lra|].
      exists (pws f), (pbs f). split; [right; split; auto|left; auto]. destruct f as [[w a] b]. unfold pws, pwa, pbs in *. cbn in *. congruence.
  - destruct (Rltb_spec (pwa l - pwa f) 180) as [LT|GE]; cbn [rbind] in E.
    + injection E as <- _. exists [], [], f, l. rewrite app_nil_r. split; auto. split; auto. split; eauto. left. auto.
    + injection E as <- _. exists [(pws l, 0, pbs l)], [], f, l. rewrite app_nil_r. split; auto. split; auto. split; eauto. right. split; [lra|].
      exists (pws l), (pbs l). split; [left; auto|right; split; auto]. destruct l as [[w a] b]. unfold pws, pwa, pbs in *. cbn in *. congruence.
  - destruct (Rltb_spec (pwa l - pwa f) 180) as [LT|GE]; cbn [rbind] in E.
    + injection E as <- _. exists [], [], f, l. rewrite app_nil_r. split; auto. split; auto. split; eauto. left. auto.
    + destruct (wrap_estimate f l) as [[w b]|]; [|discriminate]. cbn [rbind fst snd] in E. injection E as <- _.
      exists [(w, 0, b)], [(w, 360, b)], f, l. split; auto. split; auto. split; eauto. right. split; [lra|]. exists w, b. auto.
Qed.

Lemma wa_sorted : forall l, StronglySorted (fun p q => pwa p <= pwa q) (py_sorted wa_le l).
Proof.
  intros l.
  assert (StronglySorted (leP wa_le) (py_sorted wa_le l)) as S.
  { apply py_sorted_sorted.
    - intros x y. unfold wa_le. destruct (Rleb_spec (pwa x) (pwa y)); auto. right. apply Rleb_true. lra.
    - intros x y z. unfold wa_le. rewrite !Rleb_le. lra. }
  revert S. generalize (py_sorted wa_le l). clear. intros l S.
  induction S as [|a l S IH F]; constructor; auto. eapply Forall_impl; [|exact F]. intros b H. apply Rleb_le. exact H.
Qed.

Lemma plot_slice_hull : forall hull argsort polar slice xy, plot_slice hull argsort polar true slice None = Ok xy ->
  forall c, match hull (positions_of (argsort slice)) with
  | None => through polar (argsort slice) (mkDrawing (fst xy) (snd xy) c)
  | Some vs => vs <> [] -> Forall (fun i => (i < length (argsort slice))%nat) vs -> outlines polar (argsort slice) vs (mkDrawing (fst xy) (snd xy) c)
  end.
Proof.
  intros hull argsort polar slice xy E c. unfold plot_slice in E.
  assert (forall pts, through polar pts (mkDrawing (map (fun p => Some (if polar then deg2rad (pwa p) else pwa p)) pts) (map (fun p => Some (pbs p)) pts) c)) as T.
  { intros pts. split; [|reflexivity]. cbn [d_angles]. apply map_ext. intros p. rewrite deg_on_axis. reflexivity. }
  unfold convex_hull_slice in E. rewrite coordinates_positions in E.
  destruct (hull (positions_of (argsort slice))) as [vs|].
  - intros NE F. rewrite (mapM_py_nth _ _ (0, 0, 0)) in E by auto. cbn [rbind] in E.
    destruct (close_hull _ None) as [[out info]|] eqn:C; [|discriminate]. cbn [rbind fst snd] in E. injection E as <-.
    apply close_hull_plain in C.
    + destruct C as [pre [post [f [l [-> [HF [HL CL]]]]]]]. exists pre, (py_sorted wa_le (map (fun i => nth i (argsort slice) (0, 0, 0)) vs)), post, f, l.
      split; [apply T|]. split; [apply py_sorted_perm|]. split; [apply wa_sorted|]. auto.
    + intros Q. assert (Permutation [] (map (fun i => nth i (argsort slice) (0, 0, 0)) vs)) as P by (rewrite <- Q; apply py_sorted_perm).
      apply Permutation_nil in P. destruct vs; [contradiction|discriminate].
  - cbn [rbind fst snd] in E. injection E as <-. apply T.
Qed.

(** ** Properties *)

(** C134.  A plot with convex hulls of a diagram without several sails has one line for every wind speed, in the colours
    and with the legend of the plot without hulls.  Each line outlines the hull of the points of its slice; without a hull
    (fewer than three points, say) it runs through all points by increasing angle. *)
Theorem whole_plot_hull : forall is_color_like to_rgb hull argsort polar pd default ws n labels slices colors show_legend lines leg,
  sorts argsort ->
  (ws = WNone -> pl_default pd = Ok default) -> get_windspeeds default ws n = Ok labels ->
  pl_slices pd labels = Ok slices -> pl_info pd labels = None -> length slices = length labels -> labels <> [] ->
  draw is_color_like to_rgb hull argsort polar pd ws n colors show_legend true = Ok (lines, leg) ->
  length lines = length labels /\
  (exists lines', draw is_color_like to_rgb hull argsort polar pd ws n colors show_legend false = Ok (lines', leg) /\
     map d_shade lines' = map d_shade lines) /\
  forall i slice, nth_error slices i = Some slice -> exists x pts, nth_error lines i = Some x /\
    Permutation pts slice /\ StronglySorted (fun p q => pwa p <= pwa q) pts /\
    match hull (positions_of pts) with
    | None => through polar pts x
    | Some vs => vs <> [] -> Forall (fun i => (i < length pts)%nat) vs -> outlines polar pts vs x
    end.
Proof.
  intros icl to_rgb hull argsort polar pd default ws n labels slices colors sl lines leg SO HD HW HS HI HL NE E.
  assert (get_slices pd ws n = Ok (labels, slices, None)) as G.
  { unfold get_slices.
    assert (exists d', match ws with WNone => pl_default pd | _ => Ok [] end = Ok d' /\ get_windspeeds d' ws n = Ok labels) as [d' [-> E']].
    { destruct ws; [exists default; split; auto|exists []; split; auto..]. }
    cbn [rbind]. rewrite E'. cbn [rbind]. rewrite HS. cbn [rbind]. rewrite HI. reflexivity. }
  unfold draw in *. rewrite G in *. cbn [rbind] in *.
  destruct (configure_colors icl to_rgb labels colors) as [c|]; [|discriminate]. cbn [rbind] in *.
  destruct (set_cycle icl c) as [cs|]; [|discriminate]. cbn [rbind] in *.
  destruct (if sl then _ else _) as [leg'|]; [|discriminate]. cbn [rbind] in *.
  destruct (plot_all hull argsort cs polar true slices None) as [l|] eqn:EP; [|discriminate]. cbn [rbind] in E.
  injection E as -> ->.
  assert (slices <> []) as NS by (destruct slices; [destruct labels; [contradiction|discriminate]|discriminate]).
  assert (plot_all hull argsort cs polar true slices None =
    mapM (fun isl : nat * (list (pt3 R) * option (list string)) => do xy <- plot_slice hull argsort polar true (fst (snd isl)) (snd (snd isl));
                    do c <- take_color cs (fst isl); Ok (mkDrawing (fst xy) (snd xy) c)) (enumerate (safe_zip slices None))) as U
    by (unfold plot_all; destruct slices; [contradiction|reflexivity]).
  rewrite U in EP.
  assert (length lines = length labels) as LL.
  { rewrite (mapM_length _ _ _ _ _ EP), enumerate_length. unfold safe_zip. rewrite map_length. auto. }
  assert (forall i slice, nth_error slices i = Some slice -> exists xy c, nth_error lines i = Some (mkDrawing (fst xy) (snd xy) c) /\
    take_color cs i = Ok c /\ plot_slice hull argsort polar true slice None = Ok xy) as F.
  { intros i slice N1. destruct (mapM_nth _ _ _ _ _ EP i (i, (slice, None))) as [x [NX EX]].
    { apply nth_error_enumerate. split; auto. unfold safe_zip. rewrite nth_error_map, N1. reflexivity. }
    cbn [fst snd] in EX. destruct (plot_slice hull argsort polar true slice None) as [xy|]; [|discriminate]. cbn [rbind] in EX.
    destruct (take_color cs i) as [s|]; [|discriminate]. cbn [rbind] in EX. injection EX as <-. exists xy, s. auto. }
  split; [exact LL|]. split.
  - destruct cs as [|c0 cs'] eqn:EC.
    { exfalso. destruct slices as [|s0 sl0]; [contradiction|]. destruct (F 0%nat s0 eq_refl) as [xy [x [_ [T _]]]]. discriminate. }
    rewrite <- EC in *.
    destruct (plot_all_lines hull argsort SO cs polar slices) as [lines' [E' [L' F']]]; [congruence|auto|].
    rewrite E'. cbn [rbind]. exists lines'. split; [reflexivity|].
    apply nth_error_ext. intros i. rewrite !nth_error_map.
    destruct (nth_error slices i) as [slice|] eqn:N1.
    + destruct (F i slice N1) as [xy [s [NX [T _]]]]. destruct (F' i slice N1) as [x' [NX' [_ T']]]. rewrite NX, NX'. cbn [option_map d_shade].
      unfold take_color, py_nth in T. rewrite T' in T. congruence.
    + apply nth_error_None in N1. rewrite (proj2 (nth_error_None lines i)), (proj2 (nth_error_None lines' i)) by lia. reflexivity.
  - intros i slice N1. destruct (F i slice N1) as [xy [s [NX [_ PS]]]]. destruct (SO slice) as [P S].
    exists (mkDrawing (fst xy) (snd xy) s), (argsort slice). split; [exact NX|]. split; auto. split; auto.
    apply plot_slice_hull. exact PS.
Qed.
Print Assumptions whole_plot_hull.

(** C134.  A list with an entry for some slice that is no colour is refused with a ValueError; nothing is drawn. *)
Theorem whole_plot_refused : forall is_color_like to_rgb hull argsort polar pd default ws n labels slices cs c bad show_legend use_convex_hull i,
  (ws = WNone -> pl_default pd = Ok default) -> get_windspeeds default ws n = Ok labels ->
  pl_slices pd labels = Ok slices -> pl_info pd labels = None ->
  nth_error cs 0 = Some c -> (forall a b, c <> PTuple [a; b]) -> (length labels <= length cs)%nat \/ length cs <> 2%nat ->
  (i < length labels)%nat -> nth_error cs i = Some bad -> is_color_like bad = false ->
  draw is_color_like to_rgb hull argsort polar pd ws n (PList cs) show_legend use_convex_hull = Raise ValueError.
Proof.
  intros icl to_rgb hull argsort polar pd default ws n labels slices cs c bad sl ch i HD HW HS HI N0 NT LEN LI NB IB.
  assert (get_slices pd ws n = Ok (labels, slices, None)) as G.
  { unfold get_slices.
    assert (exists d', match ws with WNone => pl_default pd | _ => Ok [] end = Ok d' /\ get_windspeeds d' ws n = Ok labels) as [d' [-> E']].
    { destruct ws; [exists default; split; auto|exists []; split; auto..]. }
    cbn [rbind]. rewrite E'. cbn [rbind]. rewrite HS. cbn [rbind]. rewrite HI. reflexivity. }
  destruct (listed_colors icl to_rgb labels cs c N0 NT LEN) as [out [E [L F]]].
  unfold draw. rewrite G. cbn [rbind]. rewrite E. cbn [rbind]. unfold set_cycle.
  assert (forallb icl out = false) as ->; [|reflexivity].
  destruct (forallb icl out) eqn:FB; [|reflexivity]. rewrite forallb_forall in FB.
  assert (In bad out) as I; [|specialize (FB bad I); congruence].
  apply nth_error_In with (n := i). rewrite F by auto. f_equal. apply nth_error_nth. exact NB.
Qed.
Print Assumptions whole_plot_refused.

(** A slice of four points, one inside the hull, that spans more than half of the circle. *)
Definition hull_example (l : list (R * R)) : option (list nat) := if (length l =? 4)%nat then Some [0; 2; 3]%nat else None.
Example whole_plot_hull_meets :
  let pd := mkPlotted (Ok [10]) (fun _ => Ok [[(10, 0, 2); (10, 60, 1); (10, 120, 4); (10, 270, 3)]]) (fun _ => None) in
  forall argsort, sorts argsort ->
  argsort [(10, 0, 2); (10, 60, 1); (10, 120, 4); (10, 270, 3)] = [(10, 0, 2); (10, 60, 1); (10, 120, 4); (10, 270, 3)] ->
  draw (fun c => match c with PStr s => String.eqb s "red" | _ => false end) (fun _ => Ok (1, 0, 0)) hull_example argsort false pd WNone None (PStr "red") false true =
    Ok ([mkDrawing [Some 0; Some 120; Some 270; Some 360] [Some 2; Some 4; Some 3; Some 2] (Given (PStr "red"))], None).
Proof.
  intros pd argsort SO A. unfold draw, get_slices, pd. cbn [pl_default pl_slices pl_info rbind get_windspeeds].
  unfold configure_colors. cbn [only_one_color String.eqb Ascii.eqb Bool.eqb rbind].
  unfold set_cycle. cbn [forallb String.eqb Ascii.eqb Bool.eqb andb rbind shades map].
  unfold plot_all, safe_zip.
  match goal with |- context [enumerate ?l] => change (enumerate l) with [(0%nat, (hd [] [[(10, 0, 2); (10, 60, 1); (10, 120, 4); (10, 270, 3)]], @None (list string)))] end.
  cbn [hd mapM fst snd]. unfold plot_slice. rewrite A. unfold convex_hull_slice, hull_example. cbn [map length Nat.eqb].
  cbn [mapM py_nth nth_error rbind]. unfold close_hull. cbn [py_sorted insert]. unfold wa_le, pwa. cbn [fst snd].
  rewrite !Rleb_true by lra. cbn [insert]. rewrite ?Rleb_true by lra. cbn [py_nth nth_error py_last rbind fst snd].
  rewrite (Rleb_true 0 120) by lra.
  change (py_last [(10, 0, 2); (10, 120, 4); (10, 270, 3)]) with (Ok (10, 270, 3)). cbn [rbind fst snd py_nth nth_error].
  rewrite Reqb_refl, !Reqb_false by lra. cbn [andb]. rewrite Rltb_false by lra. reflexivity.
Qed.
