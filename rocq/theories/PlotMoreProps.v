(** * Convex hull plots and surface triangles, exactly (C112, C116) *)

From Coq Require Import Reals Lra List Bool String Permutation Sorted ZArith Lia.
From Verif Require Import Py Num ListX Trig BaseModel InterpModel PlotModel PlotProps.
Import ListNotations.
Open Scope R_scope.

(** C112.  A plot with [use_convex_hull] draws the line through the corners of the hull, each at its wind angle
    (in radians if asked for) and boat speed. *)
Theorem hull_plot_drawn : forall hull argsort use_radians slice info pts names,
  convex_hull_slice hull (argsort slice) info = Ok (pts, names) ->
  plot_slice hull argsort use_radians true slice info =
    Ok (map (fun p => Some (if use_radians then pwa p * (PI / 180) else pwa p)) pts, map (fun p => Some (pbs p)) pts).
Proof.
  intros hull argsort rad slice info pts names E. unfold plot_slice. rewrite E. cbn [rbind fst].
  destruct rad; reflexivity.
Qed.
Print Assumptions hull_plot_drawn.

Example hull_plot_drawn_example : forall hull,
  hull (map (fun p => (pbs p * cos (deg2rad (pwa p)), pbs p * sin (deg2rad (pwa p)))) [(10, 0, 2); (10, 120, 2); (10, 240, 2)]) =
    Some [2; 0; 1]%nat ->
  plot_slice hull (fun l => l) false true [(10, 0, 2); (10, 120, 2); (10, 240, 2)] (Some ["a"; "b"; "c"]%string) =
    Ok ([Some 0; Some 120; Some 240; Some 360], [Some 2; Some 2; Some 2; Some 2]).
Proof. intros hull H. exact (hull_plot_drawn hull (fun l => l) false _ _ _ _ (hull_plot_example hull H)). Qed.

(** C116.  Which triangles of a surface are drawn, exactly: those whose first corner differs from one of the others in
    wind speed by more than the square root of 0.2, unless the first two corners lie above and the corners are not all
    on one side of the axis. *)
Definition one_side (xs : list R) : Prop :=
  Forall (fun x => x < 0) xs \/ Forall (fun x => x = 0) xs \/ Forall (fun x => 0 < x) xs.
Lemma sides : forall x y, (sign_differs x y = false) <-> one_side [x; y].
Proof.
  intros x y. unfold sign_differs, sign, one_side.
  destruct (Rltb_spec 0 x); [|destruct (Rltb_spec x 0)]; (destruct (Rltb_spec 0 y); [|destruct (Rltb_spec y 0)]); cbn; split; intros H;
    try discriminate; try reflexivity;
    try (left; repeat constructor; lra); try (right; left; repeat constructor; lra); try (right; right; repeat constructor; lra);
    exfalso; destruct H as [H|[H|H]]; inversion H as [|? ? H1 H2]; subst; inversion H2; subst; lra.
Qed.
Theorem surface_exact : forall xa ya za xb yb zb xc yc zc,
  draws_triangle (xa, ya, za) (xb, yb, zb) (xc, yc, zc) = true <->
  (2 / 10 < (za - zb) ^ 2 \/ 2 / 10 < (za - zc) ^ 2) /\ (ya <= 0 \/ yb <= 0 \/ one_side [xa; xb; xc]).
Proof.
  intros. unfold draws_triangle. rewrite andb_true_iff, orb_true_iff, !Rltb_lt, negb_true_iff, !andb_false_iff, orb_false_iff, !sides.
  apply and_iff_compat_l. assert (forall y, Rltb 0 y = false <-> y <= 0) as N.
  { intros y. destruct (Rltb_spec 0 y); split; intros H; try discriminate; try lra; reflexivity. }
  rewrite !N. assert (one_side [xa; xb] /\ one_side [xa; xc] <-> one_side [xa; xb; xc]) as ->; [|tauto].
  unfold one_side. split.
  - intros [[A|[A|A]] [B|[B|B]]]; inversion A as [|? ? A1 A2]; inversion A2; subst; inversion B as [|? ? B1 B2]; inversion B2; subst; try lra;
      [left|right; left|right; right]; repeat constructor; auto.
  - intros [A|[A|A]]; inversion A as [|? ? A1 A2]; inversion A2 as [|? ? A3 A4]; inversion A4; subst; split;
      first [left; repeat constructor; assumption | right; left; repeat constructor; assumption | right; right; repeat constructor; assumption].
Qed.
Print Assumptions surface_exact.

Example surface_exact_example : draws_triangle (-1, 1, 0) (-2, 1, 5) (-1, 2, 0) = true /\ draws_triangle (-1, 1, 0) (0, 1, 5) (-1, 2, 0) = false.
Proof.
  split.
  - apply surface_exact. split; [left; lra|]. right. right. left. repeat constructor; lra.
  - destruct (draws_triangle (-1, 1, 0) (0, 1, 5) (-1, 2, 0)) eqn:E; [|reflexivity]. apply surface_exact in E.
    destruct E as [_ [H|[H|[H|[H|H]]]]]; try lra; inversion H as [|? ? H1 H2]; inversion H2; subst; lra.
Qed.
