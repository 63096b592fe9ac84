(** * Properties of colour gradient plots *)

From Coq Require Import String List Bool Arith ZArith Reals Lra Lia.
From Verif Require Import Py Num ListX InterpModel MultiModel GlobeProofs PlotModel PlotProps LegendModel LegendProps GradientModel.
Import ListNotations.
Open Scope nat_scope.
Open Scope string_scope.
Open Scope list_scope.
Open Scope R_scope.

(** ** Specification *)

(** [rgb] is the blend of two colours with the part [c] of the second. *)
Definition blend (c : R) (rgb1 rgb2 rgb : R * R * R) : Prop :=
  fst (fst rgb) = fst (fst rgb1) + c * (fst (fst rgb2) - fst (fst rgb1)) /\
  snd (fst rgb) = snd (fst rgb1) + c * (snd (fst rgb2) - snd (fst rgb1)) /\
  snd rgb = snd rgb1 + c * (snd rgb2 - snd rgb1).

Lemma mix_blend : forall c a b, blend c a b (mix c a b).
Proof. intros c [[r1 g1] b1] [[r2 g2] b2]. unfold blend, mix. cbn. repeat split; ring. Qed.

Lemma blend_mix : forall c a b d, blend c a b d -> d = mix c a b.
Proof.
  intros c [[r1 g1] b1] [[r2 g2] b2] [[r g] b] (A & B & C). unfold mix. cbn in *.
  subst. f_equal; [f_equal|]; ring.
Qed.

(** ** Theorems *)

(** C123 ([_partial]: two colours, and boat speeds that are not all equal).  Every point
    is drawn at its wind speed and wind angle, in the blend of the two colours that its
    boat speed gives: the first colour for the least, the second for the greatest. *)
Theorem gradient_scatter_partial : forall is_color_like to_rgb points colors c1 c2 rgb1 rgb2 lo hi,
  extremes (map pbs points) lo hi -> lo < hi -> entries colors = Ok [c1; c2] ->
  to_rgb c1 = Ok rgb1 -> to_rgb c2 = Ok rgb2 ->
  exists marks, gradient_scatter is_color_like to_rgb points colors false = Ok (marks, None) /\
    length marks = length points /\
    forall i p, nth_error points i = Some p -> exists c rgb,
      nth_error marks i = Some (pws p, pwa p, rgb) /\ blend c rgb1 rgb2 rgb /\
      0 <= c <= 1 /\ pbs p = lo + c * (hi - lo).
Proof.
  intros icl to_rgb points colors c1 c2 rgb1 rgb2 lo hi EX LT EN E1 E2.
  destruct (gradient_partial _ lo hi EX LT) as [cs [E [L N]]]. rewrite map_length in L.
  exists (map (fun '(p, c) => (pws p, pwa p, c)) (combine points (map (fun c => mix c rgb1 rgb2) cs))).
  split; [|split].
  - unfold gradient_scatter. cbn [rbind]. rewrite EN. cbn [rbind]. unfold color_gradient. rewrite E.
    cbn [rbind py_nth nth_error]. rewrite E1. cbn [rbind]. rewrite E2. reflexivity.
  - rewrite map_length, combine_length, map_length, L. apply Nat.min_id.
  - intros i p NP. destruct (N i (pbs p)) as [c [NC [RC EW]]]; [apply map_nth_error; auto|].
    exists c, (mix c rgb1 rgb2).
    assert (NCB : nth_error (combine points (map (fun c => mix c rgb1 rgb2) cs)) i = Some (p, mix c rgb1 rgb2)).
    { apply (map_nth_error (fun c => mix c rgb1 rgb2)) in NC. clear - NP NC. revert i points NP NC.
      induction (map (fun c => mix c rgb1 rgb2) cs) as [|x l IH]; intros [|i] [|q points] NP NC; try discriminate; cbn in *.
      - congruence.
      - apply IH; auto. }
    split; [rewrite nth_error_map, NCB; reflexivity|]. split; [apply mix_blend|]. split; auto.
Qed.
Print Assumptions gradient_scatter_partial.

(** C123.  With more than two points the legend is a colour bar that shows at the boat
    speed of every point the colour in which the point is drawn. *)
Theorem gradient_scatter_legend_partial : forall is_color_like to_rgb points colors c1 c2 rgb1 rgb2 lo hi,
  extremes (map pbs points) lo hi -> lo < hi -> (2 < length points)%nat ->
  entries colors = Ok [c1; c2] -> is_color_like c1 = true -> is_color_like c2 = true ->
  to_rgb c1 = Ok rgb1 -> to_rgb c2 = Ok rgb2 ->
  exists marks, gradient_scatter is_color_like to_rgb points colors true = Ok (marks, Some (ColorBar lo hi rgb1 rgb2)) /\
    gradient_scatter is_color_like to_rgb points colors false = Ok (marks, None) /\
    forall i p, nth_error points i = Some p -> exists rgb,
      nth_error marks i = Some (pws p, pwa p, rgb) /\ bar_color lo hi rgb1 rgb2 (pbs p) = Ok rgb.
Proof.
  intros icl to_rgb points colors c1 c2 rgb1 rgb2 lo hi EX LT LEN EN C1 C2 E1 E2.
  destruct (gradient_scatter_partial icl to_rgb points colors c1 c2 rgb1 rgb2 lo hi EX LT EN E1 E2) as (marks & G & L & F).
  exists marks. split; [|split; auto].
  - assert (LG : configure_legend icl to_rgb (map pbs points) colors = Ok (ColorBar lo hi rgb1 rgb2)).
    { unfold configure_legend. rewrite EN. cbn [rbind]. rewrite gradient_same. unfold no_color_gradient.
      rewrite map_length. cbn [length Nat.eqb forallb]. rewrite C1, C2. cbn [negb andb orb]. rewrite orb_false_r.
      rewrite (proj2 (Nat.leb_gt _ _) LEN). cbn [negb].
      unfold set_colormap. cbn [py_nth nth_error rbind]. rewrite E1. cbn [rbind]. rewrite E2. cbn [rbind].
      destruct (map pbs points) as [|w0 r] eqn:EM; [apply (f_equal (@length R)) in EM; rewrite map_length in EM; cbn in EM; lia|].
      rewrite (extremes_min w0 r lo hi EX), (extremes_max w0 r lo hi EX). reflexivity. }
    unfold gradient_scatter in *. rewrite LG. cbn [rbind] in *. destruct (entries colors); [|discriminate]. cbn [rbind] in *.
    destruct (color_gradient to_rgb a (map pbs points)); [|discriminate]. cbn [rbind] in *. congruence.
  - intros i p NP. destruct (F i p NP) as (c & rgb & NM & B & RC & EW). exists rgb. split; auto.
    unfold bar_color. rewrite np_div_ok by lra. cbn [rbind]. apply blend_mix in B. subst rgb. f_equal. f_equal.
    rewrite EW. field. lra.
Qed.
Print Assumptions gradient_scatter_legend_partial.

(** C123 is false for a single colour, which is a possible value of [colors]: the name is
    taken letter by letter; "green" blends "g" and "r", "red" is an error if "e" is no
    colour, "k" is an error. *)
Theorem gradient_scatter_single_refuted : forall is_color_like to_rgb points lo hi e,
  extremes (map pbs points) lo hi -> lo < hi -> to_rgb (PStr "e") = Raise e ->
  (forall x, to_rgb (PStr "r") = Ok x ->
     gradient_scatter is_color_like to_rgb points (PStr "red") false = Raise e) /\
  (forall x, to_rgb (PStr "k") = Ok x ->
     gradient_scatter is_color_like to_rgb points (PStr "k") false = Raise IndexError) /\
  gradient_scatter is_color_like to_rgb points (PStr "green") false =
  gradient_scatter is_color_like to_rgb points (PTuple [PStr "g"; PStr "r"]) false.
Proof.
  intros icl to_rgb points lo hi e EX LT EE. destruct (gradient_partial _ lo hi EX LT) as [cs [E [L N]]].
  unfold gradient_scatter, color_gradient. cbn [entries list_ascii_of_string map rbind]. rewrite E.
  cbn [rbind py_nth nth_error]. split; [|split].
  - intros x ->. cbn [rbind]. rewrite EE. reflexivity.
  - intros x ->. reflexivity.
  - reflexivity.
Qed.
Print Assumptions gradient_scatter_single_refuted.

(** C123 is false for more than two colours: those behind the second are not used. *)
Theorem gradient_scatter_many_refuted : forall is_color_like to_rgb points c1 c2 cs,
  gradient_scatter is_color_like to_rgb points (PList (c1 :: c2 :: cs)) false =
  gradient_scatter is_color_like to_rgb points (PList [c1; c2]) false.
Proof. reflexivity. Qed.
Print Assumptions gradient_scatter_many_refuted.

(** C123 is false if all boat speeds are equal: the colours are nan. *)
Theorem gradient_scatter_equal_refuted : forall is_color_like to_rgb b p ps colors l,
  (forall q, In q (p :: ps) -> pbs q = b) -> entries colors = Ok l ->
  gradient_scatter is_color_like to_rgb (p :: ps) colors false = Raise NonFinite.
Proof.
  intros icl to_rgb b p ps colors l A EN. unfold gradient_scatter. cbn [rbind]. rewrite EN. cbn [rbind].
  assert (map pbs (p :: ps) = repeat b (S (length ps))) as ->.
  { cbn [map repeat]. rewrite (A p) by (cbn; auto). f_equal. assert (A' : forall q, In q ps -> pbs q = b) by (intros; apply A; cbn; auto).
    clear A. induction ps as [|q ps IH]; cbn; auto. rewrite (A' q) by (cbn; auto). f_equal. apply IH. intros; apply A'; cbn; auto. }
  unfold color_gradient. destruct (gradient_equal_refuted b (length ps)) as [H _]. rewrite H. reflexivity.
Qed.
Print Assumptions gradient_scatter_equal_refuted.

(** C123 is false for the legend of two points: it gives the first colour to the first
    point, and calls the boat speed a wind speed; the faster point is drawn in the second
    colour. *)
Theorem gradient_legend_refuted : forall is_color_like to_rgb w1 a1 b1 w2 a2 b2 rgb1 rgb2,
  b2 < b1 -> is_color_like (PStr "green") = true -> is_color_like (PStr "red") = true ->
  to_rgb (PStr "green") = Ok rgb1 -> to_rgb (PStr "red") = Ok rgb2 ->
  gradient_scatter is_color_like to_rgb [(w1, a1, b1); (w2, a2, b2)] (PTuple [PStr "green"; PStr "red"]) true =
  Ok ([(w1, a1, rgb2); (w2, a2, rgb1)], Some (Handles [(PFloat b1, PStr "green"); (PFloat b2, PStr "red")])).
Proof.
  intros icl to_rgb w1 a1 b1 w2 a2 b2 rgb1 rgb2 LT C1 C2 E1 E2. unfold gradient_scatter.
  cbn [map pbs snd]. unfold configure_legend, plot_with_color_gradient, no_color_gradient.
  cbn [entries rbind length Nat.eqb forallb py_nth nth_error]. rewrite C1, C2.
  cbn [negb andb orb Nat.ltb Nat.leb rbind]. unfold legend_with_wind_speeds. cbn [map combine mapM].
  unfold line. cbn [snd]. rewrite C1, C2. cbn [rbind].
  unfold color_gradient, gradient_coefficients. cbn [fold_left mapM].
  rewrite Rmin_right, Rmax_left by lra. rewrite !np_div_ok by lra. cbn [rbind py_nth nth_error].
  rewrite E1. cbn [rbind]. rewrite E2. cbn [rbind map combine]. unfold pws, pwa. cbn [fst snd].
  replace ((b1 - b2) / (b1 - b2)) with 1 by (field; lra). replace ((b2 - b2) / (b1 - b2)) with 0 by (field; lra).
  destruct rgb1 as [[r1 g1] bb1], rgb2 as [[r2 g2] bb2]. cbn [mix].
  repeat f_equal; ring.
Qed.
Print Assumptions gradient_legend_refuted.

Example gradient_scatter_case :
  let pts := [(6, 90, 4); (8, 90, 5); (10, 90, 6)] in
  extremes (map pbs pts) 4 6 /\ (2 < length pts)%nat.
Proof.
  cbn zeta. split; [|cbn; lia]. unfold extremes. cbn.
  split; [auto|]. split; [auto|]. intros x [<-|[<-|[<-|[]]]]; lra.
Qed.
