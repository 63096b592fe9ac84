(** * Polar diagrams in space (C139) *)

From Coq Require Import String List Bool Arith ZArith Reals Lra Lia.
From Verif Require Import Py Num ListX InterpModel CurveModel MultiModel GlobeProofs PlotModel PlotProps LegendModel LegendProps GradientModel
  GradientProps SpaceModel.
Import ListNotations.
Open Scope string_scope.
Open Scope list_scope.
Open Scope R_scope.

Lemma fold_extremes : forall l lo hi, extremes l lo hi -> exists z r, l = z :: r /\ fold_left Rmin r z = lo /\ fold_left Rmax r z = hi.
Proof.
  intros l lo hi [L [H B]]. destruct l as [|z r]; [destruct L|]. exists z, r. split; auto.
  assert (forall r z, let m := fold_left Rmin r z in In m (z :: r) /\ forall x, In x (z :: r) -> m <= x) as P.
  { clear. induction r as [|y r IH]; intros z; cbn [fold_left]; [cbn; split; auto; intros x [<-|[]]; lra|].
    cbv zeta in IH. destruct (IH (Rmin z y)) as [I1 I2]. split.
    - destruct I1 as [<-|I1]; [unfold Rmin; destruct (Rle_dec z y); cbn; auto|cbn; auto].
    - intros x [<-|[<-|Ix]].
      + eapply Rle_trans; [apply I2; left; reflexivity|apply Rmin_l].
      + eapply Rle_trans; [apply I2; left; reflexivity|apply Rmin_r].
      + apply I2. right. auto. }
  assert (forall r z, let m := fold_left Rmax r z in In m (z :: r) /\ forall x, In x (z :: r) -> x <= m) as Q.
  { clear. induction r as [|y r IH]; intros z; cbn [fold_left]; [cbn; split; auto; intros x [<-|[]]; lra|].
    cbv zeta in IH. destruct (IH (Rmax z y)) as [I1 I2]. split.
    - destruct I1 as [<-|I1]; [unfold Rmax; destruct (Rle_dec z y); cbn; auto|cbn; auto].
    - intros x [<-|[<-|Ix]].
      + eapply Rle_trans; [apply Rmax_l|apply I2; left; reflexivity].
      + eapply Rle_trans; [apply Rmax_r|apply I2; left; reflexivity].
      + apply I2. right. auto. }
  destruct (P r z) as [P1 P2], (Q r z) as [Q1 Q2]. pose proof (B _ P1). pose proof (B _ Q1). pose proof (P2 _ L). pose proof (Q2 _ H). split; lra.
Qed.

Lemma two_colors : forall a b i, (0 <= i <= 255)%Z -> table_color [a; b] i = Ok (mix (IZR i / 255) a b).
Proof.
  intros a b i H. unfold table_color. cbn [length Nat.sub INR].
  replace (IZR i / 255 * 1) with (IZR i / 255) by ring. rewrite Nat.min_0_r. cbn [py_nth nth_error rbind INR]. unfold py_nth. cbn.
  f_equal. f_equal. ring.
Qed.

Lemma index_near : forall t, 0 <= t <= 1 -> (0 <= table_index t <= 255)%Z /\ Rabs (t - IZR (table_index t) / 255) <= 1 / 255.
Proof.
  intros t H. unfold table_index. destruct (Reqb_spec t 1) as [->|N].
  - split; [lia|]. replace (1 - 255 / 255) with 0 by field. rewrite Rabs_R0. lra.
  - destruct (base_Int_part (256 * t)) as [B1 B2]. set (i := Int_part (256 * t)) in *.
    assert (0 <= i <= 255)%Z as I.
    { split.
      - assert (-1 < i)%Z; [|lia]. apply lt_IZR. lra.
      - assert (i < 256)%Z; [|lia]. apply lt_IZR. lra. }
    split; auto. assert (0 <= IZR i <= 255) as I' by (split; apply IZR_le; lia).
    unfold Rabs. destruct (Rcase_abs (t - IZR i / 255)); lra.
Qed.

Lemma py_nth_nth : forall {A} (l : list A) i d, (i < length l)%nat -> py_nth l i = Ok (nth i l d).
Proof. intros A l i d H. unfold py_nth. rewrite (List.nth_error_nth' _ d H). reflexivity. Qed.

Lemma table_color_between : forall cs i, (2 <= length cs)%nat -> (0 <= i <= 255)%Z ->
  exists j c, (S j < length cs)%nat /\ 0 <= c <= 1 /\ (INR j + c) = IZR i / 255 * INR (length cs - 1) /\
    table_color cs i = Ok (mix c (nth j cs (0, 0, 0)) (nth (S j) cs (0, 0, 0))).
Proof.
  intros cs i L H. unfold table_color. destruct cs as [|c1 [|c2 cs]]; [cbn in L; lia|cbn in L; lia|]. set (l := c1 :: c2 :: cs) in *.
  set (x := IZR i / 255 * INR (length l - 1)). set (j := Nat.min (Z.to_nat (Int_part x)) (length l - 2)).
  assert (S j < length l)%nat as J by (unfold j; lia).
  assert (0 <= IZR i <= 255) as I by (split; apply IZR_le; lia).
  assert (0 <= INR (length l - 1)) as N by apply pos_INR.
  assert (0 <= x <= INR (length l - 1)) as X by (unfold x; split; nra).
  destruct (base_Int_part x) as [B1 B2].
  assert (0 <= Int_part x)%Z as P. { assert (-1 < Int_part x)%Z; [|lia]. apply lt_IZR. lra. }
  assert (INR (Z.to_nat (Int_part x)) = IZR (Int_part x)) as EI by (rewrite INR_IZR_INZ, Z2Nat.id by auto; reflexivity).
  exists j, (x - INR j). split; [exact J|]. split; [|split; [lra|]].
  - destruct (Nat.le_gt_cases (Z.to_nat (Int_part x)) (length l - 2)) as [C|C].
    + assert (j = Z.to_nat (Int_part x)) as -> by (unfold j; lia). lra.
    + assert (j = (length l - 2)%nat) as -> by (unfold j; lia).
      assert (INR (length l - 2) = INR (length l - 1) - 1) as ->. { replace (length l - 1)%nat with (S (length l - 2)) by lia. rewrite S_INR. lra. }
      assert (length l - 1 <= Z.to_nat (Int_part x))%nat as C' by lia. apply le_INR in C'. lra.
  - rewrite (py_nth_nth l j (0, 0, 0)) by lia. rewrite (py_nth_nth l (S j) (0, 0, 0)) by lia. reflexivity.
Qed.

Lemma normalized_spec : forall l lo hi, extremes l lo hi ->
  normalized l = map (fun x => if Reqb hi lo then 0 else (x - lo) / (hi - lo)) l.
Proof.
  intros l lo hi EX. destruct (fold_extremes _ _ _ EX) as [z [r [-> [Emn Emx]]]]. unfold normalized. rewrite Emn, Emx. reflexivity.
Qed.

(** C139.  Every point is drawn at its place in space.  Its colour lies between two neighbouring
    colours, at the place that its wind speed has between the least and the greatest one, up to
    1/255; if all wind speeds are equal, it is the first colour. *)
Theorem space_scatter_points : forall to_rgb points colors names rgbs lo hi,
  extremes (map pws points) lo hi -> entries colors = Ok names -> Forall2 (fun name rgb => to_rgb name = Ok rgb) names rgbs ->
  (2 <= length rgbs)%nat ->
  exists marks, space_scatter to_rgb points colors = Ok marks /\ length marks = length points /\
    forall i p, nth_error points i = Some p -> exists j c rgb1 rgb2 rgb,
      nth_error marks i = Some (pbs p * sin (pwa p * PI / 180), pbs p * cos (pwa p * PI / 180), pws p, rgb) /\
      nth_error rgbs j = Some rgb1 /\ nth_error rgbs (S j) = Some rgb2 /\ 0 <= c <= 1 /\ blend c rgb1 rgb2 rgb /\
      (lo < hi -> Rabs ((pws p - lo) / (hi - lo) - (INR j + c) / INR (length rgbs - 1)) <= 1 / 255) /\
      (lo = hi -> j = 0%nat /\ c = 0).
Proof.
  intros to_rgb points colors names rgbs lo hi EX EN RGB LEN. unfold space_scatter. rewrite EN. cbn [rbind].
  assert (mapM to_rgb names = Ok rgbs) as ->.
  { clear -RGB. induction RGB as [|n r names rgbs E _ IH]; [reflexivity|]. cbn [mapM]. rewrite E. cbn [rbind]. rewrite IH. reflexivity. }
  cbn [rbind]. assert (map snd (map prepare_point points) = map pws points) as ->. { rewrite map_map. reflexivity. }
  rewrite (normalized_spec _ _ _ EX), !map_map. set (t := fun p : pt3 R => if Reqb hi lo then 0 else (pws p - lo) / (hi - lo)).
  assert (forall p, In p points -> 0 <= t p <= 1) as RG.
  { intros p Hp. assert (lo <= pws p <= hi) as B by (apply EX; apply in_map; auto). unfold t. destruct (Reqb_spec hi lo) as [|NE]; [lra|].
    assert (lo < hi) as LT by lra. split.
    - apply Rmult_le_pos; [lra|]. left. apply Rinv_0_lt_compat. lra.
    - apply Rmult_le_reg_r with (hi - lo); [lra|]. unfold Rdiv. rewrite Rmult_assoc, Rinv_l by lra. lra. }
  assert (exists cs, mapM (table_color rgbs) (map (fun p => table_index (t p)) points) = Ok cs /\
    Forall2 (fun p c => table_color rgbs (table_index (t p)) = Ok c) points cs) as [cs [EC FC]].
  { clear EX. induction points as [|p points IH]; [exists []; split; [reflexivity|constructor]|].
    destruct IH as [cs [E F]]; [intros; apply RG; right; auto|]. destruct (index_near (t p)) as [I _]; [apply RG; left; auto|].
    destruct (table_color_between rgbs _ LEN I) as [j [c [_ [_ [_ E1]]]]]. exists (mix c (nth j rgbs (0, 0, 0)) (nth (S j) rgbs (0, 0, 0)) :: cs).
    cbn [map mapM]. rewrite E1. cbn [rbind]. rewrite E. split; [reflexivity|]. constructor; auto. }
  match goal with |- context [mapM (table_color rgbs) ?l] => change l with (map (fun p => table_index (t p)) points) end.
  rewrite EC. cbn [rbind]. eexists. split; [reflexivity|].
  assert (length cs = length points) as LC by (clear -FC; induction FC; cbn; auto).
  split; [rewrite combine_length, map_length, LC; apply Nat.min_id|]. intros i p Hp.
  assert (exists rgb, nth_error cs i = Some rgb /\ nth_error (combine (map prepare_point points) cs) i = Some (prepare_point p, rgb) /\
    table_color rgbs (table_index (t p)) = Ok rgb) as [rgb [_ [NE E]]].
  { clear - Hp FC. revert i Hp. induction FC as [|q c points cs E F IH]; intros [|i] Hp; try discriminate; cbn in *; [injection Hp as ->; eauto|auto]. }
  pose proof (nth_error_In _ _ Hp) as Ip. destruct (index_near (t p) (RG p Ip)) as [I N].
  destruct (table_color_between rgbs _ LEN I) as [j [c [J [C [S E1]]]]]. rewrite E1 in E. injection E as <-.
  exists j, c, (nth j rgbs (0, 0, 0)), (nth (Datatypes.S j) rgbs (0, 0, 0)), (mix c (nth j rgbs (0, 0, 0)) (nth (Datatypes.S j) rgbs (0, 0, 0))).
  split. { rewrite NE. unfold prepare_point, Trig.deg2rad. replace (pwa p * (PI / 180)) with (pwa p * PI / 180) by field. reflexivity. }
  split; [apply List.nth_error_nth'; lia|]. split; [apply List.nth_error_nth'; lia|]. split; [exact C|]. split; [apply mix_blend|].
  assert (0 < INR (length rgbs - 1)) as LP by (apply lt_0_INR; lia). split.
  - intros LT. rewrite S. unfold t in N at 1. rewrite Reqb_false in N by lra.
    replace (IZR (table_index (t p)) / 255 * INR (length rgbs - 1) / INR (length rgbs - 1)) with (IZR (table_index (t p)) / 255) by (field; lra).
    exact N.
  - intros ->. unfold t in S. rewrite Reqb_true in S by auto. unfold table_index in S. rewrite Reqb_false in S by lra.
    replace (256 * 0) with (IZR 0) in S by lra. rewrite (Int_part_spec 0 0) in S by lra.
    replace (0 / 255 * INR (length rgbs - 1)) with 0 in S by lra. pose proof (pos_INR j).
    assert (INR j = 0) as J0 by lra. split; [apply INR_eq; exact J0|lra].
Qed.
Print Assumptions space_scatter_points.

(** C139 is false as documented (as [HROColorGradient.scatter], with the colour of the boat speed): two
    points with the same wind speed have the same colour, whatever their boat speeds. *)
Theorem space_scatter_refuted : forall is_color_like to_rgb w a1 b1 a2 b2 rgb1 rgb2, b1 < b2 ->
  to_rgb (PStr "green") = Ok rgb1 -> to_rgb (PStr "red") = Ok rgb2 ->
  let colors := PTuple [PStr "green"; PStr "red"] in
  let points := [(w, a1, b1); (w, a2, b2)] in
  gradient_scatter is_color_like to_rgb points colors false = Ok ([(w, a1, rgb1); (w, a2, rgb2)], None) /\
  exists m1 m2, space_scatter to_rgb points colors = Ok [(m1, rgb1); (m2, rgb1)].
Proof.
  intros icl to_rgb w a1 b1 a2 b2 rgb1 rgb2 LT E1 E2. cbv zeta. split.
  - destruct (gradient_scatter_partial icl to_rgb [(w, a1, b1); (w, a2, b2)] (PTuple [PStr "green"; PStr "red"]) (PStr "green") (PStr "red")
      rgb1 rgb2 b1 b2) as [marks [E [L N]]]; auto.
    { unfold extremes. cbn. repeat split; auto; destruct H as [<-|[<-|[]]]; lra. }
    rewrite E. destruct marks as [|m1 [|m2 [|]]]; try discriminate.
    destruct (N 0%nat _ eq_refl) as [c [rgb [M1 [B1 [_ C1]]]]]. destruct (N 1%nat _ eq_refl) as [c' [rgb' [M2 [B2 [_ C2]]]]].
    cbn in M1, M2, C1, C2. injection M1 as ->. injection M2 as ->. unfold pws, pwa, pbs in *. cbn in *.
    assert (c = 0) as -> by nra. assert (c' = 1) as -> by nra. apply blend_mix in B1, B2. subst.
    destruct rgb1 as [[? ?] ?], rgb2 as [[? ?] ?]. unfold mix. repeat f_equal; ring.
  - unfold space_scatter. cbn [entries rbind mapM]. rewrite E1, E2. cbn [rbind map prepare_point pws fst snd].
    unfold normalized. cbn [fold_left map]. rewrite Rmax_left, Rmin_left by lra. rewrite Reqb_true by auto.
    unfold table_index. rewrite Reqb_false by lra. replace (256 * 0) with (IZR 0) by lra.
    rewrite (Int_part_spec 0 0) by lra. cbn [mapM]. rewrite two_colors by lia. cbn [rbind combine].
    replace (mix (0 / 255) rgb1 rgb2) with rgb1; [eauto|]. destruct rgb1 as [[? ?] ?], rgb2 as [[? ?] ?]. unfold mix. f_equal; [f_equal|]; field.
Qed.
Print Assumptions space_scatter_refuted.

(** A single colour has no table: one letter raises, and a name is read letter by letter. *)
Theorem space_scatter_single_refuted : forall to_rgb p points c e,
  (forall x, to_rgb (PStr "k") = Ok x -> space_scatter to_rgb (p :: points) (PStr "k") = Raise ValueError) /\
  (to_rgb (PStr "e") = Raise e -> (exists x, to_rgb (PStr "r") = Ok x) -> space_scatter to_rgb (p :: points) (PStr "red") = Raise e) /\
  (forall x, to_rgb c = Ok x -> space_scatter to_rgb (p :: points) (PList [c]) = Raise ValueError).
Proof.
  intros to_rgb p points c e. repeat split.
  - intros x E. unfold space_scatter. cbn [entries list_ascii_of_string map rbind mapM]. rewrite E. reflexivity.
  - intros E [x Ex]. unfold space_scatter. cbn [entries list_ascii_of_string map rbind mapM]. rewrite Ex, E. reflexivity.
  - intros x E. unfold space_scatter. cbn [entries map rbind mapM]. rewrite E. reflexivity.
Qed.
Print Assumptions space_scatter_single_refuted.

(** Three points, two wind speeds, black to white. *)
Example space_scatter_meets :
  let to_rgb c := match c with PStr "black" => Ok (0, 0, 0) | PStr "white" => Ok (1, 1, 1) | _ => Raise ValueError end in
  let points := [(10, 0, 5); (20, 90, 7); (10, 45, 6)] in
  extremes (map pws points) 10 20 /\ 10 < 20 /\
  exists m1 m2 m3, space_scatter to_rgb points (PList [PStr "black"; PStr "white"]) =
    Ok [(m1, (0, 0, 0)); (m2, (1, 1, 1)); (m3, (0, 0, 0))].
Proof.
  cbv zeta. split. { unfold extremes. cbn. repeat split; auto; destruct H as [<-|[<-|[<-|[]]]]; lra. }
  split; [lra|].
  unfold space_scatter. cbn [entries rbind mapM map prepare_point snd].
  unfold normalized, pws. cbn [fold_left map fst snd].
  rewrite (Rmax_right 10 20), (Rmax_left 20 10), (Rmin_left 10 20), (Rmin_left 10 10) by lra. rewrite Reqb_false by lra.
  replace ((10 - 10) / (20 - 10)) with 0 by field. replace ((20 - 10) / (20 - 10)) with 1 by field.
  unfold table_index. rewrite (Reqb_false 0 1), (Reqb_true 1 1) by lra. replace (256 * 0) with (IZR 0) by lra.
  rewrite (Int_part_spec 0 0) by lra. cbn [mapM]. rewrite !two_colors by lia. cbn [rbind combine mix].
  do 3 eexists. unfold mix. repeat f_equal; field.
Qed.
