(** * Properties of polar diagram curves (C32-C34, C87) *)

From Coq Require Import String.
From Coq Require Import List Bool Arith ZArith Reals Lra Lia.
From Verif Require Import Py Num WPointsModel InterpModel TableSpec TableProofs BaseModel BaseProps CsvModel CsvSpec
  CsvProofs CsvProps CurveModel.
Import ListNotations.
Open Scope string_scope.
Open Scope list_scope.
Open Scope R_scope.

(** A full turn in the unit of the curve. *)
Definition full_turn (c : curve) : R := if c_rad c then 2 * PI else 360.

Lemma rad2deg_turn : forall a k, rad2deg (a + 2 * PI * IZR k) = rad2deg a + 360 * IZR k.
Proof. intros. unfold rad2deg. field. apply PI_neq0. Qed.

Lemma deg2rad_rad2deg : forall a, deg2rad (rad2deg a) = a.
Proof. intros. unfold deg2rad, rad2deg. field. apply PI_neq0. Qed.

(* ------------------------------------------------------------------ *)
(** ** C32 *)

Theorem curve_periodic : forall c s a k,
  curve_call c s (a + full_turn c * IZR k) = curve_call c s a.
Proof.
  intros c s a k. unfold curve_call, full_turn. rnum. destruct (Rltb s 0); auto.
  destruct (c_rad c); [rewrite rad2deg_turn|]; rewrite nmod_shift; reflexivity.
Qed.
Print Assumptions curve_periodic.

(** The function gets the wind speed, the angle reduced to one turn and the
    parameters. *)
Theorem curve_evaluates : forall c s a b k, 0 <= s -> a = b + full_turn c * IZR k -> 0 <= b < full_turn c ->
  curve_call c s a = f_call (c_fun c) s b (c_params c).
Proof.
  intros c s a b k S -> B. rewrite curve_periodic. unfold curve_call, full_turn in *. rnum.
  rewrite Rltb_false by lra. destruct (c_rad c).
  - rewrite nmod_small, deg2rad_rad2deg; auto. unfold rad2deg. assert (P := PI_RGT_0). split.
    + apply Rmult_le_pos; [lra|]. apply Rlt_le, Rinv_0_lt_compat. auto.
    + apply Rmult_lt_reg_r with PI; auto. field_simplify; lra.
  - rewrite nmod_small; auto.
Qed.
Print Assumptions curve_evaluates.

Theorem curve_negative : forall c s a, s < 0 -> curve_call c s a = Raise ValueError.
Proof. intros. unfold curve_call. rnum. rewrite Rltb_true by auto. auto. Qed.
Print Assumptions curve_negative.

(** A function that needs [n] parameters. *)
Definition needs (n : nat) (f : R -> R -> list R -> R) : R -> R -> list R -> result R :=
  fun s a p => if Nat.eqb (length p) n then Ok (f s a p) else Raise TypeError.

(** A curve is constructed as given if the function can be called, and
    [ValueError] is raised if it complains about its arguments. *)
Theorem curve_construction : forall f params radians,
  (forall v, f_call f 1 1 params = Ok v ->
    exists c, curve_new f params radians = Ok c /\ c_fun c = f /\ c_params c = params /\ c_rad c = radians) /\
  (f_call f 1 1 params = Raise IndexError \/ f_call f 1 1 params = Raise TypeError ->
    curve_new f params radians = Raise ValueError).
Proof.
  intros f params radians. unfold curve_new, check_enough_params. split.
  - intros v ->. eexists. split; [reflexivity|]. auto.
  - intros [-> | ->]; reflexivity.
Qed.
Print Assumptions curve_construction.

Definition ex_fun : pyfun := mkFun "plane" (needs 3 (fun s a p => nth 0 p 0 * s + nth 1 p 0 * a + nth 2 p 0)).

Example curve_construction_case : exists c, curve_new ex_fun [1; 2; 3] false = Ok c /\
  curve_new ex_fun [1; 2] false = Raise ValueError /\ curve_call c 10 450 = Ok 193.
Proof.
  exists (mkCurve ex_fun [1; 2; 3] false). repeat split.
  rewrite (curve_evaluates _ 10 450 90 1); simpl; unfold full_turn; simpl; try lra.
  unfold needs. simpl. f_equal. lra.
Qed.

(* ------------------------------------------------------------------ *)
(** ** C33 *)

Lemma symmetrize_inv : forall c c', curve_symmetrize c = Ok c' ->
  c' = mkCurve (sym_fun (c_fun c)) (c_params c) (c_rad c).
Proof.
  intros c c' H. unfold curve_symmetrize, curve_new in H.
  destruct (check_enough_params _ _) as [[|]|]; simpl in H; congruence.
Qed.

Lemma mod_mirror : forall a, nmod a 360 <> 0 -> nmod (360 - a) 360 = 360 - nmod a 360.
Proof.
  intros a H. destruct (nmod_cong a 360) as [k K]. assert (B := nmod_range a 360). 
  apply nmod_unique with (- k)%Z; try rewrite opp_IZR; try lra.
Qed.

Lemma mod_mirror0 : forall a, nmod a 360 = 0 -> nmod (360 - a) 360 = 0.
Proof.
  intros a H. destruct (nmod_cong a 360) as [k K].
  apply nmod_unique with (1 - k)%Z; try rewrite minus_IZR; lra.
Qed.

(** Partial: the curve takes degrees.  The symmetrised curve takes the same value at
    both angles. *)
Theorem curve_symmetric_partial : forall c c' s a v,
  c_rad c = false -> curve_symmetrize c = Ok c' ->
  curve_call c' s a = Ok v -> curve_call c' s (360 - a) = Ok v.
Proof.
  intros c c' s a v RD E. apply symmetrize_inv in E. subst c'. unfold curve_call. simpl. rewrite RD. rnum.
  destruct (Rltb s 0); [discriminate|]. destruct (Req_dec (nmod a 360) 0) as [Z|NZ].
  - rewrite mod_mirror0 by auto. rewrite Z. auto.
  - rewrite mod_mirror by auto. set (b := nmod a 360).
    replace (360 - (360 - b)) with b by lra.
    destruct (f_call (c_fun c) s b (c_params c)) as [y|]; simpl; [|discriminate].
    destruct (f_call (c_fun c) s (360 - b) (c_params c)) as [z|]; simpl; [|discriminate].
    intros H. injection H as <-. f_equal. lra.
Qed.
Print Assumptions curve_symmetric_partial.

(** Partial: degrees, and the wind does not come from ahead. *)
Theorem curve_symmetric_mean_partial : forall c c' s a y z,
  c_rad c = false -> curve_symmetrize c = Ok c' -> (forall k, a <> 360 * IZR k) ->
  curve_call c s a = Ok y -> curve_call c s (360 - a) = Ok z ->
  curve_call c' s a = Ok ((y + z) / 2).
Proof.
  intros c c' s a y z RD E NZ. apply symmetrize_inv in E. subst c'. unfold curve_call. simpl. rewrite RD. rnum.
  destruct (Rltb s 0); [discriminate|]. rewrite mod_mirror.
  - intros -> ->. simpl. f_equal. lra.
  - intros H. destruct (nmod_cong a 360) as [k K]. apply (NZ k). lra.
Qed.
Print Assumptions curve_symmetric_mean_partial.

(** Symmetrising twice changes nothing, for degrees and radians. *)
Theorem curve_symmetrize_twice : forall c c' c'' s a v,
  curve_symmetrize c = Ok c' -> curve_symmetrize c' = Ok c'' ->
  curve_call c' s a = Ok v -> curve_call c'' s a = Ok v.
Proof.
  intros c c' c'' s a v E1 E2. apply symmetrize_inv in E2. apply symmetrize_inv in E1. subst.
  unfold curve_call. cbn [c_fun c_params c_rad sym_fun f_call]. rnum. destruct (Rltb s 0); [discriminate|].
  set (b := if c_rad c then _ else _). replace (360 - (360 - b)) with b by lra.
  destruct (f_call (c_fun c) s b (c_params c)) as [y|]; simpl; [|discriminate].
  destruct (f_call (c_fun c) s (360 - b) (c_params c)) as [z|]; simpl; [|discriminate].
  intros H. injection H as <-. f_equal. lra.
Qed.
Print Assumptions curve_symmetrize_twice.

Example curve_symmetrize_case : exists c c' c'', curve_new ex_fun [1; 2; 3] false = Ok c /\
  curve_symmetrize c = Ok c' /\ curve_symmetrize c' = Ok c'' /\
  curve_call c' 10 90 = Ok 373 /\ curve_call c' 10 270 = Ok 373 /\ curve_call c'' 10 270 = Ok 373 /\
  curve_call c 10 90 = Ok 193 /\ curve_call c 10 270 = Ok 553.
Proof.
  do 3 eexists. split; [reflexivity|]. split; [reflexivity|]. split; [reflexivity|].
  unfold curve_call. simpl. rnum. rewrite Rltb_false by lra. rewrite !nmod_small by lra. unfold needs. simpl.
  repeat split; f_equal; lra.
Qed.

(** With the wind from ahead the symmetrised curve uses the function at 360, not the
    curve at 0. *)
Theorem curve_symmetric_ahead_refuted : exists c c' y, 
  curve_symmetrize c = Ok c' /\ c_rad c = false /\
  curve_call c 10 0 = Ok y /\ curve_call c 10 360 = Ok y /\ curve_call c' 10 0 <> Ok ((y + y) / 2).
Proof.
  exists (mkCurve ex_fun [1; 2; 3] false). do 2 eexists. split; [reflexivity|]. split; [reflexivity|].
  unfold curve_call. simpl. rnum. rewrite Rltb_false by lra.
  assert (nmod 360 360 = 0) as -> by (apply nmod_unique with 1%Z; lra).
  rewrite !nmod_small by lra. unfold needs. simpl.
  split; [reflexivity|]. split; [reflexivity|]. intros H. injection H. lra.
Qed.
Print Assumptions curve_symmetric_ahead_refuted.

Definition ex_square : pyfun := mkFun "square" (needs 0 (fun s a _ => a * a)).

(** With radians the angle is mirrored at 180 radians: the result is not symmetric. *)
Theorem curve_symmetric_radians_refuted : exists c c' s a,
  curve_symmetrize c = Ok c' /\ c_rad c = true /\
  curve_call c' s (full_turn c - a) <> curve_call c' s a.
Proof.
  exists (mkCurve ex_square [] true). eexists. exists 10, (PI / 2). split; [reflexivity|]. split; [reflexivity|].
  assert (P := PI_RGT_0). assert (P4 := PI_4). unfold full_turn. simpl.
  rewrite (curve_evaluates _ 10 (PI / 2) (PI / 2) 0), (curve_evaluates _ 10 (2 * PI - PI / 2) (3 * PI / 2) 0);
    unfold full_turn; simpl; try lra.
  unfold needs. simpl. intros H. injection H as H.
  assert (PI * (PI - 180) = 0) as H0 by nra. nra.
Qed.
Print Assumptions curve_symmetric_radians_refuted.

(* ------------------------------------------------------------------ *)
(** ** C34 *)

Theorem curve_csv_round_trip : forall show lit tofloat functions f params radians c,
  curve_new f params radians = Ok c -> functions (f_name f) = Some f ->
  (forall x, In x params -> readable show lit tofloat x) ->
  exists rows, curve_to_csv show c = ["PolarDiagramCurve"] :: rows /\
    curve_from_csv lit functions rows = Ok c.
Proof.
  intros show lit tofloat functions f params radians c E F RD. eexists. split; [reflexivity|].
  assert (c = mkCurve f params radians) as ->.
  { unfold curve_new in E. destruct (check_enough_params _ _) as [[|]|]; simpl in E; congruence. }
  unfold curve_from_csv. cbn [next_row rbind c_fun c_rad c_params tl].
  assert (lit_bool (if radians then "True" else "False") = Ok radians) as -> by (destruct radians; reflexivity).
  cbn [rbind]. rewrite mapM_show by (intros; apply RD; auto). cbn [rbind]. rewrite F. exact E.
Qed.
Print Assumptions curve_csv_round_trip.

Example curve_csv_case : exists c, curve_new ex_fun [1; 2; 3] true = Ok c /\
  curve_from_csv ex_lit (fun s => if String.eqb s "plane" then Some ex_fun else None) (tl (curve_to_csv ex_show c)) = Ok c.
Proof.
  eexists. split; [reflexivity|].
  destruct (curve_csv_round_trip ex_show ex_lit ex_read (fun s => if String.eqb s "plane" then Some ex_fun else None)
              ex_fun [1; 2; 3] true (mkCurve ex_fun [1; 2; 3] true) eq_refl eq_refl) as [rows [E1 E2]].
  - intros x [<-|[<-|[<-|[]]]]; [apply (ex_readable 1)|apply (ex_readable 2)|apply (ex_readable 3)]; lia.
  - rewrite E1. exact E2.
Qed.

(** A symmetrised curve of a library function is written but cannot be read: no
    library function is called [sym_func]. *)
Theorem symmetrized_csv_refuted : exists f params c c',
  curve_new f params false = Ok c /\ curve_symmetrize c = Ok c' /\
  forall show lit functions, functions (f_name f) = Some f -> functions "sym_func" = None ->
    (forall x, In x params -> lit (show x) = Ok x) ->
    exists rows, curve_to_csv show c' = ["PolarDiagramCurve"] :: rows /\
      curve_from_csv lit functions rows = Raise RuntimeError.
Proof.
  exists ex_fun, [1; 2; 3]. do 2 eexists. split; [reflexivity|]. split; [reflexivity|].
  intros show lit functions _ F RD. eexists. split; [reflexivity|].
  unfold curve_from_csv. cbn [next_row rbind c_fun c_rad c_params tl]. unfold lit_bool. simpl String.eqb. cbn [rbind].
  rewrite mapM_show by auto. cbn [rbind sym_fun f_name]. rewrite F. reflexivity.
Qed.
Print Assumptions symmetrized_csv_refuted.

(* ------------------------------------------------------------------ *)
(** ** C87 *)

(** The value of the diagram for an angle in degrees. *)
Definition at_degrees (c : curve) (s a : R) : result R :=
  curve_call c s (if c_rad c then deg2rad a else a).

(** Partial: curves taking degrees.  Every slice has [n] evenly spread angles from 0
    to 360 with the boat speed for this angle. *)
Theorem curve_slices_values_partial : forall c n ws slices, (2 <= n)%nat -> c_rad c = false ->
  curve_slices c n ws = Ok slices ->
  length slices = length ws /\
  forall i s, nth_error ws i = Some s -> exists sl, nth_error slices i = Some sl /\ length sl = n /\
    forall j, (j < n)%nat -> exists b,
      nth_error sl j = Some (s, 360 * INR j / INR (n - 1), b) /\ at_degrees c s (360 * INR j / INR (n - 1)) = Ok b.
Proof.
  intros c n ws slices N RD E. unfold curve_slices in E. split; [apply mapM_length in E; auto|].
  intros i s Hi. destruct (mapM_nth _ _ _ _ _ E i s Hi) as [sl [E2 E1]].
  exists sl. split; auto. split.
  - apply mapM_length in E1. rewrite E1. apply linspace_length.
  - intros j J. assert (L := linspace_nth 0 360 n j N J).
    destruct (mapM_nth _ _ _ _ _ E1 j _ L) as [y [E4 E3]].
    assert (INR (n - 1) <> 0) by (apply not_0_INR; lia).
    replace (0 + INR j * ((360 - 0) / INR (n - 1))) with (360 * INR j / INR (n - 1)) in * by (field; auto).
    unfold at_degrees. rewrite RD. destruct (curve_call c s _) as [b|]; simpl in E3; [|discriminate].
    injection E3 as <-. eauto.
Qed.
Print Assumptions curve_slices_values_partial.

Lemma curve_slices_ok : forall c n ws, (forall s a, In s ws -> exists b, curve_call c s a = Ok b) ->
  exists slices, curve_slices c n ws = Ok slices.
Proof.
  intros c n ws H. unfold curve_slices. generalize (linspace (nofZ 0) (nofZ 360) n). intros las.
  induction ws as [|s ws IH]; simpl; [eauto|].
  destruct IH as [r ->]; [intros; apply H; right; auto|].
  assert (exists y, mapM (fun a => do b <- curve_call c s a; Ok (s, a, b)) las = Ok y) as [y ->].
  { clear r. induction las as [|a l IHl]; simpl; [eauto|].
    destruct (H s a (or_introl eq_refl)) as [b ->]. simpl. destruct IHl as [y ->]. simpl. eauto. }
  simpl. eauto.
Qed.

Lemma ex_call_ok : forall f params rad s a, 0 <= s ->
  (forall a, exists b, f_call f s a params = Ok b) -> exists b, curve_call (mkCurve f params rad) s a = Ok b.
Proof. intros. unfold curve_call. rnum. rewrite Rltb_false by lra. simpl. auto. Qed.

Example curve_slices_case : exists slices, curve_slices (mkCurve ex_fun [1; 2; 3] false) 5 [10; 12] = Ok slices.
Proof.
  apply curve_slices_ok. intros s a H. apply ex_call_ok.
  - destruct H as [<-|[<-|[]]]; lra.
  - intros. simpl. unfold needs. simpl. eauto.
Qed.

(** With radians the angles 0 to 360 are passed as radians. *)
Theorem curve_slices_radians_refuted : exists c n ws slices sl s a b,
  c_rad c = true /\ curve_slices c n ws = Ok slices /\ nth_error slices 0 = Some sl /\
  nth_error ws 0 = Some s /\ In (s, a, b) sl /\ 0 <= a <= 360 /\ at_degrees c s a <> Ok b.
Proof.
  pose (c := mkCurve ex_square [] true).
  destruct (curve_slices_ok c 361 [10]) as [slices E].
  { intros s a H. apply ex_call_ok.
    - destruct H as [<-|[]]; lra.
    - intros. simpl. unfold needs. simpl. eauto. }
  exists c, 361%nat, [10], slices.
  destruct (mapM_nth _ _ _ _ _ E 0%nat 10 eq_refl) as [sl [E2 E1]].
  assert (L := linspace_nth 0 360 361 1 ltac:(lia) ltac:(lia)).
  destruct (mapM_nth _ _ _ _ _ E1 1%nat _ L) as [y [E4 E3]].
  replace (0 + INR 1 * ((360 - 0) / INR (361 - 1))) with 1 in *.
  2:{ rewrite INR_IZR_INZ, (INR_IZR_INZ (361 - 1)). simpl. lra. }
  assert (P := PI_RGT_0). assert (P4 := PI_4). assert (P3 := PI2_3_2).
  rewrite (curve_evaluates c 10 1 1 0) in E3; unfold full_turn; simpl; try lra.
  simpl in E3. unfold needs in E3. simpl in E3. injection E3 as <-.
  exists sl, 10, 1, (1 * 1). split; [reflexivity|]. split; [exact E|]. split; [exact E2|]. split; [reflexivity|].
  split; [eapply nth_error_In; eauto|]. split; [lra|].
  unfold at_degrees. simpl. unfold deg2rad.
  rewrite (curve_evaluates c 10 (1 * PI / 180) (1 * PI / 180) 0); unfold full_turn; simpl; try lra.
  unfold needs. simpl. intros H. injection H as H. nra.
Qed.
Print Assumptions curve_slices_radians_refuted.
