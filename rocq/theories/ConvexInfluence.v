(** * Optimal directions with an influence model (C162)

    [convex_direction] with [im] (cruising/basics.py 98-104), modelled in CruiseModel.v: the boat speeds of the slice are
    replaced by the outcome of [im.add_influence(pd, influence_data)], which is not told the angles of the slice. *)

From Coq Require Import String List Bool Arith ZArith Reals Lra Lia.
From Verif Require Import Py Num PySort ListX WPointsModel InterpModel CruiseModel ConvexProps.
Import ListNotations.
Open Scope list_scope.
Open Scope R_scope.

(** ** Specification *)

(** The slice with other boat speeds. *)
Definition with_speeds (sl sl' : list (pt3 R)) (speed : nat -> R) : Prop :=
  length sl = length sl' /\
  forall i s a b, nth_error sl i = Some (s, a, b) -> nth_error sl' i = Some (s, a, speed i).

(** ** Proofs *)

Lemma with_speeds_cols : forall sl sl' speed, with_speeds sl sl' speed ->
  map pt_wa sl' = map pt_wa sl /\ forall i, (i < length sl)%nat -> nth_error (map pt_bsp sl') i = Some (speed i).
Proof.
  intros sl sl' speed [L H].
  assert (forall i, (i < length sl)%nat -> exists s a b, nth_error sl i = Some (s, a, b) /\ nth_error sl' i = Some (s, a, speed i)) as K.
  { intros i I. destruct (nth_error sl i) as [[[s a] b]|] eqn:E; [|apply nth_error_None in E; lia].
    exists s, a, b. split; auto. eapply H; eauto. }
  split.
  - apply nth_error_ext. intros i. rewrite !nth_error_map.
    destruct (lt_dec i (length sl)) as [I|I].
    + destruct (K i I) as [s [a [b [-> ->]]]]. reflexivity.
    + rewrite (proj2 (nth_error_None sl i)), (proj2 (nth_error_None sl' i)) by lia. reflexivity.
  - intros i I. destruct (K i I) as [s [a [b [_ E]]]]. rewrite nth_error_map, E. reflexivity.
Qed.

Lemma speeds_are : forall sl sl' speed bsp, with_speeds sl sl' speed -> length bsp = length sl ->
  (forall i, (i < length sl)%nat -> nth_error bsp i = Some (speed i)) -> map pt_bsp sl' = bsp.
Proof.
  intros sl sl' speed bsp W L H. destruct (with_speeds_cols _ _ _ W) as [_ B]. destruct W as [LL _].
  apply nth_error_ext. intros i. destruct (lt_dec i (length sl)) as [I|I].
  - rewrite B, H by auto. reflexivity.
  - rewrite (proj2 (nth_error_None (map pt_bsp sl') i)), (proj2 (nth_error_None bsp i)); auto; [lia|rewrite map_length; lia].
Qed.

Lemma plain_direction : forall hull pd ws dir sl rest info, pd_slices pd ws = Ok (sl :: rest, info) ->
  convex_direction hull pd ws dir None = convex_dir hull (map pt_wa sl) (map pt_bsp sl) info dir.
Proof. intros hull pd ws dir sl rest info E. unfold convex_direction. rewrite E. reflexivity. Qed.
Lemma influenced_direction : forall hull pd ws dir sl rest info r, pd_slices pd ws = Ok (sl :: rest, info) ->
  convex_direction hull pd ws dir (Some r) = do b <- r; convex_dir hull (map pt_wa sl) b info dir.
Proof. intros hull pd ws dir sl rest info r E. unfold convex_direction. rewrite E. reflexivity. Qed.

(** ** Properties *)

(** C162.  Only the first slice counts. *)
Theorem convex_first_slice : forall hull pd pd' ws ws' dir im sl rest rest' info,
  pd_slices pd ws = Ok (sl :: rest, info) -> pd_slices pd' ws' = Ok (sl :: rest', info) ->
  convex_direction hull pd ws dir im = convex_direction hull pd' ws' dir im.
Proof. intros hull pd pd' ws ws' dir im sl rest rest' info E E'. unfold convex_direction. rewrite E, E'. reflexivity. Qed.
Print Assumptions convex_first_slice.

(** C162.  Influenced boat speeds, one for each point of the slice, take the place of those of the slice. *)
Theorem convex_influence_replaces : forall hull pd pd' ws ws' dir bsp sl rest sl' rest' info,
  pd_slices pd ws = Ok (sl :: rest, info) -> pd_slices pd' ws' = Ok (sl' :: rest', info) ->
  length bsp = length sl -> with_speeds sl sl' (fun i => nth i bsp 0) ->
  convex_direction hull pd ws dir (Some (Ok bsp)) = convex_direction hull pd' ws' dir None.
Proof.
  intros hull pd pd' ws ws' dir bsp sl rest sl' rest' info E E' L W.
  rewrite (influenced_direction _ _ _ _ _ _ _ _ E), (plain_direction _ _ _ _ _ _ _ E'). cbn [rbind].
  rewrite (proj1 (with_speeds_cols _ _ _ W)), (speeds_are _ _ _ bsp W L); [reflexivity|].
  intros i I. apply nth_error_nth'. lia.
Qed.
Print Assumptions convex_influence_replaces.

(** C162.  If the model gives one boat speed, it is taken for all directions: the boat sails as if its diagram were a circle. *)
Theorem convex_influence_circle : forall hull pd pd' ws ws' dir b sl rest sl' rest' info,
  pd_slices pd ws = Ok (sl :: rest, info) -> pd_slices pd' ws' = Ok (sl' :: rest', info) ->
  with_speeds sl sl' (fun _ => b) ->
  convex_direction hull pd ws dir (Some (Ok [b])) = convex_direction hull pd' ws' dir None.
Proof.
  intros hull pd pd' ws ws' dir b sl rest sl' rest' info E E' W.
  rewrite (influenced_direction _ _ _ _ _ _ _ _ E), (plain_direction _ _ _ _ _ _ _ E'). cbn [rbind].
  rewrite (proj1 (with_speeds_cols _ _ _ W)), (speeds_are _ _ _ (repeat b (length sl)) W).
  - unfold convex_dir, broadcast. rewrite !map_length, repeat_length, Nat.eqb_refl. cbn [length].
    destruct (Nat.eqb_spec 1 (length sl)) as [<-|_]; reflexivity.
  - apply repeat_length.
  - intros i I. apply nth_error_repeat. auto.
Qed.
Print Assumptions convex_influence_circle.

(** C162.  Another number of boat speeds is refused, and errors of the model are passed on. *)
Theorem convex_influence_refused : forall hull pd ws dir sl rest info, pd_slices pd ws = Ok (sl :: rest, info) ->
  (forall bsp, (2 <= length sl)%nat -> length bsp <> length sl -> length bsp <> 1%nat ->
    convex_direction hull pd ws dir (Some (Ok bsp)) = Raise ValueError) /\
  (forall e, convex_direction hull pd ws dir (Some (Raise e)) = Raise e).
Proof.
  intros hull pd ws dir sl rest info E. split.
  - intros bsp L N1 N2. rewrite (influenced_direction _ _ _ _ _ _ _ _ E). cbn [rbind]. unfold convex_dir, broadcast.
    rewrite map_length. destruct (Nat.eqb_spec (length bsp) (length sl)); [contradiction|].
    destruct bsp as [|b [|c r]]; [reflexivity|contradiction N2; reflexivity|reflexivity].
  - intros e. rewrite (influenced_direction _ _ _ _ _ _ _ _ E). reflexivity.
Qed.
Print Assumptions convex_influence_refused.

(** A diagram with four points: with the influence model that gives one speed the optimal direction towards 100 degrees is
    the course 90; without, that point is not a corner of the hull. *)
Example convex_influence_meets :
  let sl := [(10, 0, 1); (10, 90, 1); (10, 120, 5); (10, 240, 5)] in
  let circle := [(10, 0, 3); (10, 90, 3); (10, 120, 3); (10, 240, 3)] in
  let pd := fun s => mkDiagram (fun _ => Ok ([s], None)) (fun _ _ => Ok 0) in
  with_speeds sl circle (fun _ => 3) /\ with_speeds sl circle (fun i => nth i [3; 3; 3; 3] 0) /\
  convex_direction (fun _ => Ok [0; 1; 2; 3]%nat) (pd sl) [10] 100 (Some (Ok [3])) = Ok [mkDir 90 1 None] /\
  convex_direction (fun _ => Ok [0; 2; 3]%nat) (pd sl) [10] 100 (Some (Ok [3; 3])) = Raise ValueError /\
  convex_direction (fun _ => Ok [0; 2; 3]%nat) (pd sl) [10] 100 None <> Ok [mkDir 90 1 None].
Proof.
  cbv zeta.
  set (sl := [(10, 0, 1); (10, 90, 1); (10, 120, 5); (10, 240, 5)]).
  assert (forall ws, pd_slices (mkDiagram (fun _ => Ok ([sl], None)) (fun _ _ => Ok 0)) ws = Ok (sl :: [], None)) as E by reflexivity.
  split; [|split; [|split; [|split]]].
  - split; [reflexivity|]. intros [|[|[|[|i]]]] s a b Q; cbn in Q; try (injection Q as <- <- <-; reflexivity). destruct i; discriminate.
  - split; [reflexivity|]. intros [|[|[|[|i]]]] s a b Q; cbn in Q; try (injection Q as <- <- <-; reflexivity). destruct i; discriminate.
  - rewrite (influenced_direction _ _ _ _ _ _ _ _ (E [10])). cbn [rbind]. unfold convex_dir.
    change (broadcast [3] _) with (Ok [3; 3; 3; 3]). cbn [rbind]. unfold find_edge.
    change (py_sorted Nat.leb [0; 1; 2; 3]%nat) with [0; 1; 2; 3]%nat. cbn [find_pair nth map pt_wa sl].
    rewrite (Rleb_true 0 100), (Rleb_false 100 90), (Rleb_true 90 100), (Rleb_true 100 120) by lra. reflexivity.
  - apply (proj1 (convex_influence_refused _ _ _ _ _ _ _ (E [10]))); cbn; lia.
  - rewrite (plain_direction _ _ _ _ _ _ _ (E [10])). unfold convex_dir.
    change (broadcast _ _) with (Ok [1; 1; 5; 5]). cbn [rbind]. unfold find_edge.
    change (py_sorted Nat.leb [0; 2; 3]%nat) with [0; 2; 3]%nat. cbn [find_pair nth map pt_wa sl].
    rewrite (Rleb_true 0 100), (Rleb_true 100 120) by lra. cbn [andb rbind edge_sails fst snd sails_eqb Nat.sub Nat.add Nat.eqb].
    match goal with |- (do l <- ?x; _) <> _ => destruct x as [l|e]; cbn [rbind]; [|discriminate] end.
    match goal with |- (do m <- ?x; _) <> _ => destruct x as [m|e]; cbn [rbind]; discriminate end.
Qed.
