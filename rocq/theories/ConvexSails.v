(** * Sails of the optimal directions (C166)

    [convex_direction] with the information about sails of a diagram with several sails (cruising/basics.py 98-149), modelled
    in CruiseModel.v. *)

From Coq Require Import String List Bool Arith ZArith Reals Lra Lia Permutation.
From Verif Require Import Py Num PySort ListX WPointsModel InterpModel CruiseModel ConvexProps.
Import ListNotations.
Open Scope string_scope.
Open Scope list_scope.
Open Scope R_scope.

(** ** Specification *)

(** [d] is the course of row [i] of the slice with the sail of that row. *)
Definition course_of_row (sl : list (pt3 R)) (info : option (list (list string))) (i : nat) (d : direction) : Prop :=
  (exists s a b, nth_error sl i = Some (s, a, b) /\ d_angle d = a) /\
  match info with
  | Some (sails :: _) => exists x, nth_error sails i = Some x /\ d_sail d = Some x
  | _ => d_sail d = None
  end.

(** ** Proofs *)

Lemma edge_of_hull : forall wa dir vs i1 i2, find_edge wa dir vs = Ok (i1, i2) -> In i1 vs /\ In i2 vs.
Proof.
  intros wa dir vs i1 i2 H. unfold find_edge in H.
  assert (forall x, In x (py_sorted Nat.leb vs) -> In x vs) as P.
  { intros x X. eapply Permutation_in; [|exact X]. apply py_sorted_perm. }
  destruct (find_pair wa dir (py_sorted Nat.leb vs)) as [[a b]|] eqn:E.
  - injection H as <- <-. destruct (find_pair_some _ _ _ _ _ E) as [[pre [post V]] _].
    split; apply P; rewrite V; apply in_or_app; cbn; auto.
  - destruct (py_nth (py_sorted Nat.leb vs) 0) as [a|] eqn:A; [|discriminate]. cbn [rbind] in H.
    destruct (py_last (py_sorted Nat.leb vs)) as [b|] eqn:B; [|discriminate]. cbn [rbind] in H.
    destruct (Rltb _ _); [discriminate|]. injection H as <- <-. split; apply P.
    + destruct (py_sorted Nat.leb vs); [discriminate|]. injection A as <-. left. reflexivity.
    + clear - B. unfold py_last in B. destruct (rev (py_sorted Nat.leb vs)) as [|y l] eqn:R; [discriminate|].
      injection B as <-. apply in_rev. rewrite R. left. reflexivity.
Qed.

Lemma sails_of : forall info i1 i2 sl, edge_sails info i1 i2 = Ok sl ->
  match info with
  | Some (l :: _) => exists x y, nth_error l i1 = Some x /\ nth_error l i2 = Some y /\ sl = (Some x, Some y)
  | _ => sl = (None, None)
  end.
Proof.
  intros info i1 i2 sl H. unfold edge_sails in H. destruct info as [[|l r]|]; [congruence| |congruence].
  unfold py_nth in H. destruct (nth_error l i1) as [x|]; [|discriminate]. destruct (nth_error l i2) as [y|]; [|discriminate].
  cbn [rbind] in H. injection H as <-. eauto.
Qed.

(** ** Properties *)

(** C166.  Whatever the diagram, the influence and the hull (its vertices being rows of the slice): each direction is the course
    of a row of the first slice with the sail of this row, and the proportions sum to 1.  A single direction belongs to two
    neighbouring rows with the same sail, two directions to rows that are not neighbouring or have different sails. *)
Theorem convex_sails : forall hull pd ws dir im ds,
  (forall pts vs, hull pts = Ok vs -> Forall (fun v => (v < length pts)%nat) vs) ->
  convex_direction hull pd ws dir im = Ok ds ->
  exists slices info sl i j d, pd_slices pd ws = Ok (slices, info) /\ nth_error slices 0 = Some sl /\
    course_of_row sl info i d /\
    ((ds = [d] /\ d_prop d = 1 /\ (j = S i \/ i = S j) /\ exists d', course_of_row sl info j d' /\ d_sail d' = d_sail d) \/
     (exists d', ds = [d; d'] /\ course_of_row sl info j d' /\ d_prop d + d_prop d' = 1 /\
        ((j = S i \/ i = S j) -> d_sail d <> d_sail d'))).
Proof.
  intros hull pd ws dir im ds HH H. unfold convex_direction in H.
  destruct (pd_slices pd ws) as [[slices info]|] eqn:PS; [|discriminate]. cbn [rbind] in H.
  unfold py_nth at 1 in H. destruct (nth_error slices 0) as [sl|] eqn:SL; [|discriminate]. cbn [rbind] in H.
  destruct (match im with None => _ | Some r => r end) as [bsp|] eqn:BS; [|discriminate]. cbn [rbind] in H.
  unfold convex_dir in H. destruct (broadcast bsp _) as [b|] eqn:BR; [|discriminate]. cbn [rbind] in H.
  set (pts := map _ (combine (map pt_wa sl) b)) in *.
  destruct (hull pts) as [vs|] eqn:HV; [|discriminate]. cbn [rbind] in H.
  destruct (find_edge (map pt_wa sl) dir vs) as [[i1 i2]|] eqn:FE; [|discriminate]. cbn [rbind] in H.
  destruct (edge_sails info i1 i2) as [sa|] eqn:ES; [|discriminate]. cbn [rbind] in H.
  destruct (edge_of_hull _ _ _ _ _ FE) as [I1 I2]. specialize (HH pts vs HV). rewrite Forall_forall in HH.
  assert (length pts <= length sl)%nat as LP.
  { unfold pts. rewrite map_length, combine_length, map_length. lia. }
  pose proof (sails_of _ _ _ _ ES) as SA.
  assert (forall i, In i vs -> exists s a c, nth_error sl i = Some (s, a, c) /\ nth i (map pt_wa sl) 0 = a) as ROW.
  { intros i I. specialize (HH i I). destruct (nth_error sl i) as [[[s a] c]|] eqn:E; [|apply nth_error_None in E; lia].
    exists s, a, c. split; auto. apply nth_error_nth. rewrite nth_error_map, E. reflexivity. }
  assert (forall p, course_of_row sl info i1 (mkDir (nth i1 (map pt_wa sl) 0) p (fst sa))) as C1.
  { intros p. split.
    - destruct (ROW i1 I1) as [s [a [c [E F]]]]. exists s, a, c. auto.
    - cbn [d_sail]. destruct info as [[|l r]|]; [rewrite SA; reflexivity| |rewrite SA; reflexivity].
      destruct SA as [x [y [X [Y ->]]]]. exists x. auto. }
  assert (forall p, course_of_row sl info i2 (mkDir (nth i2 (map pt_wa sl) 0) p (snd sa))) as C2.
  { intros p. split.
    - destruct (ROW i2 I2) as [s [a [c [E F]]]]. exists s, a, c. auto.
    - cbn [d_sail]. destruct info as [[|l r]|]; [rewrite SA; reflexivity| |rewrite SA; reflexivity].
      destruct SA as [x [y [X [Y ->]]]]. exists y. auto. }
  assert (sails_eqb (fst sa) (snd sa) = true <-> fst sa = snd sa) as EQ.
  { destruct sa as [[x|] [y|]]; cbn [fst snd sails_eqb]; try (split; congruence).
    rewrite String.eqb_eq. split; congruence. }
  destruct (_ && _)%bool eqn:ONE in H.
  - injection H as <-. apply andb_true_iff in ONE. destruct ONE as [O1 O2]. apply Nat.eqb_eq in O1. apply EQ in O2.
    exists slices, info, sl, i1, i2. eexists. split; [auto|]. split; [auto|]. split; [apply (C1 1)|]. left.
    split; [reflexivity|]. split; [reflexivity|]. split; [lia|]. exists (mkDir (nth i2 (map pt_wa sl) 0) 1 (snd sa)).
    split; [apply C2|]. symmetry. exact O2.
  - destruct (first_proportion _ _ _) as [lam|]; [|discriminate]. cbn [rbind] in H.
    match type of H with rbind ?e _ = _ => destruct e as [lam'|] eqn:E; [|discriminate] end. cbn [rbind] in H. injection H as <-.
    exists slices, info, sl, i1, i2. eexists. split; [auto|]. split; [auto|]. split; [apply (C1 lam')|]. right.
    eexists. split; [reflexivity|]. split; [apply C2|]. split; [cbn [d_prop]; lra|]. cbn [d_sail]. intros N Q.
    apply EQ in Q. rewrite Q, andb_true_r in ONE. apply Nat.eqb_neq in ONE. lia.
Qed.
Print Assumptions convex_sails.

(** Two sails: the request 90 is served by the row before with its sail. *)
Definition four_rows (n : list (R * R)) : result (list nat) := if (length n =? 4)%nat then Ok [3; 1; 0; 2]%nat else Raise ValueError.
Definition two_sails : diagram :=
  mkDiagram (fun _ => Ok ([[(10, 0, 1); (10, 90, 1); (10, 180, 1); (10, 270, 1)]], Some [["jib"; "jib"; "spi"; "spi"]])) (fun _ _ => Ok 0).
Example convex_sails_meets :
  (forall pts vs, four_rows pts = Ok vs -> Forall (fun v => (v < length pts)%nat) vs) /\
  convex_direction four_rows two_sails [10] 90 None = Ok [mkDir 0 1 (Some "jib")].
Proof.
  split.
  - intros pts vs H. unfold four_rows in H. destruct (Nat.eqb_spec (length pts) 4) as [E|]; [|discriminate]. injection H as <-.
    rewrite E. repeat constructor.
  - unfold convex_direction, two_sails. cbn [pd_slices rbind py_nth nth_error map pt_wa pt_bsp].
    unfold convex_dir. cbn [broadcast length Nat.eqb rbind combine map fst snd]. unfold four_rows. cbn [length Nat.eqb rbind].
    unfold find_edge. change (py_sorted Nat.leb [3; 1; 0; 2]%nat) with [0; 1; 2; 3]%nat. cbn [find_pair nth].
    rewrite !Rleb_true by lra. cbn [andb rbind edge_sails py_nth nth_error fst snd]. reflexivity.
Qed.
