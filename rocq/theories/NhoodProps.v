(** * Properties C41, C42: neighbourhoods *)

From Coq Require Import List Bool Arith ZArith QArith Reals Lra Lia.
From Verif Require Import Py Num PySort WindModel NhoodModel NhoodSpec NhoodProofs.
Import ListNotations.
Open Scope R_scope.

(** C41.  A ball marks exactly the points of norm at most the radius, whether
    the norm works on arrays or only (raising ValueError or IndexError on
    arrays) on single points. *)
Theorem ball_marks : forall A (norm : A -> R) norm_all norm_one radius pts,
  (norm_all pts = Ok (map norm pts) \/
   ((norm_all pts = Raise ValueError \/ norm_all pts = Raise IndexError) /\
    forall p, In p pts -> norm_one p = Ok (norm p))) ->
  exists m, ball_contains norm_all norm_one radius pts = Ok m /\
            marks m pts (fun p => norm p <= radius).
Proof. exact ball_ok. Qed.
Print Assumptions ball_marks.

(** The default norm meets the hypothesis for points with two coordinates. *)
Example ball_default_norm : forall pts,
  scaled_euclidean_norm 2 pts = Ok (map (scaled_norm euclidean_norm [1 / 40; 1 / 360]) pts).
Proof. reflexivity. Qed.

(** C41.  Every other exception of the norm is passed on. *)
Theorem ball_norm_raises : forall A (norm_all : list A -> result (list R)) norm_one radius pts e,
  norm_all pts = Raise e -> e <> ValueError -> e <> IndexError ->
  ball_contains norm_all norm_one radius pts = Raise e.
Proof.
  intros A norm_all norm_one radius pts e H H1 H2. unfold ball_contains. rewrite H.
  destruct e; congruence.
Qed.
Print Assumptions ball_norm_raises.

(** C41.  The radius of a ball must be positive. *)
Theorem ball_radius : forall radius : R,
  (0 < radius -> ball_new radius = Ok radius) /\ (radius <= 0 -> ball_new radius = Raise ValueError).
Proof.
  intros. unfold ball_new. rnum. split; intros.
  - rewrite Rleb_false by lra. reflexivity.
  - rewrite Rleb_true by lra. reflexivity.
Qed.
Print Assumptions ball_radius.

(** C41.  An ellipsoid marks exactly the images under its matrix of the points
    of norm at most the radius. *)
Theorem ellipsoid_marks : forall norm norm_all m radius pts,
  rowwise norm norm_all -> pts <> [] -> determinant m <> 0 -> 0 < radius ->
  exists e k, ellipsoid_new (Some m) radius = Ok e /\ ellipsoid_contains norm_all e pts = Ok k /\
    marks k pts (fun p => exists y, times m y = p /\ norm y <= radius).
Proof.
  intros norm norm_all m radius pts H1 H2 H3 H4.
  destruct (ellipsoid_ok norm norm_all m radius pts H1 H2 H3) as [k [E M]].
  exists (inv2 m, radius), k. split; [|auto]. apply ellipsoid_new_ok. auto.
Qed.
Print Assumptions ellipsoid_marks.

(** C41.  Singular matrices and non-positive radii are rejected. *)
Theorem ellipsoid_rejects : forall m radius,
  determinant m = 0 \/ radius <= 0 -> ellipsoid_new (Some m) radius = Raise ValueError.
Proof. intros m radius. apply ellipsoid_new_ok. Qed.
Print Assumptions ellipsoid_rejects.

(** C41.  Without a matrix the ellipsoid is the ball. *)
Theorem ellipsoid_default : forall radius,
  ellipsoid_new None radius = ellipsoid_new (Some ((1, 0), (0, 1))) radius.
Proof. reflexivity. Qed.
Print Assumptions ellipsoid_default.

Example ellipsoid_example : determinant ((2, 1), (0, 3)) <> 0.
Proof. unfold determinant; simpl; lra. Qed.

(** C41.  A cuboid marks exactly the points with both coordinates bounded. *)
Theorem cuboid_marks : forall norm size pts,
  marks (cuboid_contains norm size pts) pts
    (fun p => norm (fst p) <= fst size /\ norm (snd p) <= snd size).
Proof. exact cuboid_ok. Qed.
Print Assumptions cuboid_marks.

(** C41.  A polytope marks exactly the points that satisfy all inequalities. *)
Theorem polytope_marks : forall mat b pts, pts <> [] ->
  (forall row, In row mat -> length row = 2%nat) -> length b = length mat ->
  marks (polytope_contains mat b pts) pts
    (fun p => forall i row bound, nth_error mat i = Some row -> nth_error b i = Some bound ->
       nth 0 row 0 * fst p + nth 1 row 0 * snd p <= bound).
Proof. exact polytope_ok. Qed.
Print Assumptions polytope_marks.

(** C41.  Shapes that do not fit are rejected, others accepted. *)
Theorem polytope_shapes : forall n (mat : list (list R)) b,
  (n = 2%nat /\ length b = length mat -> polytope_new n mat b = Ok (mat, b)) /\
  (n <> 2%nat \/ length b <> length mat -> polytope_new n mat b = Raise ValueError).
Proof.
  intros n mat b. unfold polytope_new.
  destruct (Nat.eqb_spec n 2), (Nat.eqb_spec (length b) (length mat)); simpl; split; intros H; auto;
    destruct H; try contradiction; auto.
Qed.
Print Assumptions polytope_shapes.

Example polytope_example :
  polytope_contains [[1; 0]; [0; 1]; [-1; 0]; [0; -1]]%Q [1; 1; 1; 1]%Q
    [(1 # 2, 1); (2, 0); (0, - (3 # 2))]%Q = MList [true; false; false].
Proof. vm_compute. reflexivity. Qed.

(** C42.  Given at least [k] points, a scaling ball marks exactly the points
    not farther away than the [k]-th nearest one, hence at least [k] points. *)
Theorem scaling_ball_marks : forall A (norm : A -> R) norm_all k (pts : list A),
  rowwise norm norm_all -> (0 < k <= length pts)%nat ->
  exists m r, scaling_ball_contains norm_all (Z.of_nat k) pts = Ok m /\
    kth_smallest (map norm pts) k r /\ marks m pts (fun p => norm p <= r) /\
    (k <= count (fun p => Rleb (norm p) r) pts)%nat.
Proof. exact scaling_ball_ok. Qed.
Print Assumptions scaling_ball_marks.

(** C42.  With fewer points (but some) IndexError is raised. *)
Theorem scaling_ball_too_few : forall A (norm : A -> R) norm_all k (pts : list A),
  rowwise norm norm_all -> pts <> [] -> (length pts < k)%nat ->
  scaling_ball_contains norm_all (Z.of_nat k) pts = Raise IndexError.
Proof. exact scaling_ball_few. Qed.
Print Assumptions scaling_ball_too_few.

(** C42.  [min_pts] must be positive. *)
Theorem scaling_ball_min_pts : forall k : Z,
  ((0 < k)%Z -> scaling_ball_new k = Ok k) /\ ((k <= 0)%Z -> scaling_ball_new k = Raise ValueError).
Proof.
  intros. unfold scaling_ball_new. destruct (Z.leb_spec k 0); split; intros; auto; lia.
Qed.
Print Assumptions scaling_ball_min_pts.

(** C42 refuted at the empty list: no error is reported although there are
    fewer than [min_pts] points. *)
Theorem scaling_ball_empty_refuted : forall A (norm_all : list A -> result (list R)) k,
  scaling_ball_contains norm_all k [] = Ok MTrue.
Proof. reflexivity. Qed.
Print Assumptions scaling_ball_empty_refuted.

Example scaling_ball_example :
  scaling_ball_contains (fun l : list Q => Ok l) 2 [3; 1; 2; 2; 5]%Q =
  Ok (MList [false; true; true; true; false]).
Proof. vm_compute. reflexivity. Qed.
