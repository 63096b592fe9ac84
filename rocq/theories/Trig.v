(** * Angles: degrees, polar coordinates, four-quadrant arctangent

    Mathematics only, no model of source lines except [deg2rad], [rad2deg]
    and [atan2] (numpy's [np.deg2rad], [np.rad2deg], [np.arctan2]). *)

From Coq Require Import List ZArith Reals Lra Lia Psatz.
From Verif Require Import Py Num.
Open Scope R_scope.

Definition deg2rad (x : R) : R := x * (PI / 180).
Definition rad2deg (x : R) : R := x * (180 / PI).

Lemma rad2deg_deg2rad : forall x, rad2deg (deg2rad x) = x.
Proof. intros. unfold rad2deg, deg2rad. field. apply PI_neq0. Qed.
Lemma deg2rad_rad2deg : forall x, deg2rad (rad2deg x) = x.
Proof. intros. unfold rad2deg, deg2rad. field. apply PI_neq0. Qed.

Lemma deg2rad_360 : forall x, deg2rad (360 - x) = 2 * PI - deg2rad x.
Proof. intros. unfold deg2rad. field. Qed.

Lemma deg2rad_lt : forall x y, x < y -> deg2rad x < deg2rad y.
Proof.
  intros. unfold deg2rad. apply Rmult_lt_compat_r; auto.
  pose proof PI_RGT_0. lra.
Qed.
Lemma deg2rad_le : forall x y, x <= y -> deg2rad x <= deg2rad y.
Proof.
  intros. unfold deg2rad. apply Rmult_le_compat_r; auto.
  pose proof PI_RGT_0. lra.
Qed.
Lemma rad2deg_le : forall x y, x <= y -> rad2deg x <= rad2deg y.
Proof.
  intros. unfold rad2deg. apply Rmult_le_compat_r; auto.
  pose proof PI_RGT_0. left. apply Rdiv_lt_0_compat; lra.
Qed.
Lemma rad2deg_lt : forall x y, x < y -> rad2deg x < rad2deg y.
Proof.
  intros. unfold rad2deg. apply Rmult_lt_compat_r; auto.
  pose proof PI_RGT_0. apply Rdiv_lt_0_compat; lra.
Qed.

Lemma rad2deg_0 : rad2deg 0 = 0.
Proof. unfold rad2deg. lra. Qed.
Lemma deg2rad_0 : deg2rad 0 = 0.
Proof. unfold deg2rad. lra. Qed.
Lemma rad2deg_PI : rad2deg PI = 180.
Proof. unfold rad2deg. field. apply PI_neq0. Qed.
Lemma deg2rad_180 : deg2rad 180 = PI.
Proof. unfold deg2rad. field. Qed.
Lemma deg2rad_90 : deg2rad 90 = PI / 2.
Proof. unfold deg2rad. field. Qed.

Lemma cos_period_Z : forall x k, cos (x + 2 * IZR k * PI) = cos x.
Proof.
  intros x k. destruct (Z_le_gt_dec 0 k) as [H|H].
  - rewrite <- (Z2Nat.id k H), <- INR_IZR_INZ. apply cos_period.
  - set (y := x + 2 * IZR k * PI).
    replace x with (y + 2 * INR (Z.to_nat (- k)) * PI).
    + symmetry. apply cos_period.
    + rewrite INR_IZR_INZ, Z2Nat.id by lia. rewrite opp_IZR. unfold y. ring.
Qed.

Lemma sin_period_Z : forall x k, sin (x + 2 * IZR k * PI) = sin x.
Proof.
  intros x k. destruct (Z_le_gt_dec 0 k) as [H|H].
  - rewrite <- (Z2Nat.id k H), <- INR_IZR_INZ. apply sin_period.
  - set (y := x + 2 * IZR k * PI).
    replace x with (y + 2 * INR (Z.to_nat (- k)) * PI).
    + symmetry. apply sin_period.
    + rewrite INR_IZR_INZ, Z2Nat.id by lia. rewrite opp_IZR. unfold y. ring.
Qed.

Lemma cos_deg_mod : forall x, cos (deg2rad (nmod x 360)) = cos (deg2rad x).
Proof.
  intros x. destruct (nmod_cong x 360) as [k E].
  rewrite E at 2.
  replace (deg2rad (nmod x 360 + 360 * IZR k)) with (deg2rad (nmod x 360) + 2 * IZR k * PI).
  - symmetry. apply cos_period_Z.
  - unfold deg2rad. field.
Qed.

Lemma sin_deg_mod : forall x, sin (deg2rad (nmod x 360)) = sin (deg2rad x).
Proof.
  intros x. destruct (nmod_cong x 360) as [k E].
  rewrite E at 2.
  replace (deg2rad (nmod x 360 + 360 * IZR k)) with (deg2rad (nmod x 360) + 2 * IZR k * PI).
  - symmetry. apply sin_period_Z.
  - unfold deg2rad. field.
Qed.

(** An angle in [0,2pi) is determined by its cosine and sine. *)
Lemma angle_unique : forall a b, 0 <= a < 2 * PI -> 0 <= b < 2 * PI ->
  cos a = cos b -> sin a = sin b -> a = b.
Proof.
  intros a b Ha Hb Hc Hs.
  assert (cos (a - b) = 1) as C.
  { rewrite cos_minus, Hc, Hs. pose proof (sin2_cos2 b) as S. unfold Rsqr in S. lra. }
  assert (sin (a - b) = 0) as S.
  { rewrite sin_minus, Hc, Hs. ring. }
  destruct (Rtotal_order a b) as [L|[E|G]]; auto.
  - exfalso. assert (0 < (b - a) / 2 < PI) as I by lra.
    pose proof (sin_gt_0 _ (proj1 I) (proj2 I)) as P.
    replace (a - b) with (- (2 * ((b - a) / 2))) in C by lra.
    rewrite cos_neg, cos_2a_sin in C. nra.
  - exfalso. assert (0 < (a - b) / 2 < PI) as I by lra.
    pose proof (sin_gt_0 _ (proj1 I) (proj2 I)) as P.
    replace (a - b) with (2 * ((a - b) / 2)) in C by lra.
    rewrite cos_2a_sin in C. nra.
Qed.

Lemma angle_unique_deg : forall a b, 0 <= a < 360 -> 0 <= b < 360 ->
  cos (deg2rad a) = cos (deg2rad b) -> sin (deg2rad a) = sin (deg2rad b) -> a = b.
Proof.
  intros a b Ha Hb Hc Hs.
  rewrite <- (rad2deg_deg2rad a), <- (rad2deg_deg2rad b). f_equal.
  assert (deg2rad 360 = 2 * PI) as E by (unfold deg2rad; field).
  apply angle_unique; auto.
  - split.
    + rewrite <- deg2rad_0. apply deg2rad_le; lra.
    + rewrite <- E. apply deg2rad_lt; lra.
  - split.
    + rewrite <- deg2rad_0. apply deg2rad_le; lra.
    + rewrite <- E. apply deg2rad_lt; lra.
Qed.

Lemma sqrt_cancel : forall x y, 0 <= x -> x * x = y -> sqrt y = x.
Proof. intros x y H E. subst. apply sqrt_square; auto. Qed.
