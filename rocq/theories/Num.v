(** * Number types

    Model functions are written once for any type with the operations of
    [Num].  Theorems use the instance [RNum] (exact reals), tests run the same
    functions on [QNum].  Floating point rounding is not modelled. *)

From Coq Require Import List Bool ZArith QArith Reals Qround Lra Lia.
From Verif Require Import Py.
Import ListNotations.

Class Num (T : Type) := {
  nofZ : Z -> T;
  nadd : T -> T -> T;
  nsub : T -> T -> T;
  nmul : T -> T -> T;
  ndiv : T -> T -> T;
  nopp : T -> T;
  nleb : T -> T -> bool;
  nltb : T -> T -> bool;
  neqb : T -> T -> bool;
  nfloor : T -> Z
}.

Declare Scope num_scope.
Delimit Scope num_scope with num.
Infix "+" := nadd : num_scope.
Infix "-" := nsub : num_scope.
Infix "*" := nmul : num_scope.
Infix "/" := ndiv : num_scope.
Notation "- x" := (nopp x) : num_scope.
Infix "<=?" := nleb : num_scope.
Infix "<?" := nltb : num_scope.
Infix "=?" := neqb : num_scope.

(** Comparison of reals as booleans (decided with the axioms of Coq.Reals). *)
Definition Rleb (x y : R) : bool := if Rle_dec x y then true else false.
Definition Rltb (x y : R) : bool := if Rlt_dec x y then true else false.
Definition Reqb (x y : R) : bool := if Req_EM_T x y then true else false.

#[export] Instance RNum : Num R := {|
  nofZ := IZR; nadd := Rplus; nsub := Rminus; nmul := Rmult; ndiv := Rdiv;
  nopp := Ropp; nleb := Rleb; nltb := Rltb; neqb := Reqb; nfloor := Int_part
|}.

#[export] Instance QNum : Num Q | 10 := {|
  nofZ := inject_Z; nadd := Qplus; nsub := Qminus; nmul := Qmult;
  ndiv := Qdiv; nopp := Qopp; nleb := Qle_bool;
  nltb := fun x y => negb (Qle_bool y x); neqb := Qeq_bool; nfloor := Qfloor
|}.

(** Python's [x % m] for numbers: [x - m * floor(x / m)] (exact arithmetic). *)
Definition nmod {T} `{Num T} (x m : T) : T :=
  nsub x (nmul m (nofZ (nfloor (ndiv x m)))).

(** [abs(x)]. *)
Definition nabs {T} `{Num T} (x : T) : T :=
  if nltb x (nofZ 0) then nopp x else x.

(** Python's [min]/[max] of two numbers. *)
Definition nmin {T} `{Num T} (x y : T) : T := if nltb y x then y else x.
Definition nmax {T} `{Num T} (x y : T) : T := if nltb x y then y else x.

(** [sum(l)] (also [np.sum]). *)
Definition nsum {T} `{Num T} (l : list T) : T :=
  fold_left nadd l (nofZ 0).

(** [max(l)]/[min(l)]: ValueError on the empty sequence. *)
Definition nmaximum {T} `{Num T} (l : list T) : result T :=
  match l with [] => Raise ValueError | x :: r => Ok (fold_left nmax r x) end.
Definition nminimum {T} `{Num T} (l : list T) : result T :=
  match l with [] => Raise ValueError | x :: r => Ok (fold_left nmin r x) end.

(** numpy division of numbers: by zero gives nan or inf. *)
Definition np_div {T} `{Num T} (x y : T) : result T :=
  if neqb y (nofZ 0) then Raise NonFinite else Ok (ndiv x y).

(** Python float division: by zero raises ZeroDivisionError. *)
Definition py_div {T} `{Num T} (x y : T) : result T :=
  if neqb y (nofZ 0) then Raise ZeroDivisionError else Ok (ndiv x y).

(** [x in l] for numbers. *)
Definition nmem {T} `{Num T} (x : T) (l : list T) : bool :=
  existsb (fun y => neqb y x) l.

Arguments Rleb : simpl never.
Arguments Rltb : simpl never.
Arguments Reqb : simpl never.

(* ------------------------------------------------------------------ *)
(** ** Reflection for the reals *)

Lemma Rleb_spec : forall x y, reflect (x <= y)%R (Rleb x y).
Proof. intros; unfold Rleb; destruct (Rle_dec x y); constructor; auto. Qed.
Lemma Rltb_spec : forall x y, reflect (x < y)%R (Rltb x y).
Proof. intros; unfold Rltb; destruct (Rlt_dec x y); constructor; auto. Qed.
Lemma Reqb_spec : forall x y, reflect (x = y)%R (Reqb x y).
Proof. intros; unfold Reqb; destruct (Req_EM_T x y); constructor; auto. Qed.

Lemma Rleb_true : forall x y, (x <= y)%R -> Rleb x y = true.
Proof. intros; destruct (Rleb_spec x y); auto; contradiction. Qed.
Lemma Rleb_false : forall x y, (y < x)%R -> Rleb x y = false.
Proof. intros; destruct (Rleb_spec x y); auto; lra. Qed.
Lemma Rltb_true : forall x y, (x < y)%R -> Rltb x y = true.
Proof. intros; destruct (Rltb_spec x y); auto; contradiction. Qed.
Lemma Rltb_false : forall x y, (y <= x)%R -> Rltb x y = false.
Proof. intros; destruct (Rltb_spec x y); auto; lra. Qed.
Lemma Reqb_true : forall x y, (x = y)%R -> Reqb x y = true.
Proof. intros; destruct (Reqb_spec x y); auto; contradiction. Qed.
Lemma Reqb_false : forall x y, (x <> y)%R -> Reqb x y = false.
Proof. intros; destruct (Reqb_spec x y); auto; contradiction. Qed.
Lemma Reqb_refl : forall x, Reqb x x = true.
Proof. intros; apply Reqb_true; reflexivity. Qed.
Lemma Reqb_eq : forall x y, Reqb x y = true <-> x = y.
Proof. intros; destruct (Reqb_spec x y); split; auto; discriminate. Qed.
Lemma Rleb_le : forall x y, Rleb x y = true <-> (x <= y)%R.
Proof. intros; destruct (Rleb_spec x y); split; auto; discriminate. Qed.
Lemma Rltb_lt : forall x y, Rltb x y = true <-> (x < y)%R.
Proof. intros; destruct (Rltb_spec x y); split; auto; discriminate. Qed.

(** Replace the operations of [RNum] by the real operations. *)
Ltac rnum := cbn [nofZ nadd nsub nmul ndiv nopp nleb nltb neqb nfloor RNum] in *.

(** Case analysis on a boolean comparison in goal or context. *)
Ltac rcase1 :=
  match goal with
  | |- context [Rleb ?a ?b] => destruct (Rleb_spec a b)
  | |- context [Rltb ?a ?b] => destruct (Rltb_spec a b)
  | |- context [Reqb ?a ?b] => destruct (Reqb_spec a b)
  | H : context [Rleb ?a ?b] |- _ => destruct (Rleb_spec a b)
  | H : context [Rltb ?a ?b] |- _ => destruct (Rltb_spec a b)
  | H : context [Reqb ?a ?b] |- _ => destruct (Reqb_spec a b)
  end.

(** Evaluate comparisons of concrete reals. *)
Ltac reval1 :=
  match goal with
  | |- context [Rleb ?a ?b] =>
      first [rewrite (Rleb_true a b) by lra | rewrite (Rleb_false a b) by lra]
  | |- context [Rltb ?a ?b] =>
      first [rewrite (Rltb_true a b) by lra | rewrite (Rltb_false a b) by lra]
  | |- context [Reqb ?a ?b] =>
      first [rewrite (Reqb_true a b) by lra | rewrite (Reqb_false a b) by lra]
  end.

(* ------------------------------------------------------------------ *)
(** ** Floor and remainder of reals *)

Lemma Int_part_spec : forall x z, (IZR z <= x < IZR z + 1)%R -> Int_part x = z.
Proof.
  intros x z [H1 H2].
  destruct (base_Int_part x) as [H3 H4].
  assert (IZR (Int_part x) < IZR z + 1)%R as A by lra.
  assert (IZR z < IZR (Int_part x) + 1)%R as B by lra.
  rewrite <- plus_IZR in A, B. apply lt_IZR in A. apply lt_IZR in B. lia.
Qed.

Lemma Int_part_bounds : forall x, (IZR (Int_part x) <= x < IZR (Int_part x) + 1)%R.
Proof. intros x. destruct (base_Int_part x). lra. Qed.

Lemma Int_part_IZR : forall z, Int_part (IZR z) = z.
Proof. intros. apply Int_part_spec. lra. Qed.

Lemma nmod_R : forall x m : R, nmod x m = (x - m * IZR (Int_part (x / m)))%R.
Proof. reflexivity. Qed.

Lemma nmod_range : forall x m : R, (0 < m)%R -> (0 <= nmod x m < m)%R.
Proof.
  intros x m Hm. rewrite nmod_R.
  destruct (Int_part_bounds (x / m)) as [H1 H2].
  set (k := IZR (Int_part (x / m))) in *.
  assert (x = m * (x / m))%R as E by (field; lra).
  split.
  - apply Rmult_le_compat_l with (r := m) in H1; lra.
  - apply Rmult_lt_compat_l with (r := m) in H2; lra.
Qed.

Lemma nmod_unique : forall x m r k,
  (0 < m)%R -> (x = m * IZR k + r)%R -> (0 <= r < m)%R -> nmod x m = r.
Proof.
  intros x m r k Hm E Hr. rewrite nmod_R.
  assert (Int_part (x / m) = k) as ->.
  { apply Int_part_spec. subst x.
    replace ((m * IZR k + r) / m)%R with (IZR k + r / m)%R by (field; lra).
    assert (0 <= r / m)%R.
    { unfold Rdiv. apply Rmult_le_pos; [lra|].
      left. apply Rinv_0_lt_compat; lra. }
    assert (r / m < 1)%R.
    { apply Rmult_lt_reg_r with m; [lra|].
      unfold Rdiv. rewrite Rmult_assoc, Rinv_l by lra. lra. }
    lra. }
  lra.
Qed.

Lemma nmod_small : forall x m : R, (0 <= x < m)%R -> nmod x m = x.
Proof.
  intros x m H. apply nmod_unique with (k := 0%Z); try lra.
Qed.

Lemma nmod_period : forall x m k,
  (0 < m)%R -> nmod (x + m * IZR k)%R m = nmod x m.
Proof.
  intros x m k Hm.
  apply nmod_unique with (k := (Int_part (x / m) + k)%Z); auto.
  - rewrite plus_IZR, nmod_R. lra.
  - apply nmod_range; auto.
Qed.

Lemma nmod_cong : forall x m : R, exists k, (x = nmod x m + m * IZR k)%R.
Proof. intros x m. exists (Int_part (x / m)). rewrite nmod_R. lra. Qed.

Lemma nmod_idem : forall x m : R, (0 < m)%R -> nmod (nmod x m) m = nmod x m.
Proof. intros. apply nmod_small. apply nmod_range; auto. Qed.

Lemma nmod_eq_iff : forall x y m, (0 < m)%R ->
  (nmod x m = nmod y m <-> exists k, (x = y + m * IZR k)%R).
Proof.
  intros x y m Hm. split.
  - intros H. destruct (nmod_cong x m) as [k1 E1]. destruct (nmod_cong y m) as [k2 E2].
    exists (k1 - k2)%Z. rewrite minus_IZR. lra.
  - intros [k ->]. apply nmod_period; auto.
Qed.

(* ------------------------------------------------------------------ *)
(** ** Other operations over R *)

Lemma nabs_R : forall x : R, nabs x = Rabs x.
Proof.
  intros. unfold nabs. rnum. destruct (Rltb_spec x 0).
  - rewrite Rabs_left; auto.
  - rewrite Rabs_right; auto; lra.
Qed.

Lemma nmin_R : forall x y : R, nmin x y = Rmin x y.
Proof.
  intros. unfold nmin, Rmin. rnum. destruct (Rltb_spec y x), (Rle_dec x y); lra.
Qed.

Lemma nmax_R : forall x y : R, nmax x y = Rmax x y.
Proof.
  intros. unfold nmax, Rmax. rnum. destruct (Rltb_spec x y), (Rle_dec x y); lra.
Qed.

(** Plain recursive sum, used in specifications. *)
Fixpoint Rsum (l : list R) : R :=
  match l with [] => 0 | x :: r => x + Rsum r end%R.

Lemma fold_left_Rplus : forall (l : list R) a,
  fold_left Rplus l a = (a + Rsum l)%R.
Proof. induction l; simpl; intros; [lra|]. rewrite IHl; lra. Qed.

Lemma nsum_R : forall l : list R, nsum l = Rsum l.
Proof. intros. unfold nsum. rnum. rewrite fold_left_Rplus. lra. Qed.

Lemma Rsum_app : forall l1 l2, Rsum (l1 ++ l2) = (Rsum l1 + Rsum l2)%R.
Proof. induction l1; simpl; intros; [lra|]. rewrite IHl1; lra. Qed.

Lemma nmem_R : forall (x : R) l, nmem x l = true <-> In x l.
Proof.
  intros. unfold nmem. rnum. rewrite existsb_exists. split.
  - intros [y [H1 H2]]. apply Reqb_eq in H2. subst; auto.
  - intros H. exists x. split; auto. apply Reqb_refl.
Qed.

Lemma fold_left_nmax_spec : forall (l : list R) a,
  (In (fold_left nmax l a) (a :: l)) /\
  (forall x, In x (a :: l) -> x <= fold_left nmax l a)%R.
Proof.
  induction l as [|b l IH]; intros a; simpl.
  - split; [auto|]. intros x [->|[]]; lra.
  - destruct (IH (nmax a b)) as [H1 H2]. rewrite nmax_R in *. split.
    + destruct H1 as [H1|H1].
      * rewrite <- H1. unfold Rmax. destruct (Rle_dec a b); auto.
      * auto.
    + intros x Hx. pose proof (H2 _ (or_introl eq_refl)) as H3.
      pose proof (Rmax_l a b). pose proof (Rmax_r a b).
      destruct Hx as [<-|[<-|Hx]]; try lra. apply H2; right; auto.
Qed.

Lemma fold_left_nmin_spec : forall (l : list R) a,
  (In (fold_left nmin l a) (a :: l)) /\
  (forall x, In x (a :: l) -> fold_left nmin l a <= x)%R.
Proof.
  induction l as [|b l IH]; intros a; simpl.
  - split; [auto|]. intros x [->|[]]; lra.
  - destruct (IH (nmin a b)) as [H1 H2]. rewrite nmin_R in *. split.
    + destruct H1 as [H1|H1].
      * rewrite <- H1. unfold Rmin. destruct (Rle_dec a b); auto.
      * auto.
    + intros x Hx. pose proof (H2 _ (or_introl eq_refl)) as H3.
      pose proof (Rmin_l a b). pose proof (Rmin_r a b).
      destruct Hx as [<-|[<-|Hx]]; try lra. apply H2; right; auto.
Qed.

Lemma nmaximum_spec : forall (l : list R) m,
  nmaximum l = Ok m <-> (In m l /\ forall x, In x l -> x <= m)%R.
Proof.
  intros [|a l] m; simpl.
  - split; [discriminate|]. intros [[] _].
  - destruct (fold_left_nmax_spec l a) as [H1 H2]. split.
    + intros H. inversion H; subst. split; auto.
    + intros [H3 H4]. f_equal. apply Rle_antisym; auto.
Qed.

Lemma nminimum_spec : forall (l : list R) m,
  nminimum l = Ok m <-> (In m l /\ forall x, In x l -> m <= x)%R.
Proof.
  intros [|a l] m; simpl.
  - split; [discriminate|]. intros [[] _].
  - destruct (fold_left_nmin_spec l a) as [H1 H2]. split.
    + intros H. inversion H; subst. split; auto.
    + intros [H3 H4]. f_equal. apply Rle_antisym; auto.
Qed.

Lemma nmaximum_nonempty : forall (l : list R), l <> [] -> exists m, nmaximum l = Ok m.
Proof. intros [|a l] H; [contradiction|]. simpl. eauto. Qed.
Lemma nminimum_nonempty : forall (l : list R), l <> [] -> exists m, nminimum l = Ok m.
Proof. intros [|a l] H; [contradiction|]. simpl. eauto. Qed.

Global Arguments nmod : simpl never.
Global Arguments nabs : simpl never.
