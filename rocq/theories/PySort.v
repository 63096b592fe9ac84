(** * Python's stable [sorted]

    Not a model of particular source lines: the library function [sorted(l,
    key=key)] with the comparison of keys given as [le], as stable insertion
    sort. *)

From Coq Require Import List Bool Arith Lia Permutation Sorted.
Import ListNotations.

Section Sort.
  Context {A : Type}.
  Variable le : A -> A -> bool.

  Fixpoint insert (x : A) (l : list A) : list A :=
    match l with
    | [] => [x]
    | y :: r => if le x y then x :: l else y :: insert x r
    end.

  Fixpoint py_sorted (l : list A) : list A :=
    match l with [] => [] | x :: r => insert x (py_sorted r) end.

  Lemma insert_perm : forall x l, Permutation (insert x l) (x :: l).
  Proof.
    induction l as [|y r IH]; simpl; [reflexivity|].
    destruct (le x y); [reflexivity|].
    rewrite IH. apply perm_swap.
  Qed.

  Lemma py_sorted_perm : forall l, Permutation (py_sorted l) l.
  Proof.
    induction l as [|x r IH]; simpl; [reflexivity|].
    rewrite insert_perm. apply perm_skip. exact IH.
  Qed.

  Lemma py_sorted_length : forall l, length (py_sorted l) = length l.
  Proof. intros. apply Permutation_length. apply py_sorted_perm. Qed.

  Lemma py_sorted_In : forall l x, In x (py_sorted l) <-> In x l.
  Proof.
    intros. split; apply Permutation_in; [|symmetry]; apply py_sorted_perm.
  Qed.

  Definition leP (x y : A) : Prop := le x y = true.

  Hypothesis le_total : forall x y, le x y = true \/ le y x = true.
  Hypothesis le_trans : forall x y z, le x y = true -> le y z = true -> le x z = true.

  Lemma insert_sorted : forall x l, StronglySorted leP l -> StronglySorted leP (insert x l).
  Proof.
    induction l as [|y r IH]; simpl; intros H.
    - constructor; constructor.
    - inversion H as [|? ? H1 H2]; subst.
      destruct (le x y) eqn:E.
      + constructor; auto. constructor; auto.
        eapply Forall_impl; [|exact H2]. intros z Hz. eapply le_trans; eauto.
      + constructor; auto.
        assert (leP y x) as Y by (destruct (le_total x y); unfold leP; congruence).
        rewrite Forall_forall in *. intros z Hz.
        apply (Permutation_in _ (insert_perm x r)) in Hz. destruct Hz as [<-|Hz]; auto.
  Qed.

  Lemma py_sorted_sorted : forall l, StronglySorted leP (py_sorted l).
  Proof.
    induction l; simpl; [constructor|]. apply insert_sorted; auto.
  Qed.

  Lemma insert_head : forall x l, Forall (leP x) l -> insert x l = x :: l.
  Proof.
    intros x [|y r] H; simpl; auto. inversion H as [|? ? H1]; subst.
    rewrite H1. reflexivity.
  Qed.

  Lemma py_sorted_id : forall l, StronglySorted leP l -> py_sorted l = l.
  Proof.
    induction l as [|x r IH]; simpl; intros H; auto.
    inversion H; subst. rewrite IH by auto. apply insert_head; auto.
  Qed.

  (** Stability: elements that are not separated by the order keep their order. *)
  Lemma insert_filter : forall p x l,
    (forall y, p y = true -> p x = true -> le x y = true) ->
    filter p (insert x l) = filter p (x :: l).
  Proof.
    intros p x l H. induction l as [|y r IH]; simpl; auto.
    destruct (le x y) eqn:E; simpl; auto.
    destruct (p y) eqn:Py; rewrite IH; simpl; auto.
    destruct (p x) eqn:Px; auto. rewrite H in E by auto. discriminate.
  Qed.

  Lemma py_sorted_stable : forall p l,
    (forall x y, p x = true -> p y = true -> le x y = true) ->
    filter p (py_sorted l) = filter p l.
  Proof.
    intros p l H. induction l as [|x r IH]; simpl; auto.
    rewrite insert_filter by auto. simpl. rewrite IH. reflexivity.
  Qed.
End Sort.

Lemma insert_map : forall A B (f : A -> B) le x l,
  insert le (f x) (map f l) = map f (insert (fun a b => le (f a) (f b)) x l).
Proof.
  intros. induction l as [|y r IH]; simpl; auto. destruct (le (f x) (f y)); simpl; auto.
  rewrite IH. reflexivity.
Qed.

Lemma py_sorted_map : forall A B (f : A -> B) le l,
  py_sorted le (map f l) = map f (py_sorted (fun a b => le (f a) (f b)) l).
Proof.
  intros. induction l as [|x r IH]; simpl; auto. rewrite IH. apply insert_map.
Qed.

Lemma StronglySorted_nth : forall A (R : A -> A -> Prop) l, StronglySorted R l ->
  forall i j x y, i < j -> nth_error l i = Some x -> nth_error l j = Some y -> R x y.
Proof.
  induction 1 as [|a l H IH F]; intros i j x y L Hi Hj.
  - destruct i; discriminate.
  - destruct j as [|j]; [lia|]. destruct i as [|i]; simpl in *.
    + inversion Hi; subst. rewrite Forall_forall in F. apply F. eapply nth_error_In; eauto.
    + apply (IH i j); auto; lia.
Qed.

(** Two sorted permutations of each other are equal for an antisymmetric order. *)
Lemma sorted_perm_unique : forall A (R : A -> A -> Prop),
  (forall x y, R x y -> R y x -> x = y) ->
  forall l1 l2, StronglySorted R l1 -> StronglySorted R l2 -> Permutation l1 l2 -> l1 = l2.
Proof.
  intros A R Anti. induction l1 as [|x r IH]; intros l2 S1 S2 P.
  - apply Permutation_nil in P. auto.
  - destruct l2 as [|y s]; [symmetry in P; apply Permutation_nil in P; discriminate|].
    inversion S1 as [|? ? S1' F1]; subst. inversion S2 as [|? ? S2' F2]; subst.
    assert (x = y) as ->.
    { assert (In x (y :: s)) as I by (eapply Permutation_in; [exact P|left; auto]).
      destruct I as [->|I]; auto.
      assert (In y (x :: r)) as J
        by (eapply Permutation_in; [symmetry; exact P|left; auto]).
      destruct J as [->|J]; auto.
      rewrite Forall_forall in *. apply Anti; auto. }
    f_equal. apply IH; auto. eapply Permutation_cons_inv; eauto.
Qed.
