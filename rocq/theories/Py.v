(** * Shared vocabulary: Python outcomes and list helpers

    Not a model of particular source lines: the outcome type in which all
    models report what a Python call does. *)

From Coq Require Import List Bool Arith ZArith Lia.
Import ListNotations.

(** Kinds of failure.  The Python exception classes raised in /repo/hrosailing
    (or by the Python/numpy operations it uses), plus two markers:
    [NonFinite] = numpy would deliver nan or inf instead of a number,
    [OutOfFuel] = the loop of the model was cut off (no Python behaviour). *)
Inductive exn :=
| ValueError | TypeError | IndexError | KeyError | ZeroDivisionError
| RuntimeError | NotImplementedError | StopIteration | AttributeError
| FileReadingException | FileNotFoundError | CsvError
| OutsideGridException | NoGridException | LinAlgError
| NonFinite | OutOfFuel.

Definition exn_eqb (a b : exn) : bool :=
  match a, b with
  | ValueError, ValueError | TypeError, TypeError | IndexError, IndexError
  | KeyError, KeyError | ZeroDivisionError, ZeroDivisionError
  | RuntimeError, RuntimeError | NotImplementedError, NotImplementedError
  | StopIteration, StopIteration | AttributeError, AttributeError
  | FileReadingException, FileReadingException
  | FileNotFoundError, FileNotFoundError | CsvError, CsvError
  | OutsideGridException, OutsideGridException
  | NoGridException, NoGridException | LinAlgError, LinAlgError
  | NonFinite, NonFinite | OutOfFuel, OutOfFuel => true
  | _, _ => false
  end.

(** Outcome of a Python call: a value or a raised exception. *)
Inductive result (A : Type) :=
| Ok (a : A)
| Raise (e : exn).
Arguments Ok {A} a.
Arguments Raise {A} e.

Definition rbind {A B} (x : result A) (f : A -> result B) : result B :=
  match x with Ok a => f a | Raise e => Raise e end.

Definition rmap {A B} (f : A -> B) (x : result A) : result B :=
  match x with Ok a => Ok (f a) | Raise e => Raise e end.

Declare Scope py_scope.
Delimit Scope py_scope with py.
Notation "'do' x <- e ; k" := (rbind e (fun x => k))
  (at level 200, x pattern, e at level 100, k at level 200) : py_scope.
Open Scope py_scope.

Definition is_ok {A} (x : result A) : bool :=
  match x with Ok _ => true | Raise _ => false end.

(** A list comprehension [[f(x) for x in l]] whose body may raise: evaluated
    left to right, the first exception wins. *)
Fixpoint mapM {A B} (f : A -> result B) (l : list A) : result (list B) :=
  match l with
  | [] => Ok []
  | x :: r => do y <- f x; do ys <- mapM f r; Ok (y :: ys)
  end.

(** Python list indexing [l[i]] with a non-negative index. *)
Definition py_nth {A} (l : list A) (i : nat) : result A :=
  match nth_error l i with Some a => Ok a | None => Raise IndexError end.

(** Python's [l[-1]]. *)
Definition py_last {A} (l : list A) : result A :=
  match rev l with a :: _ => Ok a | [] => Raise IndexError end.

(** [enumerate]. *)
Definition enumerate {A} (l : list A) : list (nat * A) :=
  combine (seq 0 (length l)) l.

(** [l[mask]] for a boolean mask, [[x for x, c in zip(l, mask) if c]]:
    truncates to the shorter of the two lists. *)
Fixpoint mask_list {A} (l : list A) (m : list bool) : list A :=
  match l, m with
  | x :: l', c :: m' => if c then x :: mask_list l' m' else mask_list l' m'
  | _, _ => []
  end.

(** All elements of a list satisfy a boolean test ([all(...)]). *)
Definition allb {A} (p : A -> bool) (l : list A) : bool := forallb p l.

(** Some element satisfies a boolean test ([any(...)]). *)
Definition anyb {A} (p : A -> bool) (l : list A) : bool := existsb p l.

(* ------------------------------------------------------------------ *)
(** ** Basic facts *)

Lemma rbind_Ok : forall A B (x : result A) (f : A -> result B) b,
  rbind x f = Ok b <-> exists a, x = Ok a /\ f a = Ok b.
Proof.
  intros A B [a|e] f b; simpl; split; intros H.
  - exists a; auto.
  - destruct H as [a' [H1 H2]]. inversion H1; subst; auto.
  - discriminate.
  - destruct H as [a' [H1 H2]]. discriminate.
Qed.

Lemma mapM_length : forall A B (f : A -> result B) l ys,
  mapM f l = Ok ys -> length ys = length l.
Proof.
  induction l as [|x r IH]; simpl; intros ys H.
  - inversion H; reflexivity.
  - destruct (f x) as [y|e]; simpl in H; [|discriminate].
    destruct (mapM f r) as [ys'|e]; simpl in H; [|discriminate].
    inversion H; subst; simpl. f_equal. apply IH; reflexivity.
Qed.

Lemma mapM_Ok_map : forall A B (f : A -> result B) (g : A -> B) l,
  (forall x, In x l -> f x = Ok (g x)) -> mapM f l = Ok (map g l).
Proof.
  induction l as [|x r IH]; simpl; intros H; [reflexivity|].
  rewrite H by auto. simpl. rewrite IH by auto. reflexivity.
Qed.

Lemma mapM_nth : forall A B (f : A -> result B) l ys,
  mapM f l = Ok ys ->
  forall i x, nth_error l i = Some x ->
    exists y, nth_error ys i = Some y /\ f x = Ok y.
Proof.
  induction l as [|x r IH]; simpl; intros ys H i z Hz.
  - destruct i; discriminate.
  - destruct (f x) as [y|e] eqn:E; simpl in H; [|discriminate].
    destruct (mapM f r) as [ys'|e]; simpl in H; [|discriminate].
    inversion H; subst. destruct i as [|i]; simpl in *.
    + inversion Hz; subst. eauto.
    + eapply IH; eauto.
Qed.

Lemma mapM_raise : forall A B (f : A -> result B) l e,
  mapM f l = Raise e ->
  exists i x, nth_error l i = Some x /\ f x = Raise e /\
    forall j y, j < i -> nth_error l j = Some y -> exists z, f y = Ok z.
Proof.
  induction l as [|x r IH]; simpl; intros e H; [discriminate|].
  destruct (f x) as [y|e'] eqn:E; simpl in H.
  - destruct (mapM f r) as [ys'|e'']; simpl in H; [discriminate|].
    inversion H; subst. destruct (IH e eq_refl) as [i [z [H1 [H2 H3]]]].
    exists (S i), z. simpl. repeat split; auto.
    intros [|j] w Hj Hw; simpl in Hw.
    + inversion Hw; subst; eauto.
    + eapply H3; eauto. lia.
  - inversion H; subst. exists 0, x. simpl. repeat split; auto.
    intros; lia.
Qed.

Lemma mask_list_length_le : forall A (l : list A) m,
  length (mask_list l m) <= length l.
Proof.
  induction l as [|x l IH]; intros [|[] m]; simpl; try lia;
    specialize (IH m); lia.
Qed.

Lemma mask_list_In : forall A (l : list A) m x,
  In x (mask_list l m) -> In x l.
Proof.
  induction l as [|y l IH]; intros [|[] m] x H; simpl in *; try contradiction.
  - destruct H as [->|H]; eauto.
  - eauto.
Qed.

Lemma mask_list_app : forall A (l1 l2 : list A) m1 m2,
  length l1 = length m1 ->
  mask_list (l1 ++ l2) (m1 ++ m2) = mask_list l1 m1 ++ mask_list l2 m2.
Proof.
  induction l1 as [|x l1 IH]; intros l2 [|b m1] m2 H; simpl in *; try discriminate.
  - reflexivity.
  - injection H as H. destruct b; simpl; rewrite IH; auto.
Qed.

Lemma mask_list_filter : forall A (p : A -> bool) l,
  mask_list l (map p l) = filter p l.
Proof.
  induction l as [|x l IH]; simpl; [reflexivity|].
  destruct (p x); simpl; rewrite IH; reflexivity.
Qed.

Lemma mask_list_map : forall A B (f : A -> B) l m,
  mask_list (map f l) m = map f (mask_list l m).
Proof.
  induction l as [|x l IH]; intros [|[] m]; simpl; auto. rewrite IH; auto.
Qed.

Lemma py_last_app : forall A (l : list A) a, py_last (l ++ [a]) = Ok a.
Proof. intros. unfold py_last. rewrite rev_app_distr. reflexivity. Qed.
