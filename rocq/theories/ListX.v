(** * List lemmas *)

From Coq Require Import List Bool Arith Lia Permutation Sorted.
From Verif Require Import Py.
Import ListNotations.

Lemma nth_error_combine : forall A B (l1 : list A) (l2 : list B) i x y,
  nth_error (combine l1 l2) i = Some (x, y) <-> nth_error l1 i = Some x /\ nth_error l2 i = Some y.
Proof.
  induction l1 as [|a l1 IH]; intros [|b l2] i x y; destruct i; simpl; split;
    try discriminate; intros H; try (destruct H; discriminate).
  - inversion H; auto.
  - destruct H as [H1 H2]. inversion H1; inversion H2; auto.
  - apply IH; auto.
  - apply IH; auto.
Qed.

Lemma nth_error_seq : forall n s i, nth_error (seq s n) i = if i <? n then Some (s + i) else None.
Proof.
  induction n as [|n IH]; intros s i; simpl.
  - destruct i; reflexivity.
  - destruct i as [|i]; simpl.
    + f_equal. lia.
    + rewrite IH. change (S i <? S n) with (i <? n). destruct (i <? n); auto. f_equal. lia.
Qed.

Lemma nth_error_map_iff : forall A B (f : A -> B) l i y,
  nth_error (map f l) i = Some y <-> exists x, nth_error l i = Some x /\ f x = y.
Proof.
  induction l as [|a l IH]; intros i y; destruct i; simpl; split; try discriminate.
  - intros [x [H _]]; discriminate.
  - intros [x [H _]]; discriminate.
  - intros H; inversion H; eauto.
  - intros [x [H E]]; inversion H; subst; auto.
  - apply IH.
  - apply IH.
Qed.

Lemma nth_error_enumerate : forall A (l : list A) i k x,
  nth_error (enumerate l) i = Some (k, x) <-> k = i /\ nth_error l i = Some x.
Proof.
  intros A l i k x. unfold enumerate. rewrite nth_error_combine, nth_error_seq. simpl.
  destruct (Nat.ltb_spec i (length l)) as [L|L]; split; intros [H1 H2].
  - inversion H1; subst; auto.
  - subst. auto.
  - discriminate.
  - exfalso. apply nth_error_None in L. congruence.
Qed.

Lemma enumerate_In : forall A (l : list A) i x,
  In (i, x) (enumerate l) <-> nth_error l i = Some x.
Proof.
  intros A l i x. split; intros H.
  - apply In_nth_error in H. destruct H as [k H]. apply nth_error_enumerate in H.
    destruct H as [-> H]. auto.
  - apply nth_error_In with i. apply nth_error_enumerate. auto.
Qed.

Lemma enumerate_length : forall A (l : list A), length (enumerate l) = length l.
Proof. intros. unfold enumerate. rewrite combine_length, seq_length. lia. Qed.

Lemma map_fst_enumerate : forall A (l : list A), map fst (enumerate l) = seq 0 (length l).
Proof.
  intros A l. unfold enumerate. generalize (seq_length (length l) 0).
  generalize (seq 0 (length l)). induction l as [|a l IH]; intros [|n s] H; simpl in *; try discriminate; auto.
  f_equal. apply IH. lia.
Qed.

Lemma filter_nil : forall A (p : A -> bool) l, (forall x, In x l -> p x = false) -> filter p l = [].
Proof.
  induction l as [|a l IH]; simpl; intros H; auto. rewrite H by auto. auto.
Qed.

Lemma filter_all : forall A (p : A -> bool) l, (forall x, In x l -> p x = true) -> filter p l = l.
Proof.
  induction l as [|a l IH]; simpl; intros H; auto. rewrite H by auto. f_equal. auto.
Qed.

Lemma StronglySorted_filter : forall A (R : A -> A -> Prop) p l,
  StronglySorted R l -> StronglySorted R (filter p l).
Proof.
  induction 1 as [|a l H IH F]; simpl; [constructor|].
  destruct (p a); auto. constructor; auto. rewrite Forall_forall in *.
  intros x Hx. apply filter_In in Hx. apply F. tauto.
Qed.

Lemma StronglySorted_map : forall A B (f : A -> B) (R : A -> A -> Prop) (S : B -> B -> Prop) l,
  (forall x y, In x l -> In y l -> R x y -> S (f x) (f y)) ->
  StronglySorted R l -> StronglySorted S (map f l).
Proof.
  intros A B f R S l H Hs. induction Hs as [|a l Hs IH F]; simpl; [constructor|].
  constructor.
  - apply IH. intros; apply H; simpl; auto.
  - rewrite Forall_forall in *. intros y Hy. apply in_map_iff in Hy. destruct Hy as [x [<- Hx]].
    apply H; simpl; auto.
Qed.

Lemma seq_sorted : forall n s, StronglySorted lt (seq s n).
Proof.
  induction n as [|n IH]; intros s; simpl; constructor; auto.
  rewrite Forall_forall. intros x Hx. apply in_seq in Hx. lia.
Qed.

(** Two strictly sorted lists with the same elements are equal. *)
Lemma sorted_same_elements : forall A (R : A -> A -> Prop),
  (forall x, ~ R x x) -> (forall x y, R x y -> ~ R y x) ->
  forall l1 l2, StronglySorted R l1 -> StronglySorted R l2 ->
  (forall x, In x l1 <-> In x l2) -> l1 = l2.
Proof.
  intros A R Irr Asym. induction l1 as [|a l1 IH]; intros [|b l2] S1 S2 E; auto.
  - exfalso. destruct (proj2 (E b)); simpl; auto.
  - exfalso. destruct (proj1 (E a)); simpl; auto.
  - inversion S1 as [|? ? S1' F1]; inversion S2 as [|? ? S2' F2]; subst.
    rewrite Forall_forall in F1, F2.
    assert (a = b) as <-.
    { destruct (proj1 (E a)) as [H|H]; [left; auto|auto|].
      destruct (proj2 (E b)) as [K|K]; [left; auto|auto|].
      exfalso. apply (Asym a b); auto. }
    f_equal. apply IH; auto. intros x. split; intros Hx.
    + destruct (proj1 (E x)) as [H|H]; [right; auto| |auto]. subst.
      exfalso. apply (Irr x). apply F1; auto.
    + destruct (proj2 (E x)) as [H|H]; [right; auto| |auto]. subst.
      exfalso. apply (Irr x). apply F2; auto.
Qed.

Lemma NoDup_nth_error_inj : forall A (l : list A) i j x, NoDup l ->
  nth_error l i = Some x -> nth_error l j = Some x -> i = j.
Proof.
  intros A l i j x N Hi Hj. rewrite NoDup_nth_error in N. apply N.
  - apply nth_error_Some. congruence.
  - congruence.
Qed.

Lemma Permutation_flat_map_ext : forall A B (f g : A -> list B) l,
  (forall x, In x l -> Permutation (f x) (g x)) -> Permutation (flat_map f l) (flat_map g l).
Proof.
  induction l as [|a l IH]; simpl; intros H; auto. apply Permutation_app; auto.
Qed.

Lemma combine_map_fst_snd : forall A B (l : list (A * B)), combine (map fst l) (map snd l) = l.
Proof. induction l as [|[a b] l IH]; simpl; auto. rewrite IH. auto. Qed.

Lemma map_fst_combine : forall A B (l1 : list A) (l2 : list B), length l1 = length l2 ->
  map fst (combine l1 l2) = l1.
Proof.
  induction l1 as [|a l1 IH]; intros [|b l2] H; simpl in *; try discriminate; auto.
  f_equal. apply IH. lia.
Qed.

Lemma map_snd_combine : forall A B (l1 : list A) (l2 : list B), length l1 = length l2 ->
  map snd (combine l1 l2) = l2.
Proof.
  induction l1 as [|a l1 IH]; intros [|b l2] H; simpl in *; try discriminate; auto.
  f_equal. apply IH. lia.
Qed.

Lemma nth_error_nth' : forall A (l : list A) i d, i < length l -> nth_error l i = Some (nth i l d).
Proof. intros. apply nth_error_nth'. auto. Qed.

Lemma map_nth_seq : forall A (l : list A) d, map (fun j => nth j l d) (seq 0 (length l)) = l.
Proof.
  intros A l d. induction l as [|a l IH]; simpl; auto. f_equal.
  rewrite <- seq_shift, map_map. exact IH.
Qed.

Lemma nth_error_rev : forall A (l : list A) i, i < length l ->
  nth_error (rev l) i = nth_error l (length l - S i).
Proof.
  intros A l i H. destruct l as [|d l0]; [simpl in H; lia|]. set (l := d :: l0) in *.
  rewrite (nth_error_nth' _ (rev l) i d) by (rewrite rev_length; auto).
  rewrite (nth_error_nth' _ l (length l - S i) d) by lia.
  f_equal. apply rev_nth. auto.
Qed.

Lemma nth_error_ext : forall A (l1 l2 : list A), (forall i, nth_error l1 i = nth_error l2 i) -> l1 = l2.
Proof.
  induction l1 as [|a l1 IH]; intros [|b l2] H; auto.
  - specialize (H O); discriminate.
  - specialize (H O); discriminate.
  - f_equal; [specialize (H O); inversion H; auto|]. apply IH. intros i. apply (H (S i)).
Qed.

Lemma nth_error_skipn : forall A k (l : list A) i, nth_error (skipn k l) i = nth_error l (k + i).
Proof.
  induction k as [|k IH]; intros [|a l] i; simpl; auto. destruct i; auto.
Qed.

Lemma StronglySorted_of_map : forall A B (f : A -> B) (R : B -> B -> Prop) l,
  StronglySorted R (map f l) -> StronglySorted (fun a b => R (f a) (f b)) l.
Proof.
  induction l as [|a l IH]; simpl; intros S; [constructor|].
  inversion S as [|? ? S' F]; subst. constructor; auto.
  rewrite Forall_forall in *. intros b Hb. apply F. apply in_map. auto.
Qed.

Lemma sorted_lt_NoDup : forall A (R : A -> A -> Prop) l, (forall x, ~ R x x) ->
  StronglySorted R l -> NoDup l.
Proof.
  intros A R l Irr S. induction S as [|a l S IH F]; constructor; auto.
  rewrite Forall_forall in F. intros I. apply (Irr a). auto.
Qed.

Lemma NoDup_app_intro : forall A (l1 l2 : list A), NoDup l1 -> NoDup l2 ->
  (forall x, In x l1 -> In x l2 -> False) -> NoDup (l1 ++ l2).
Proof.
  induction l1 as [|a l1 IH]; intros l2 N1 N2 D; simpl; auto.
  inversion N1; subst. constructor.
  - rewrite in_app_iff. intros [I|I]; auto. apply (D a); simpl; auto.
  - apply IH; auto. intros x H3 H4. apply (D x); simpl; auto.
Qed.
