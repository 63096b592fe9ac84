(** * Boolean checks used to show that the examples meet the hypotheses *)

From Coq Require Import String.
From Coq Require Import List Bool Arith ZArith QArith Lia.
From Verif Require Import Py Dict DataModel DataSpec.
Import ListNotations.
Open Scope list_scope.
Open Scope nat_scope.

Fixpoint nodupb (l : list string) : bool :=
  match l with [] => true | x :: r => negb (smem x r) && nodupb r end.

Definition fitsb (t : option ptype) (col : list cell) : bool :=
  forallb (fun c : cell => match c with
                    | None => true
                    | Some v => match t with Some p => ptype_eqb p (vtype v) | None => false end
                    end) col.

Definition typedb (d : Data) : bool :=
  nodupb (dkeys (cols d)) && nodupb (dkeys (types d)) &&
  forallb (fun kc => match dget (fst kc) (types d) with
                     | Some t => fitsb t (snd kc)
                     | None => false
                     end) (cols d).

Definition wfb (d : Data) (n : nat) : bool :=
  typedb d && Z.eqb (n_rows d) (Z.of_nat n) &&
  forallb (fun kc => Nat.eqb (length (snd kc)) n) (cols d).

Lemma ptype_eqb_true : forall a b, ptype_eqb a b = true -> a = b.
Proof. destruct a, b; simpl; intros; try discriminate; reflexivity. Qed.

Lemma smem_true : forall k l, smem k l = true <-> In k l.
Proof.
  intros. unfold smem. rewrite existsb_exists. split.
  - intros [x [H E]]. apply String.eqb_eq in E. subst; auto.
  - intros. exists k. split; auto. apply String.eqb_refl.
Qed.

Lemma nodupb_ok : forall l, nodupb l = true -> NoDup l.
Proof.
  induction l as [|x r IH]; simpl; intros H; constructor.
  - apply andb_prop in H. destruct H as [H _]. intros I. apply smem_true in I.
    rewrite I in H. discriminate.
  - apply IH. apply andb_prop in H. tauto.
Qed.

Lemma fitsb_ok : forall t col, fitsb t col = true -> type_fits t col.
Proof.
  intros t col H v Hv. unfold fitsb in H. rewrite forallb_forall in H.
  specialize (H (Some v) Hv). simpl in H. destruct t; [|discriminate].
  apply ptype_eqb_true in H. congruence.
Qed.

Lemma dget_In : forall V k (d : dict V) v, dget k d = Some v -> In (k, v) d.
Proof.
  induction d as [|[k' v'] r IH]; simpl; intros; [discriminate|].
  destruct (String.eqb_spec k' k).
  - inversion H. subst. auto.
  - right. auto.
Qed.

Lemma typedb_ok : forall d, typedb d = true -> typed d.
Proof.
  intros d H. unfold typedb in H. apply andb_prop in H. destruct H as [H1 H3].
  apply andb_prop in H1. destruct H1 as [H1 H2]. split; [|split].
  - apply nodupb_ok; auto.
  - apply nodupb_ok; auto.
  - intros k col Hk. apply dget_In in Hk. rewrite forallb_forall in H3.
    specialize (H3 _ Hk). simpl in H3. destruct (dget k (types d)); [|discriminate].
    exists o. split; auto. apply fitsb_ok; auto.
Qed.

Lemma wfb_ok : forall d n, wfb d n = true -> well_formed d n.
Proof.
  intros d n H. unfold wfb in H. apply andb_prop in H. destruct H as [H1 H3].
  apply andb_prop in H1. destruct H1 as [H1 H2]. split; [|split].
  - apply typedb_ok; auto.
  - apply Z.eqb_eq; auto.
  - intros k col Hk. apply dget_In in Hk. rewrite forallb_forall in H3.
    specialize (H3 _ Hk). simpl in H3. apply Nat.eqb_eq; auto.
Qed.

Lemma homogeneous_check : forall t l, fitsb (Some t) l = true -> homogeneous l.
Proof.
  intros t l H. exists t. intros v Hv. apply fitsb_ok in H. specialize (H v Hv). congruence.
Qed.

Definition emptyb (d : Data) (i : nat) : bool :=
  forallb (fun kc : string * list cell =>
    match nth i (snd kc) None with None => true | Some _ => false end) (cols d).

Lemma emptyb_ok : forall d i, emptyb d i = true -> empty_row d i.
Proof.
  intros d i H k col Hk. apply dget_In in Hk. unfold emptyb in H. rewrite forallb_forall in H.
  specialize (H _ Hk). simpl in H. destruct (nth i col None); [discriminate|reflexivity].
Qed.
