(** * Python dictionaries with string keys

    Insertion ordered association lists; the operations used in the models.
    No particular source lines: this is the meaning of Python's [dict]. *)

From Coq Require Import List Bool String Lia.
Import ListNotations.
Open Scope string_scope.
Open Scope list_scope.

Definition dict (V : Type) := list (string * V).

Definition dkeys {V} (d : dict V) : list string := map fst d.
Definition dvals {V} (d : dict V) : list V := map snd d.

(** [d.get(k)]. *)
Fixpoint dget {V} (k : string) (d : dict V) : option V :=
  match d with
  | [] => None
  | (k', v) :: r => if String.eqb k' k then Some v else dget k r
  end.

(** [k in d]. *)
Definition dmem {V} (k : string) (d : dict V) : bool :=
  match dget k d with Some _ => true | None => false end.

(** [d[k] = v]: keeps the position of an existing key, appends a new one. *)
Fixpoint dset {V} (k : string) (v : V) (d : dict V) : dict V :=
  match d with
  | [] => [(k, v)]
  | (k', v') :: r => if String.eqb k' k then (k', v) :: r else (k', v') :: dset k v r
  end.

(** [del d[k]] for a present key. *)
Fixpoint ddel {V} (k : string) (d : dict V) : dict V :=
  match d with
  | [] => []
  | (k', v) :: r => if String.eqb k' k then r else (k', v) :: ddel k r
  end.

(** [x in list] for strings. *)
Definition smem (k : string) (l : list string) : bool := existsb (String.eqb k) l.

(** Dictionary comprehension on values. *)
Definition dmap {V W} (f : V -> W) (d : dict V) : dict W :=
  map (fun kv => (fst kv, f (snd kv))) d.

(* ------------------------------------------------------------------ *)

Lemma smem_In : forall k l, smem k l = true <-> In k l.
Proof.
  intros. unfold smem. rewrite existsb_exists. split.
  - intros [x [H1 H2]]. apply String.eqb_eq in H2. subst; auto.
  - intros H. exists k. split; auto. apply String.eqb_refl.
Qed.

Lemma smem_false : forall k l, smem k l = false <-> ~ In k l.
Proof.
  intros. rewrite <- smem_In. destruct (smem k l); split; congruence.
Qed.

Lemma dget_None : forall V k (d : dict V), dget k d = None <-> ~ In k (dkeys d).
Proof.
  induction d as [|[k' v] d IH]; simpl.
  - tauto.
  - destruct (String.eqb_spec k' k).
    + split; [discriminate|]. intros H. exfalso. auto.
    + rewrite IH. intuition.
Qed.

Lemma dget_Some_In : forall V k (d : dict V) v, dget k d = Some v -> In (k, v) d.
Proof.
  induction d as [|[k' v'] d IH]; simpl; intros v H; [discriminate|].
  destruct (String.eqb_spec k' k).
  - inversion H; subst; auto.
  - auto.
Qed.

Lemma dget_In_key : forall V k (d : dict V), In k (dkeys d) <-> exists v, dget k d = Some v.
Proof.
  intros. destruct (dget k d) eqn:E.
  - split; [eauto|]. intros _. apply dget_Some_In in E.
    unfold dkeys. apply in_map_iff. exists (k, v); auto.
  - apply dget_None in E. split; [contradiction|]. intros [v H]; discriminate.
Qed.

Lemma dmem_In : forall V k (d : dict V), dmem k d = true <-> In k (dkeys d).
Proof.
  intros. unfold dmem. rewrite dget_In_key.
  destruct (dget k d); split; try congruence; eauto.
  intros [v H]; discriminate.
Qed.

Lemma dmem_false : forall V k (d : dict V), dmem k d = false <-> ~ In k (dkeys d).
Proof. intros. rewrite <- dmem_In. destruct (dmem k d); split; congruence. Qed.

Lemma NoDup_dget : forall V k (d : dict V) v,
  NoDup (dkeys d) -> In (k, v) d -> dget k d = Some v.
Proof.
  induction d as [|[k' v'] d IH]; simpl; intros v ND H; [contradiction|].
  inversion ND; subst. destruct H as [H|H].
  - inversion H; subst. rewrite String.eqb_refl. reflexivity.
  - destruct (String.eqb_spec k' k).
    + subst. exfalso. apply H2. apply in_map_iff. exists (k, v); auto.
    + auto.
Qed.

Lemma dget_dset_same : forall V k v (d : dict V), dget k (dset k v d) = Some v.
Proof.
  induction d as [|[k' v'] d IH]; simpl.
  - rewrite String.eqb_refl; auto.
  - destruct (String.eqb_spec k' k); simpl.
    + subst. rewrite String.eqb_refl; auto.
    + destruct (String.eqb_spec k' k); [contradiction|auto].
Qed.

Lemma dget_dset_other : forall V k k' v (d : dict V),
  k <> k' -> dget k' (dset k v d) = dget k' d.
Proof.
  induction d as [|[k0 v0] d IH]; simpl; intros H.
  - destruct (String.eqb_spec k k'); [contradiction|auto].
  - destruct (String.eqb_spec k0 k); simpl.
    + subst. destruct (String.eqb_spec k k'); [contradiction|auto].
    + destruct (String.eqb_spec k0 k'); auto.
Qed.

Lemma dset_keys_in : forall V k v (d : dict V),
  In k (dkeys d) -> dkeys (dset k v d) = dkeys d.
Proof.
  induction d as [|[k0 v0] d IH]; simpl; intros H; [contradiction|].
  destruct (String.eqb_spec k0 k); simpl; [auto|].
  f_equal. apply IH. destruct H; [contradiction|auto].
Qed.

Lemma dset_keys_notin : forall V k v (d : dict V),
  ~ In k (dkeys d) -> dset k v d = d ++ [(k, v)].
Proof.
  induction d as [|[k0 v0] d IH]; simpl; intros H; [reflexivity|].
  destruct (String.eqb_spec k0 k); simpl.
  - exfalso; auto.
  - rewrite IH; auto.
Qed.

Lemma dkeys_app : forall V (d1 d2 : dict V), dkeys (d1 ++ d2) = dkeys d1 ++ dkeys d2.
Proof. intros. unfold dkeys. apply map_app. Qed.

Lemma dset_In_keys : forall V k v (d : dict V) k',
  In k' (dkeys (dset k v d)) <-> k' = k \/ In k' (dkeys d).
Proof.
  intros. destruct (in_dec String.string_dec k (dkeys d)).
  - rewrite dset_keys_in by auto. split; [auto|]. intros [->|H]; auto.
  - rewrite dset_keys_notin by auto. rewrite dkeys_app, in_app_iff. simpl.
    split; [intros [H|[H|[]]]; auto|intros [->|H]; auto].
Qed.

Lemma NoDup_app_single : forall A (l : list A) a, NoDup l -> ~ In a l -> NoDup (l ++ [a]).
Proof.
  induction l as [|b l IH]; simpl; intros a H Hn.
  - constructor; auto.
  - inversion H; subst. constructor.
    + rewrite in_app_iff. simpl. intros [H1|[H1|[]]]; subst; auto.
    + apply IH; auto.
Qed.

Lemma dset_NoDup : forall V k v (d : dict V),
  NoDup (dkeys d) -> NoDup (dkeys (dset k v d)).
Proof.
  intros. destruct (in_dec String.string_dec k (dkeys d)).
  - rewrite dset_keys_in; auto.
  - rewrite dset_keys_notin, dkeys_app by auto. apply NoDup_app_single; auto.
Qed.

Lemma ddel_In_keys : forall V k (d : dict V) k', NoDup (dkeys d) ->
  (In k' (dkeys (ddel k d)) <-> k' <> k /\ In k' (dkeys d)).
Proof.
  induction d as [|[k0 v0] d IH]; simpl; intros k' ND.
  - tauto.
  - inversion ND; subst. destruct (String.eqb_spec k0 k); simpl.
    + subst. split; intros H.
      * split; auto. intros ->. contradiction.
      * destruct H as [H [H3|H3]]; [congruence|auto].
    + rewrite IH by auto. split; intros H.
      * destruct H as [H|[H H3]]; [subst|]; auto.
      * destruct H as [H [H3|H3]]; auto.
Qed.

Lemma ddel_NoDup : forall V k (d : dict V), NoDup (dkeys d) -> NoDup (dkeys (ddel k d)).
Proof.
  induction d as [|[k0 v0] d IH]; simpl; intros ND; [auto|].
  inversion ND; subst. destruct (String.eqb_spec k0 k); simpl; auto.
  constructor; auto. intros H. apply ddel_In_keys in H; tauto.
Qed.

Lemma dget_ddel_same : forall V k (d : dict V), NoDup (dkeys d) -> dget k (ddel k d) = None.
Proof.
  intros. apply dget_None. rewrite ddel_In_keys by auto. tauto.
Qed.

Lemma dget_ddel_other : forall V k k' (d : dict V),
  k <> k' -> dget k' (ddel k d) = dget k' d.
Proof.
  induction d as [|[k0 v0] d IH]; simpl; intros H; [auto|].
  destruct (String.eqb_spec k0 k); simpl.
  - subst. destruct (String.eqb_spec k k'); [contradiction|auto].
  - destruct (String.eqb_spec k0 k'); auto.
Qed.

Lemma dget_app : forall V k (d1 d2 : dict V),
  dget k (d1 ++ d2) = match dget k d1 with Some v => Some v | None => dget k d2 end.
Proof.
  induction d1 as [|[k0 v0] d1 IH]; simpl; intros; [auto|].
  destruct (String.eqb k0 k); auto.
Qed.

Lemma dmap_keys : forall V W (f : V -> W) d, dkeys (dmap f d) = dkeys d.
Proof. intros. unfold dkeys, dmap. rewrite map_map. reflexivity. Qed.

Lemma dget_dmap : forall V W (f : V -> W) d k,
  dget k (dmap f d) = option_map f (dget k d).
Proof.
  induction d as [|[k0 v0] d IH]; simpl; intros; [auto|].
  destruct (String.eqb k0 k); auto.
Qed.

Lemma dget_filter_key : forall V (p : string -> bool) (d : dict V) k,
  dget k (filter (fun kv => p (fst kv)) d) = if p k then dget k d else None.
Proof.
  induction d as [|[k0 v0] d IH]; simpl; intros k.
  - destruct (p k); auto.
  - destruct (String.eqb_spec k0 k).
    + subst. destruct (p k) eqn:E; simpl.
      * rewrite String.eqb_refl; auto.
      * rewrite IH, E. reflexivity.
    + destruct (p k0); simpl.
      * destruct (String.eqb_spec k0 k); [contradiction|auto].
      * auto.
Qed.

Lemma dict_ext : forall V (d1 d2 : dict V),
  NoDup (dkeys d1) -> dkeys d1 = dkeys d2 ->
  (forall k, dget k d1 = dget k d2) -> d1 = d2.
Proof.
  induction d1 as [|[k v] d1 IH]; intros [|[k' v'] d2] ND Hk Hg; simpl in *;
    try discriminate; auto.
  injection Hk as -> Hk. inversion ND; subst.
  assert (v = v') as ->.
  { specialize (Hg k'). rewrite String.eqb_refl in Hg. congruence. }
  f_equal. apply IH; auto. intros k0. specialize (Hg k0).
  destruct (String.eqb_spec k' k0); auto.
  subst. transitivity (@None V); [|symmetry]; apply dget_None; auto. congruence.
Qed.
