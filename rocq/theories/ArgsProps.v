(** * C152: what calls do to the arrays handed to them *)

From Coq Require Import List Bool Arith ZArith Reals Lra Lia Permutation.
From Verif Require Import Py Num PySort Trig InterpModel WindModel TableModel CloudModel ArgsModel.
Import ListNotations.
Open Scope R_scope.

(** The arrays that a program hands over as wind speeds, as wind angles, and as
    points whose wind is converted or that are added. *)
Definition refs {A} (x : arg A) : list nat := match x with Val _ => [] | Ref a => [a] end.
Definition orefs {A} (x : option (arg A)) : list nat := match x with None => [] | Some x => refs x end.
Definition speeds_of (c : call) : list nat :=
  match c with
  | MkTable ws _ _ | Item _ ws _ => refs ws
  | Change _ _ ws _ => orefs ws
  | _ => []
  end.
Definition angles_of (c : call) : list nat :=
  match c with
  | MkTable _ wa _ | Item _ _ wa => refs wa
  | Change _ _ _ wa => orefs wa
  | _ => []
  end.
Definition points_of (c : call) : list nat :=
  match c with
  | MkCloud true pts | AddPts _ _ pts | Convert _ pts => refs pts
  | _ => []
  end.

(** The program that hands over copies, made at the start, of all arrays. *)
Definition freeze1 {A} (h : list (list A)) (x : arg A) : arg A := Val (value h x).
Definition freeze (s : astate) (c : call) : call :=
  match c with
  | MkTable ws wa bsps => MkTable (freeze1 (winds s) ws) (freeze1 (winds s) wa) bsps
  | Item t ws wa => Item t (freeze1 (winds s) ws) (freeze1 (winds s) wa)
  | Change t new ws wa =>
      Change t new (option_map (freeze1 (winds s)) ws) (option_map (freeze1 (winds s)) wa)
  | MkCloud ap pts => MkCloud ap (freeze1 (rows s) pts)
  | AddPts c ap pts => AddPts c ap (freeze1 (rows s) pts)
  | Convert d pts => Convert d (freeze1 (rows s) pts)
  end.

(** The angle of the same direction in the interval from 0 to 360. *)
Definition full_turns (a b : R) : Prop := 0 <= b < 360 /\ exists k : Z, a = b + 360 * IZR k.
Definition same_but_angle (p q : pt3 R) : Prop := pws q = pws p /\ full_turns (pwa p) (pwa q) /\ pbs q = pbs p.

(** ** Lemmas *)

Lemma awrite_other : forall A (h : list (list A)) a b v, a <> b -> aread (awrite h a v) b = aread h b.
Proof.
  unfold aread. induction h; intros [|a'] [|b] v N; simpl; auto; congruence.
Qed.

Lemma awrite_same : forall A (h : list (list A)) a v, (a < length h)%nat -> aread (awrite h a v) a = v.
Proof. unfold aread. induction h; intros [|a'] v L; simpl in *; auto; try lia. apply IHh. lia. Qed.

Lemma awrite_length : forall A (h : list (list A)) a v, length (awrite h a v) = length h.
Proof. induction h; intros [|a'] v; simpl; auto. Qed.

Lemma aread_out : forall A (h : list (list A)) a, ~ (a < length h)%nat -> aread h a = [].
Proof. intros. unfold aread. apply nth_overflow. lia. Qed.

Lemma inplace_read : forall A (f : A -> A) h (a : nat), aread (inplace f h (Ref a)) a = map f (aread h a).
Proof.
  intros. simpl. destruct (lt_dec a (length h)).
  - now apply awrite_same.
  - rewrite (aread_out _ h a) by auto. rewrite aread_out; auto. now rewrite awrite_length.
Qed.

Lemma inplace_other : forall A (f : A -> A) h x b, ~ In b (refs x) -> aread (inplace f h x) b = aread h b.
Proof. intros A f h [l|a] b N; simpl in *; auto. apply awrite_other. intros ->; auto. Qed.

Lemma inplace_value : forall A (f : A -> A) h x, (forall y, f (f y) = f y) ->
  map f (value (inplace f h x) x) = map f (value h x).
Proof.
  intros A f h [l|a] I; auto. change (value (inplace f h (Ref a)) (Ref a)) with (aread (inplace f h (Ref a)) a).
  rewrite inplace_read. rewrite map_map. apply map_ext. auto.
Qed.

Lemma mod360_idem : forall y, mod360 (mod360 y) = mod360 y.
Proof. intros. apply nmod_idem. lra. Qed.
Lemma reduce_idem : forall y : pt3 R, reduce_angle (reduce_angle y) = reduce_angle y.
Proof. intros [[a b] c]. unfold reduce_angle, pws, pwa, pbs. simpl. f_equal. f_equal. apply nmod_idem. lra. Qed.

(** The arrays of a run: unchanged or reduced. *)
Definition near {A} (f : A -> A) (P : nat -> Prop) (h0 h : list (list A)) : Prop :=
  length h = length h0 /\
  forall a, aread h a = aread h0 a \/ (P a /\ aread h a = map f (aread h0 a)).

Lemma near_refl : forall A (f : A -> A) P h, near f P h h.
Proof. split; auto. Qed.

Lemma near_inplace : forall A (f : A -> A) P h0 h x, (forall y, f (f y) = f y) ->
  near f P h0 h -> (forall a, In a (refs x) -> P a) -> near f P h0 (inplace f h x).
Proof.
  intros A f P h0 h x I [L N] X. split.
  { rewrite <- L. destruct x; simpl; auto. apply awrite_length. }
  intros a. destruct (in_dec Nat.eq_dec a (refs x)) as [i|i].
  - right. split; auto. destruct x as [l|b]; simpl in i; [tauto|]. destruct i as [<-|[]].
    rewrite inplace_read. destruct (N b) as [->|[_ ->]]; auto. rewrite map_map. now apply map_ext.
  - rewrite inplace_other by auto. apply N.
Qed.

Lemma near_value : forall A (f : A -> A) P h0 h x, (forall y, f (f y) = f y) ->
  near f P h0 h -> map f (value h x) = map f (value h0 x).
Proof.
  intros A f P h0 h [l|a] I [L N]; auto. simpl. destruct (N a) as [->|[_ ->]]; auto.
  rewrite map_map. now apply map_ext.
Qed.

Lemma near_exact : forall A (f : A -> A) P h0 h x,
  near f P h0 h -> (forall a, In a (refs x) -> ~ P a) -> value h x = value h0 x.
Proof. intros A f P h0 h [l|a] [L N] X; auto. simpl in *. destruct (N a) as [->|[p _]]; auto. exfalso. eapply X; eauto. Qed.

(** The calls depend on the reduced angles only. *)
Lemma table_new_mod : forall ws l l' b, map mod360 l = map mod360 l' ->
  table_new (RIter ws) (RIter l) b = table_new (RIter ws) (RIter l') b.
Proof.
  intros ws l l' b E. unfold table_new.
  replace (build_wa (RIter l)) with (build_wa (RIter l')); auto.
  destruct l, l'; simpl in *; try discriminate; auto. unfold mod360 in E. congruence.
Qed.

Lemma indices_mod : forall res l l', map mod360 l = map mod360 l' ->
  get_indices normalize_wa res (Some l) = get_indices normalize_wa res (Some l').
Proof. intros res l l' E. unfold get_indices, normalize_wa. unfold mod360 in E. simpl in *. now rewrite E. Qed.

Lemma getitem_mod : forall t ws l l', map mod360 l = map mod360 l' -> getitem t ws l = getitem t ws l'.
Proof. intros. unfold getitem. now rewrite (indices_mod _ l l'). Qed.

Lemma change_mod : forall t new ws l l', map mod360 l = map mod360 l' ->
  change_entries t new ws (Some l) = change_entries t new ws (Some l').
Proof. intros. unfold change_entries. now rewrite (indices_mod _ l l'). Qed.

Lemma reduced_map : forall B (g : pt3 R -> B) l l', (forall p, g (reduce_angle p) = g p) ->
  map reduce_angle l = map reduce_angle l' -> map g l = map g l'.
Proof.
  intros B g l l' G E. rewrite <- (map_ext _ _ G l), <- (map_ext _ _ G l').
  rewrite <- !(map_map reduce_angle g). now rewrite E.
Qed.

Lemma existsb_map : forall A (f : A -> bool) l, existsb f l = existsb (fun b => b) (map f l).
Proof. induction l; simpl; congruence. Qed.
Lemma reduced_exists : forall (g : pt3 R -> bool) l l', (forall p, g (reduce_angle p) = g p) ->
  map reduce_angle l = map reduce_angle l' -> existsb g l = existsb g l'.
Proof. intros. rewrite (existsb_map _ g l), (existsb_map _ g l'). f_equal. now apply reduced_map. Qed.

Lemma pws_reduce : forall p : pt3 R, pws (reduce_angle p) = pws p.
Proof. intros [[a b] c]. reflexivity. Qed.

Lemma cloud_new_reduced : forall l l' : list (pt3 R), map reduce_angle l = map reduce_angle l' -> cloud_new l = cloud_new l'.
Proof.
  unfold cloud_new. induction l; intros [|b l'] E; try discriminate; auto. cbn [map] in E.
  assert (Ha : reduce_angle a = reduce_angle b) by congruence.
  assert (Hl : map reduce_angle l = map reduce_angle l') by congruence.
  assert (Hw : pws a = pws b) by (rewrite <- (pws_reduce a), <- (pws_reduce b); congruence).
  cbn [filter]. rewrite Hw. destruct (nleb _ _); cbn [map]; rewrite ?Ha; rewrite (IHl l' Hl); reflexivity.
Qed.

Lemma convert_row_reduced : forall d p,
  convert_row d (pws (reduce_angle p)) (pwa (reduce_angle p)) (pbs (reduce_angle p)) = convert_row d (pws p) (pwa p) (pbs p).
Proof.
  intros d [[a b] c]. unfold convert_row, reduce_angle, pws, pwa, pbs. simpl. rewrite nmod_idem by lra. reflexivity.
Qed.

Lemma convert_near : forall P d h0 h x, near reduce_angle P h0 h ->
  snd (convert d h x) = snd (convert d h0 (freeze1 h0 x)).
Proof.
  intros P d h0 h x N. unfold convert.
  rewrite (reduced_exists (fun p => nltb (pws p) 0) (value h x) (value h0 (freeze1 h0 x))).
  - destruct (existsb _ _); auto. simpl snd. f_equal. apply reduced_map.
    + apply convert_row_reduced.
    + rewrite inplace_value by apply reduce_idem. rewrite (near_value _ _ P h0); auto. apply reduce_idem.
  - intros p. now rewrite pws_reduce.
  - rewrite (near_value _ _ P h0); auto. apply reduce_idem.
Qed.

Lemma convert_store : forall P d h0 h x, near reduce_angle P h0 h -> (forall a, In a (refs x) -> P a) ->
  near reduce_angle P h0 (fst (convert d h x)).
Proof.
  intros. unfold convert. destruct (existsb _ _); auto. simpl. apply near_inplace; auto. apply reduce_idem.
Qed.

Lemma convert_frozen : forall d h l, fst (convert d h (Val l)) = h.
Proof. intros. unfold convert. destruct (existsb _ _); reflexivity. Qed.

Section Step.
  Variables (A P : nat -> Prop) (s0 : astate).

  (** The store of a call. *)
  Lemma step_store : forall s c, near mod360 A (winds s0) (winds s) -> near reduce_angle P (rows s0) (rows s) ->
    (forall a, In a (angles_of c) -> A a) -> (forall a, In a (points_of c) -> P a) ->
    near mod360 A (winds s0) (winds (fst (step s c))) /\ near reduce_angle P (rows s0) (rows (fst (step s c))).
  Proof.
    intros s c W Rw HA HP. pose proof mod360_idem as I1. pose proof reduce_idem as I2.
    destruct c as [ws wa b|t ws wa|t new ws wa|ap pts|c ap pts|d pts]; simpl in HA, HP; unfold step.
    - destruct (build_ws _); [|split; auto]. destruct (table_new _ _ _); simpl; split; auto; now apply near_inplace.
    - destruct (nth_error _ _); [|split; auto]. destruct (get_indices _ _ _); [|split; auto]. simpl; split; auto; now apply near_inplace.
    - destruct (nth_error _ _); [|split; auto]. destruct (get_indices _ _ _); [|split; auto].
      assert (near mod360 A (winds s0) match wa with None => winds s | Some wa => inplace mod360 (winds s) wa end).
      { destruct wa; auto. apply near_inplace; auto. }
      destruct (change_entries _ _ _ _); simpl; auto.
    - destruct ap; [|split; auto]. pose proof (convert_store P TO_TRUE _ _ pts Rw HP).
      destruct (convert _ _ _) as [h []]; simpl in *; auto.
    - destruct (nth_error _ _); [|split; auto]. destruct ap.
      + pose proof (convert_store P TO_TRUE _ _ pts Rw HP). destruct (convert _ _ _) as [h []]; simpl in *; auto.
      + destruct (existsb _ _); [split; auto|]. split; [exact W|]. cbn [fst rows]. now apply near_inplace.
    - pose proof (convert_store P d _ _ pts Rw HP). destruct (convert _ _ _) as [h r]; simpl in *; auto.
  Qed.

  (** The answer and the diagrams of a call. *)
  Lemma step_same : forall s z c, near mod360 A (winds s0) (winds s) -> near reduce_angle P (rows s0) (rows s) ->
    winds z = winds s0 -> rows z = rows s0 -> tables s = tables z -> clouds s = clouds z ->
    (forall a, In a (speeds_of c) -> ~ A a) -> (forall a, In a (angles_of c) -> A a) ->
    let z' := fst (step z (freeze s0 c)) in
    snd (step s c) = snd (step z (freeze s0 c)) /\
    tables (fst (step s c)) = tables z' /\ clouds (fst (step s c)) = clouds z' /\
    winds z' = winds s0 /\ rows z' = rows s0.
  Proof.
    intros s z c W Rw Zw Zr T C HS HA. pose proof mod360_idem as I1. pose proof reduce_idem as I2.
    destruct c as [ws wa b|t ws wa|t new ws wa|ap pts|c ap pts|d pts]; simpl in HA, HS; cbn [freeze].
    - unfold step. cbn [value freeze1]. rewrite (near_exact _ _ _ _ _ ws W HS).
      destruct (build_ws _) eqn:EB; [|simpl; auto].
      assert (ES : value (inplace mod360 (winds s) wa) ws = value (winds s0) ws).
      { apply (near_exact _ mod360 A); auto. apply near_inplace; auto. }
      rewrite ES. cbn [inplace freeze1 value].
      rewrite (table_new_mod _ (value (inplace mod360 (winds s) wa) wa) (value (winds s0) wa)).
      2:{ rewrite inplace_value by auto. apply (near_value _ _ A); auto. }
      destruct (table_new _ _ _); cbn [fst snd tables clouds winds rows]; repeat split; auto; congruence.
    - unfold step. cbn [value freeze1]. rewrite T. destruct (nth_error _ _) as [tab|]; [|simpl; auto].
      rewrite (near_exact _ _ _ _ _ ws W HS). destruct (get_indices _ _ _); [|simpl; auto].
      rewrite (getitem_mod tab _ (value (inplace mod360 (winds s) wa) wa) (value (winds s0) wa)).
      2:{ rewrite inplace_value by auto. apply (near_value _ _ A); auto. }
      cbn [fst snd tables clouds winds rows inplace freeze1 value]. repeat split; auto.
    - unfold step. rewrite T. destruct (nth_error _ _) as [tab|]; [|simpl; auto].
      assert (EW : option_map (value (winds z)) (option_map (freeze1 (winds s0)) ws) = option_map (value (winds s)) ws).
      { destruct ws as [ws|]; simpl; auto. f_equal. symmetry. now apply (near_exact _ _ _ _ _ ws W). }
      rewrite EW. destruct (get_indices _ _ _); [|simpl; auto].
      assert (EC : forall x, change_entries tab new x (option_map (value match wa with None => winds s | Some wa => inplace mod360 (winds s) wa end) wa)
        = change_entries tab new x (option_map (value (winds z)) (option_map (freeze1 (winds s0)) wa))).
      { intros x. destruct wa as [wa|]; simpl; auto. apply change_mod. rewrite inplace_value by auto. apply (near_value _ _ A); auto. }
      rewrite EC. assert (EZ : match option_map (freeze1 (winds s0)) wa with None => winds z | Some wa => inplace mod360 (winds z) wa end = winds z).
      { destruct wa; auto. }
      rewrite EZ. destruct (change_entries _ _ _ _); cbn [fst snd tables clouds winds rows]; repeat split; auto; congruence.
    - unfold step. destruct ap.
      + pose proof (convert_near P TO_TRUE _ _ pts Rw) as E. pose proof (convert_frozen TO_TRUE (rows z) (value (rows s0) pts)) as F.
        rewrite Zr in *. unfold freeze1 in *. destruct (convert TO_TRUE (rows s) pts) as [h r], (convert TO_TRUE (rows s0) (Val _)) as [h' r'].
        simpl in E, F. subst r' h'. destruct r; cbn [fst snd tables clouds winds rows]; repeat split; auto; congruence.
      + cbn [fst snd tables clouds winds rows value freeze1]. repeat split; auto. rewrite C. do 3 f_equal.
        apply cloud_new_reduced. apply (near_value _ _ P); auto.
    - unfold step. rewrite C. destruct (nth_error _ _) as [cl|]; [|simpl; auto]. destruct ap.
      + pose proof (convert_near P TO_TRUE _ _ pts Rw) as E. pose proof (convert_frozen TO_TRUE (rows z) (value (rows s0) pts)) as F.
        rewrite Zr in *. unfold freeze1 in *. destruct (convert TO_TRUE (rows s) pts) as [h r], (convert TO_TRUE (rows s0) (Val _)) as [h' r'].
        simpl in E, F. subst r' h'. destruct r; cbn [fst snd tables clouds winds rows]; repeat split; auto; congruence.
      + cbn [value freeze1].
        rewrite (reduced_exists (fun p => nleb (pws p) 0) (value (rows s) pts) (value (rows s0) pts)).
        2:{ intros p. now rewrite pws_reduce. }
        2:{ apply (near_value _ _ P); auto. }
        destruct (existsb _ _) eqn:EX; cbn [fst snd tables clouds winds rows value freeze1 inplace]; repeat split; auto.
        do 3 f_equal. apply (near_value _ _ P); auto.
    - unfold step.
      pose proof (convert_near P d _ _ pts Rw) as E. pose proof (convert_frozen d (rows z) (value (rows s0) pts)) as F.
      rewrite Zr in *. unfold freeze1 in *. destruct (convert d (rows s) pts) as [h r], (convert d (rows s0) (Val _)) as [h' r'].
      simpl in E, F. subst r' h'. cbn [fst snd tables clouds winds rows]; repeat split; auto; congruence.
  Qed.

  Lemma run_store : forall p s, near mod360 A (winds s0) (winds s) -> near reduce_angle P (rows s0) (rows s) ->
    (forall a, In a (flat_map angles_of p) -> A a) -> (forall a, In a (flat_map points_of p) -> P a) ->
    near mod360 A (winds s0) (winds (fst (run s p))) /\ near reduce_angle P (rows s0) (rows (fst (run s p))).
  Proof.
    induction p as [|c p IH]; intros s W Rw HA HP; [split; auto|]. simpl in HA, HP.
    destruct (step_store s c W Rw) as [W' R'].
    { intros. apply HA. apply in_or_app; auto. } { intros. apply HP. apply in_or_app; auto. }
    cbn [run]. destruct (step s c) as [s1 r1]. simpl in W', R'.
    assert (Q := IH s1 W' R' (fun a i => HA a (in_or_app _ _ _ (or_intror i))) (fun a i => HP a (in_or_app _ _ _ (or_intror i)))).
    destruct (run s1 p) as [s2 rs]. exact Q.
  Qed.

  Lemma run_same : forall p s z, near mod360 A (winds s0) (winds s) -> near reduce_angle P (rows s0) (rows s) ->
    winds z = winds s0 -> rows z = rows s0 -> tables s = tables z -> clouds s = clouds z ->
    (forall a, In a (flat_map speeds_of p) -> ~ A a) -> (forall a, In a (flat_map angles_of p) -> A a) ->
    (forall a, In a (flat_map points_of p) -> P a) ->
    let z' := fst (run z (map (freeze s0) p)) in
    snd (run s p) = snd (run z (map (freeze s0) p)) /\
    tables (fst (run s p)) = tables z' /\ clouds (fst (run s p)) = clouds z' /\
    winds z' = winds s0 /\ rows z' = rows s0.
  Proof.
    induction p as [|c p IH]; intros s z W Rw Zw Zr T C HS HA HP; [repeat split; auto|]. simpl in HA, HP, HS.
    destruct (step_store s c W Rw) as [W' R'].
    { intros. apply HA. apply in_or_app; auto. } { intros. apply HP. apply in_or_app; auto. }
    destruct (step_same s z c W Rw Zw Zr T C) as (E & T' & C' & Zw' & Zr').
    { intros. apply HS. apply in_or_app; auto. } { intros. apply HA. apply in_or_app; auto. }
    cbn [run map]. destruct (step s c) as [s1 r1], (step z (freeze s0 c)) as [z1 q1]. simpl in W', R', E, T', C', Zw', Zr'.
    assert (Q := IH s1 z1 W' R' Zw' Zr' T' C' (fun a i => HS a (in_or_app _ _ _ (or_intror i)))
                    (fun a i => HA a (in_or_app _ _ _ (or_intror i))) (fun a i => HP a (in_or_app _ _ _ (or_intror i)))).
    destruct (run s1 p) as [s2 rs], (run z1 _) as [z2 qs]. simpl in *. subst. destruct Q as (-> & Q). split; auto.
  Qed.
End Step.

Lemma mod360_turns : forall x y, full_turns x y <-> y = mod360 x.
Proof.
  intros x y. split.
  - intros [B [k E]]. unfold mod360. symmetry. apply nmod_unique with (k := k); lra.
  - intros ->. split; [apply nmod_range; lra|]. apply nmod_cong.
Qed.

Lemma map_Forall2 : forall A (f : A -> A) (Q : A -> A -> Prop) l, (forall x, Q x (f x)) -> Forall2 Q l (map f l).
Proof. induction l; simpl; constructor; auto. Qed.

Lemma reduce_same_but_angle : forall p, same_but_angle p (reduce_angle p).
Proof. intros [[a b] c]. repeat split; try reflexivity; unfold reduce_angle, pws, pwa, pbs; simpl; try apply (nmod_range b 360); try lra. apply nmod_cong. Qed.

(** ** Theorems *)

(** No program can tell from the diagrams and the answers whether the calls write
    to its arrays, as long as no array is handed over both as wind speeds and as
    wind angles. *)
Theorem diagrams_do_not_share : forall s p,
  (forall a, In a (flat_map speeds_of p) -> ~ In a (flat_map angles_of p)) ->
  let copied := run s (map (freeze s) p) in
  snd (run s p) = snd copied /\
  tables (fst (run s p)) = tables (fst copied) /\ clouds (fst (run s p)) = clouds (fst copied) /\
  winds (fst copied) = winds s /\ rows (fst copied) = rows s.
Proof.
  intros s p D. apply (run_same (fun a => In a (flat_map angles_of p)) (fun a => In a (flat_map points_of p))); auto using near_refl.
Qed.
Print Assumptions diagrams_do_not_share.

(** Whatever a program does, an array of the caller ends up as it was, or with all
    angles brought into the range from 0 to 360; the latter only if it was handed
    over as wind angles (as points to convert or to add).  Arrays handed over as
    wind speeds, and points from which a cloud of true winds is made, are never
    changed. *)
Theorem arguments_only_reduced : forall s p,
  (forall a, aread (winds (fst (run s p))) a = aread (winds s) a \/
     (In a (flat_map angles_of p) /\ Forall2 full_turns (aread (winds s) a) (aread (winds (fst (run s p))) a))) /\
  (forall a, aread (rows (fst (run s p))) a = aread (rows s) a \/
     (In a (flat_map points_of p) /\ Forall2 same_but_angle (aread (rows s) a) (aread (rows (fst (run s p))) a))).
Proof.
  intros s p.
  destruct (run_store (fun a => In a (flat_map angles_of p)) (fun a => In a (flat_map points_of p)) s p s) as [[_ W] [_ Q]];
    auto using near_refl.
  split; intros a.
  - destruct (W a) as [E|[i E]]; auto. right. split; auto. rewrite E. apply map_Forall2. intros. now apply mod360_turns.
  - destruct (Q a) as [E|[i E]]; auto. right. split; auto. rewrite E. apply map_Forall2. apply reduce_same_but_angle.
Qed.
Print Assumptions arguments_only_reduced.

(** Arrays whose angles are in the range already survive every program. *)
Theorem arguments_kept_partial : forall s p,
  (forall a, Forall (fun x => 0 <= x < 360) (aread (winds s) a)) ->
  (forall a, Forall (fun q => 0 <= pwa q < 360) (aread (rows s) a)) ->
  (forall a, aread (winds (fst (run s p))) a = aread (winds s) a) /\
  (forall a, aread (rows (fst (run s p))) a = aread (rows s) a).
Proof.
  intros s p HW HR.
  destruct (run_store (fun a => In a (flat_map angles_of p)) (fun a => In a (flat_map points_of p)) s p s) as [[_ W] [_ Q]];
    auto using near_refl.
  split; intros a.
  - destruct (W a) as [E|[i E]]; auto. rewrite E. rewrite <- map_id. apply map_ext_in. intros x X.
    specialize (HW a). rewrite Forall_forall in HW. apply nmod_small. now apply HW.
  - destruct (Q a) as [E|[i E]]; auto. rewrite E. rewrite <- map_id. apply map_ext_in. intros [[x y] z] X.
    specialize (HR a). rewrite Forall_forall in HR. specialize (HR _ X). unfold reduce_angle, pws, pwa, pbs in *. simpl in *.
    rewrite nmod_small; auto.
Qed.
Print Assumptions arguments_kept_partial.

(** ** When exactly an array is written *)

Lemma nltb_iff : forall x y : R, nltb x y = true <-> x < y.
Proof. intros. change (nltb x y) with (Rltb x y). unfold Rltb. destruct (Rlt_dec x y); split; intros; auto; try discriminate; contradiction. Qed.
Lemma nleb_iff : forall x y : R, nleb x y = true <-> x <= y.
Proof. intros. change (nleb x y) with (Rleb x y). unfold Rleb. destruct (Rle_dec x y); split; intros; auto; try discriminate; contradiction. Qed.
Lemma neqb_iff : forall x y : R, neqb x y = true <-> x = y.
Proof. intros. change (neqb x y) with (Reqb x y). unfold Reqb. destruct (Req_EM_T x y); split; intros; auto; try discriminate; contradiction. Qed.

Lemma turns_reduced : forall l, Forall2 full_turns l (map mod360 l).
Proof. intros. apply map_Forall2. intros. now apply mod360_turns. Qed.

Lemma exists_lt : forall l, existsb (fun x : R => nltb x (nofZ 0)) l = true <-> exists x, In x l /\ x < 0.
Proof.
  intros. rewrite existsb_exists. split; intros (x & i & h); exists x; split; auto; apply nltb_iff; auto.
Qed.

(** A new table: the array of angles is reduced if the wind speeds are accepted,
    whether or not the call succeeds. *)
Theorem new_table_writes : forall s ws a bsps,
  let speeds := value (winds s) ws in
  let after := aread (winds (fst (step s (MkTable ws (Ref a) bsps)))) a in
  (speeds <> [] -> (forall x, In x speeds -> 0 <= x) -> Forall2 full_turns (aread (winds s) a) after) /\
  (speeds = [] \/ (exists x, In x speeds /\ x < 0) -> after = aread (winds s) a).
Proof.
  intros s ws a bsps speeds after.
  destruct (existsb (fun x : R => nltb x (nofZ 0)) speeds) eqn:EX.
  - split.
    + intros _ P. apply exists_lt in EX. destruct EX as (x & i & L). specialize (P x i). lra.
    + intros _. unfold after, step. fold speeds. unfold build_ws. destruct speeds; auto. rewrite EX. reflexivity.
  - split.
    + intros N _. unfold after, step. fold speeds. unfold build_ws. destruct speeds as [|x l] eqn:ES; [congruence|].
      rewrite EX. match goal with |- Forall2 _ _ ?u => assert (EU : u = aread (inplace mod360 (winds s) (Ref a)) a) end.
      { destruct (table_new _ _ _); reflexivity. }
      rewrite EU, inplace_read. apply turns_reduced.
    + intros [E|E].
      * unfold after, step. fold speeds. rewrite E. reflexivity.
      * apply exists_lt in E. congruence.
Qed.
Print Assumptions new_table_writes.

(** Item access: the array of angles is reduced if the wind speeds are in the
    table, whether or not the angles are. *)
Theorem item_writes : forall s t tab ws a, nth_error (tables s) t = Some tab ->
  let speeds := value (winds s) ws in
  let after := aread (winds (fst (step s (Item t ws (Ref a))))) a in
  (speeds <> [] -> (forall x, In x speeds -> 0 <= x /\ In x (t_ws tab)) -> Forall2 full_turns (aread (winds s) a) after) /\
  (speeds = [] \/ (exists x, In x speeds /\ (x < 0 \/ ~ In x (t_ws tab))) -> after = aread (winds s) a).
Proof.
  intros s t tab ws a ET speeds after. unfold after, step. rewrite ET. fold speeds.
  assert (M : forall x, nmem x (t_ws tab) = true <-> In x (t_ws tab)).
  { intros x. unfold nmem. rewrite existsb_exists. split.
    - intros (y & i & e). apply neqb_iff in e. now subst.
    - intros i. exists x. split; auto. now apply neqb_iff. }
  unfold get_indices, normalize_ws.
  destruct (existsb (fun x : R => nltb x (nofZ 0)) speeds) eqn:EX.
  - split; [|reflexivity]. intros _ P. apply exists_lt in EX. destruct EX as (x & i & L). destruct (P x i). lra.
  - simpl. destruct speeds as [|x l] eqn:ES.
    + split; [congruence|reflexivity].
    + rewrite <- ES in *. destruct (forallb (fun x => nmem x (t_ws tab)) speeds) eqn:EF.
      * split.
        -- intros _ _. cbn [fst winds]. change (awrite (winds s) a (map mod360 (aread (winds s) a))) with (inplace mod360 (winds s) (Ref a)).
           rewrite inplace_read. apply turns_reduced.
        -- intros [E|(y & i & [L|N])]; [congruence| |].
           ++ assert (existsb (fun x : R => nltb x (nofZ 0)) speeds = true) by (apply exists_lt; eauto). congruence.
           ++ rewrite forallb_forall in EF. specialize (EF y i). apply M in EF. tauto.
      * split; [|reflexivity]. intros _ P. assert (forallb (fun x => nmem x (t_ws tab)) speeds = true); [|congruence].
        apply forallb_forall. intros y i. apply M. now apply P.
Qed.
Print Assumptions item_writes.

(** Adding points and converting: the angles are reduced if the wind speeds are
    positive (not negative), otherwise the array is as before and the call raises. *)
Theorem points_write : forall s,
  (forall c cloud a, nth_error (clouds s) c = Some cloud ->
     let after := step s (AddPts c false (Ref a)) in
     ((forall p, In p (aread (rows s) a) -> 0 < pws p) ->
        Forall2 same_but_angle (aread (rows s) a) (aread (rows (fst after)) a) /\ snd after = Ok Done) /\
     ((exists p, In p (aread (rows s) a) /\ pws p <= 0) ->
        fst after = s /\ snd after = Raise ValueError)) /\
  (forall d a,
     let after := step s (Convert d (Ref a)) in
     ((forall p, In p (aread (rows s) a) -> 0 <= pws p) ->
        Forall2 same_but_angle (aread (rows s) a) (aread (rows (fst after)) a) /\
        exists l, snd after = Ok (Rows l) /\ length l = length (aread (rows s) a)) /\
     ((exists p, In p (aread (rows s) a) /\ pws p < 0) ->
        rows (fst after) = rows s /\ snd after = Raise TypeError)).
Proof.
  intros s. split.
  - intros c cloud a EC after. unfold after, step. rewrite EC. cbn [value].
    destruct (existsb (fun p => nleb (pws p) 0) (aread (rows s) a)) eqn:EX.
    + split; [|auto]. intros P. apply existsb_exists in EX. destruct EX as (p & i & L). apply nleb_iff in L. specialize (P p i). lra.
    + split.
      * intros _. split; auto. cbn [fst rows]. rewrite inplace_read. apply map_Forall2. apply reduce_same_but_angle.
      * intros (p & i & L). assert (existsb (fun p => nleb (pws p) 0) (aread (rows s) a) = true); [|congruence].
        apply existsb_exists. exists p. split; auto. now apply nleb_iff.
  - intros d a after. unfold after, step, convert. cbn [value].
    destruct (existsb (fun p => nltb (pws p) 0) (aread (rows s) a)) eqn:EX.
    + split; [|auto]. intros P. apply existsb_exists in EX. destruct EX as (p & i & L). apply nltb_iff in L. specialize (P p i). lra.
    + split.
      * intros _. cbn [fst rows snd]. rewrite inplace_read. split; [apply map_Forall2; apply reduce_same_but_angle|].
        eexists. split; [reflexivity|]. now rewrite !map_length.
      * intros (p & i & L). assert (existsb (fun p => nltb (pws p) 0) (aread (rows s) a) = true); [|congruence].
        apply existsb_exists. exists p. split; auto. now apply nltb_iff.
Qed.
Print Assumptions points_write.

(** ** Counterexamples *)

Lemma mod_m90 : nmod (-90) 360 = 270.
Proof. apply nmod_unique with (k := (-1)%Z); lra. Qed.
Lemma mod_400 : nmod 400 360 = 40.
Proof. apply nmod_unique with (k := 1%Z); lra. Qed.

(** A table that is refused because the boat speeds do not fit has changed the
    array of wind angles. *)
Theorem arguments_kept_refuted : exists s ws bsps,
  aread (winds s) 0 = [-90] /\
  snd (step s (MkTable ws (Ref 0) bsps)) = Raise ValueError /\
  aread (winds (fst (step s (MkTable ws (Ref 0) bsps)))) 0 = [270].
Proof.
  exists (mkA [[-90]] [] [] []), (Val [6]), (Some (Nd1 [])).
  assert (B : build_ws (RIter [6]) = Ok [6]).
  { unfold build_ws. simpl existsb. change (nltb 6 0) with (Rltb 6 0). rewrite Rltb_false; auto. lra. }
  unfold step. cbn [value winds]. rewrite B.
  assert (N : forall wa, table_new (RIter [6]) (RIter wa) (Some (Nd1 [])) = Raise ValueError).
  { intros. unfold table_new. rewrite B. destruct wa; reflexivity. }
  rewrite N. repeat split. cbn [fst winds]. rewrite inplace_read. cbn [aread nth map]. unfold mod360. now rewrite mod_m90.
Qed.
Print Assumptions arguments_kept_refuted.

(** An array handed over as wind angles and then as wind speeds gives another
    table than a copy of it. *)
Theorem shared_roles_refuted : exists s p,
  map t_ws (tables (fst (run s p))) = [[6]; [40]] /\
  map t_ws (tables (fst (run s (map (freeze s) p)))) = [[6]; [400]].
Proof.
  exists (mkA [[400]] [] [] []), [MkTable (Val [6]) (Ref 0) None; MkTable (Ref 0) (Val [90]) None].
  assert (B : forall x, 0 <= x -> build_ws (RIter [x]) = Ok [x]).
  { intros x X. unfold build_ws. simpl existsb. change (nltb x 0) with (Rltb x 0). rewrite Rltb_false; auto. }
  assert (Tn : forall x y, 0 <= x -> table_new (RIter [x]) (RIter [y]) None = Ok (zero_table [x] [nmod y 360])).
  { intros x y X. unfold table_new. rewrite B by auto. reflexivity. }
  split.
  - cbn [run]. unfold step at 1. cbn [value winds inplace]. rewrite B by lra.
    cbn [aread nth awrite map]. rewrite Tn by lra. unfold step. cbn [value winds inplace aread nth]. unfold mod360 at 1. rewrite mod_400.
    rewrite B by lra. unfold mod360. rewrite mod_400. rewrite Tn by lra. reflexivity.
  - cbn [map freeze]. unfold freeze1. cbn [value winds aread nth]. cbn [run]. unfold step at 1. cbn [value winds inplace]. rewrite B by lra.
    rewrite Tn by lra. unfold step. cbn [value winds inplace]. rewrite B by lra. rewrite Tn by lra. reflexivity.
Qed.
Print Assumptions shared_roles_refuted.

(** The hypotheses are met, with an array that the run does change. *)
Definition ex_state : astate := mkA [[-90]; [6]] [[(5, 400, 3)]] [] [].
Definition ex_program : list call :=
  [MkTable (Ref 1) (Ref 0) None; Item 0 (Ref 1) (Ref 0); MkCloud false (Ref 0); AddPts 0 false (Ref 0)].

Example roles_differ : forall a, In a (flat_map speeds_of ex_program) -> ~ In a (flat_map angles_of ex_program).
Proof. simpl. intuition lia. Qed.
Example program_writes : exists ts cs, fst (run ex_state ex_program) = mkA [[270]; [6]] [[(5, 40, 3)]] ts cs.
Proof.
  assert (B : build_ws (RIter [6]) = Ok [6]).
  { unfold build_ws. simpl existsb. change (nltb 6 0) with (Rltb 6 0). rewrite Rltb_false; auto. lra. }
  assert (Tn : table_new (RIter [6]) (RIter [270]) None = Ok (zero_table [6] [nmod 270 360])).
  { unfold table_new. rewrite B. reflexivity. }
  unfold ex_program, ex_state. do 2 eexists. cbn [run].
  unfold step at 1. cbn [value winds inplace aread nth awrite map]. rewrite B. unfold mod360. rewrite mod_m90, Tn.
  unfold step at 1. cbn [tables nth_error app value winds inplace aread nth awrite map rows clouds].
  assert (G : get_indices normalize_ws (t_ws (zero_table [6] [nmod 270 360])) (Some [6]) = Ok [0%nat]).
  { change (t_ws (zero_table [6] [nmod 270 360])) with [6]. unfold get_indices, normalize_ws. cbn [existsb].
    change (nltb 6 (nofZ 0)) with (Rltb 6 0). rewrite Rltb_false by lra. cbn.
    rewrite !Reqb_refl. reflexivity. }
  rewrite G. unfold mod360. rewrite (nmod_small 270) by lra.
  unfold step at 1. cbn [tables nth_error app value winds inplace aread nth awrite map rows clouds].
  unfold step. cbn [tables nth_error app value winds inplace aread nth awrite map rows clouds existsb].
  change (nleb (pws (5, 400, 3)) 0) with (Rleb 5 0). rewrite Rleb_false by lra. cbn [orb fst winds rows].
  assert (Er : reduce_angle (5, 400, 3) = (5, 40, 3)).
  { unfold reduce_angle, pws, pwa, pbs. cbn [fst snd]. change (@nofZ R RNum 360) with 360. now rewrite mod_400. }
  rewrite Er. reflexivity.
Qed.
Example reduced_arrays : forall a, Forall (fun x => 0 <= x < 360) (aread [[6; 90]; [0]] a).
Proof. intros [|[|[|a]]]; simpl; repeat constructor; lra. Qed.

Lemma list_set_nth : forall A (l : list A) i x j, (i < length l)%nat ->
  nth_error (list_set l i x) j = if Nat.eqb j i then Some x else nth_error l j.
Proof.
  intros A l. unfold list_set. induction l as [|y l IH]; intros i x j L; [simpl in L; lia|].
  destruct i as [|i]; destruct j as [|j]; try reflexivity. cbn [firstn skipn app nth_error Nat.eqb].
  simpl in L. rewrite <- IH by lia. reflexivity.
Qed.
Lemma list_set_length : forall A (l : list A) i x, (i < length l)%nat -> length (list_set l i x) = length l.
Proof. intros. unfold list_set. rewrite app_length, firstn_length_le by lia. cbn [length]. rewrite skipn_length. lia. Qed.

Lemma change_keeps_axes : forall (t t' : table R) new ws wa, change_entries t new ws wa = Ok t' -> t_ws t' = t_ws t /\ t_wa t' = t_wa t.
Proof.
  intros t t' new ws wa H. unfold change_entries in H.
  destruct (get_indices normalize_ws (t_ws t) ws); [|discriminate]. cbn [rbind] in H.
  destruct (get_indices normalize_wa (t_wa t) wa); [|discriminate]. cbn [rbind] in H.
  match type of H with (if ?c then _ else _) = _ => destruct c end; [|discriminate]. injection H as <-. auto.
Qed.

(** A call changes at most the diagram it is made on: a table keeps its winds and gets other entries only by
    [change_entries], a cloud keeps its points, in order, and gets one more behind them per added point.  New diagrams
    come behind the old ones.  A call that raises changes no diagram. *)
Theorem calls_change_one_diagram : forall s c,
  let after := fst (step s c) in
  let answer := snd (step s c) in
  (forall i tab, nth_error (tables s) i = Some tab -> exists tab', nth_error (tables after) i = Some tab' /\
     t_ws tab' = t_ws tab /\ t_wa tab' = t_wa tab /\
     (tab' = tab \/ exists new ws wa, c = Change i new ws wa /\ answer = Ok Done)) /\
  (forall i cloud, nth_error (clouds s) i = Some cloud -> exists more, nth_error (clouds after) i = Some (cloud ++ more) /\
     (more = [] \/ exists apparent pts, c = AddPts i apparent pts /\ length more = length (value (rows s) pts))) /\
  (length (tables after) = length (tables s) +
     match c, answer with MkTable _ _ _, Ok _ => 1 | _, _ => 0 end)%nat /\
  (length (clouds after) = length (clouds s) +
     match c, answer with MkCloud _ _, Ok _ => 1 | _, _ => 0 end)%nat /\
  (forall e, answer = Raise e -> tables after = tables s /\ clouds after = clouds s).
Proof.
  intros s c.
  set (good := fun (ts : list (table R)) (cs : list (list out_row)) (answer : result answer) =>
  (forall i tab, nth_error (tables s) i = Some tab -> exists tab', nth_error ts i = Some tab' /\
     t_ws tab' = t_ws tab /\ t_wa tab' = t_wa tab /\
     (tab' = tab \/ exists new ws wa, c = Change i new ws wa /\ answer = Ok Done)) /\
  (forall i cloud, nth_error (clouds s) i = Some cloud -> exists more, nth_error cs i = Some (cloud ++ more) /\
     (more = [] \/ exists apparent pts, c = AddPts i apparent pts /\ length more = length (value (rows s) pts))) /\
  (length ts = length (tables s) + match c, answer with MkTable _ _ _, Ok _ => 1 | _, _ => 0 end)%nat /\
  (length cs = length (clouds s) + match c, answer with MkCloud _ _, Ok _ => 1 | _, _ => 0 end)%nat /\
  (forall e, answer = Raise e -> ts = tables s /\ cs = clouds s)).
  change (good (tables (fst (step s c))) (clouds (fst (step s c))) (snd (step s c))).
  assert (KT : forall ans i (tab : table R), nth_error (tables s) i = Some tab -> exists tab', nth_error (tables s) i = Some tab' /\
     t_ws tab' = t_ws tab /\ t_wa tab' = t_wa tab /\ (tab' = tab \/ exists new ws wa, c = Change i new ws wa /\ ans = Ok Done)) by (intros; eauto 8).
  assert (KC : forall i (cl : list out_row), nth_error (clouds s) i = Some cl ->
     exists more, nth_error (clouds s) i = Some (cl ++ more) /\
     (more = [] \/ exists apparent pts, c = AddPts i apparent pts /\ length more = length (value (rows s) pts))).
  { intros i cl H. exists []. rewrite app_nil_r. auto. }
  assert (SAME : forall ans, (forall e, ans = Raise e -> True) ->
    (match c, ans with MkTable _ _ _, Ok _ => False | MkCloud _ _, Ok _ => False | _, _ => True end) -> good (tables s) (clouds s) ans).
  { intros ans _ H. repeat split; auto.
    - destruct c, ans; tauto || lia.
    - destruct c, ans; tauto || lia. }
  assert (GT : forall i (tab new : table R), nth_error (tables s) i = Some tab -> nth_error (tables s ++ [new]) i = Some tab).
  { intros i tab new H. rewrite nth_error_app1; auto. apply nth_error_Some. congruence. }
  assert (GC : forall i (cl new : list out_row), nth_error (clouds s) i = Some cl -> nth_error (clouds s ++ [new]) i = Some cl).
  { intros i cl new H. rewrite nth_error_app1; auto. apply nth_error_Some. congruence. }
  assert (CL : forall d h pts h' l, convert d h pts = (h', Ok l) -> length l = length (value h pts)).
  { intros d h pts h' l H. unfold convert in H. destruct (existsb _ _); [discriminate|]. injection H as _ <-.
    rewrite map_length. destruct pts; auto. cbn [value]. rewrite inplace_read. apply map_length. }
  assert (NEWC : forall ap pts l, c = MkCloud ap pts -> good (tables s) (clouds s ++ [l]) (Ok Done)).
  { intros ap pts l ->. split; [apply KT|]. split; [|split; [lia|split; [rewrite app_length; reflexivity|discriminate]]].
    intros i cl H. exists []. rewrite app_nil_r. auto. }
  assert (MORE : forall k ap pts cl l, c = AddPts k ap pts -> nth_error (clouds s) k = Some cl -> length l = length (value (rows s) pts) ->
    good (tables s) (list_set (clouds s) k (cl ++ l)) (Ok Done)).
  { intros k ap pts cl l -> E L. assert (k < length (clouds s))%nat as LT by (apply nth_error_Some; congruence).
    split; [apply KT|]. split; [|split; [lia|split; [rewrite list_set_length by auto; lia|discriminate]]].
    intros i cl' H. rewrite list_set_nth by auto. destruct (Nat.eqb_spec i k) as [->|N].
    - rewrite E in H. injection H as <-. exists l. split; auto. right. eauto.
    - apply KC. auto. }
  unfold step. destruct c as [ws wa bsps|t ws wa|t new ws wa|ap pts|k ap pts|d pts].
  - destruct (build_ws _); cbn [fst snd]; [|apply SAME; auto]. cbv zeta.
    destruct (table_new _ _ _) as [t|e]; cbn [fst snd tables clouds]; [|apply SAME; auto].
    split; [|split; [apply KC|split; [rewrite app_length; reflexivity|split; [lia|discriminate]]]].
    intros i tab H. exists tab. auto.
  - destruct (nth_error (tables s) t) as [tab|]; cbn [fst snd]; [|apply SAME; auto].
    destruct (get_indices _ _ _); cbn [fst snd tables clouds]; apply SAME; auto.
  - destruct (nth_error (tables s) t) as [tab|] eqn:E; cbn [fst snd]; [|apply SAME; auto]. cbv zeta.
    destruct (get_indices _ _ _); cbn [fst snd tables clouds]; [|apply SAME; auto].
    destruct (change_entries _ _ _ _) as [tab'|e] eqn:CE; cbn [fst snd tables clouds]; [|apply SAME; auto].
    assert (t < length (tables s))%nat as LT by (apply nth_error_Some; congruence).
    apply change_keeps_axes in CE.
    split; [|split; [apply KC|split; [rewrite list_set_length by auto; lia|split; [lia|discriminate]]]].
    intros i tab0 H. rewrite list_set_nth by auto. destruct (Nat.eqb_spec i t) as [->|N].
    + rewrite E in H. injection H as <-. exists tab'. repeat split; try tauto. right. eauto 6.
    + exists tab0. auto.
  - destruct ap.
    + destruct (convert TO_TRUE (rows s) pts) as [h [l|e]]; cbn [fst snd tables clouds]; [eapply NEWC; eauto|apply SAME; auto].
    + cbn [fst snd tables clouds]. eapply NEWC; eauto.
  - destruct (nth_error (clouds s) k) as [cl|] eqn:E; cbn [fst snd]; [|apply SAME; auto]. destruct ap.
    + destruct (convert TO_TRUE (rows s) pts) as [h [l|e]] eqn:CV; cbn [fst snd tables clouds]; [|apply SAME; auto].
      eapply MORE; eauto.
    + destruct (existsb _ _); cbn [fst snd tables clouds]; [apply SAME; auto|]. eapply MORE; eauto.
      now rewrite !map_length.
  - destruct (convert d (rows s) pts) as [h r]. cbn [fst snd tables clouds]. apply SAME; auto.
Qed.
Print Assumptions calls_change_one_diagram.

(** One array handed over as wind speeds and as wind angles of a table without boat speeds: the reduction of the
    angles changes the wind speeds of the table too. *)
Theorem same_array_twice : forall s a, aread (winds s) a <> [] -> (forall x, In x (aread (winds s) a) -> 0 <= x) ->
  exists t reduced, tables (fst (step s (MkTable (Ref a) (Ref a) None))) = tables s ++ [t] /\
    Forall2 full_turns (aread (winds s) a) reduced /\ Permutation (t_ws t) reduced /\ Permutation (t_wa t) reduced.
Proof.
  intros s a N P. set (l := aread (winds s) a) in *.
  assert (B : forall k, k <> [] -> (forall x, In x k -> 0 <= x) -> build_ws (RIter k) = Ok k).
  { intros k K Q. unfold build_ws. destruct (existsb (fun x : R => nltb x (nofZ 0)) k) eqn:EX.
    - apply exists_lt in EX. destruct EX as (x & i & L). specialize (Q x i). lra.
    - destruct k; congruence. }
  assert (M : forall x, In x (map mod360 l) -> 0 <= x < 360).
  { intros x I. apply in_map_iff in I. destruct I as [y [<- _]]. apply (proj1 (proj2 (mod360_turns y _) eq_refl)). }
  assert (ML : map mod360 l <> []) by (destruct l; [congruence|discriminate]).
  assert (MM : map mod360 (map mod360 l) = map mod360 l).
  { rewrite map_map. apply map_ext. intros. apply mod360_idem. }
  assert (W : build_wa (RIter (map mod360 l)) = Ok (map mod360 l)).
  { unfold build_wa. destruct (map mod360 l) as [|x q] eqn:E; [congruence|]. f_equal. exact MM. }
  exists (zero_table (map mod360 l) (map mod360 l)), (map mod360 l).
  unfold step. cbn [value]. fold l. rewrite B by auto. cbv zeta. rewrite inplace_read. fold l.
  unfold table_new. rewrite B, W by (auto; intros x I; apply M in I; lra). cbn [rbind fst tables zero_table t_ws t_wa].
  split; [reflexivity|]. split; [apply turns_reduced|]. split; apply py_sorted_perm.
Qed.
Print Assumptions same_array_twice.

Example same_array_twice_meets : let s := mkA [[400; 30]] [] [] [] in
  aread (winds s) 0 <> [] /\ (forall x, In x (aread (winds s) 0) -> 0 <= x) /\ ~ Forall2 full_turns (aread (winds s) 0) [400; 30].
Proof.
  cbn. split; [discriminate|]. split; [intros x [<-|[<-|[]]]; lra|].
  intros F. inversion F as [|? ? ? ? [B _] _]. lra.
Qed.
