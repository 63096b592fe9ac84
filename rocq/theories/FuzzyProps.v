(** * Properties of the fuzzy logic (C50, C51) *)

From Coq Require Import String.
From Coq Require Import List Bool Arith ZArith Reals Lra Lia.
From Verif Require Import Py Num FuzzyModel.
Import ListNotations.
Open Scope string_scope.
Open Scope list_scope.
Open Scope R_scope.

(* ------------------------------------------------------------------ *)
(** ** Specification *)

(** The truth of "v is larger than a" with sharpness s. *)
Definition larger (s a v : R) : R := 1 / (1 + exp (- (s * (v - a)))).

Definition option_default {A} (d : A) (o : option A) : A := match o with None => d | Some x => x end.

(** The number below a sequence of keys. *)
Fixpoint lookup (x : input) (path : list string) : option R :=
  match x, path with
  | INum v, [] => Some v
  | IItems l, k :: r =>
      match find (fun kv => String.eqb (fst kv) k) l with Some kv => lookup (snd kv) r | None => None end
  | _, _ => None
  end.

(** Truth of an expression for the default sharpness [d]: minimum, maximum, complement;
    [path] are the items taken from the outside. *)
Fixpoint truth (d : R) (e : fexpr) (path : list string) (x : input) : option R :=
  let both f a b := match a, b with Some u, Some v => Some (f u v) | _, _ => None end in
  match e with
  | FCmp key s op a =>
      match lookup x (path ++ match key with None => [] | Some k => [k] end) with
      | None => None
      | Some v =>
          let s := option_default d s in
          Some (match op with
                | Clt | Cle => 1 - larger s a v
                | Cgt | Cge => larger s a v
                | Ceq => Rmin (1 - larger s a v) (larger s a v)
                end)
      end
  | FAnd e1 e2 => both Rmin (truth d e1 path x) (truth d e2 path x)
  | FOr e1 e2 => both Rmax (truth d e1 path x) (truth d e2 path x)
  | FNot e => match truth d e path x with Some v => Some (1 - v) | None => None end
  | FItem e k => truth d e (path ++ [k]) x
  end.

(** No [x(s) == a] with an own sharpness. *)
Fixpoint no_sharp_eq (e : fexpr) : bool :=
  match e with
  | FCmp _ (Some _) Ceq _ => false
  | FCmp _ _ _ _ => true
  | FAnd e1 e2 | FOr e1 e2 => no_sharp_eq e1 && no_sharp_eq e2
  | FNot e | FItem e _ => no_sharp_eq e
  end.

(* ------------------------------------------------------------------ *)
(** ** Lemmas *)

Lemma exp_pos' : forall x, 0 < 1 + exp x.
Proof. intros. pose proof (exp_pos x). lra. Qed.

Lemma sigmoid_gt : forall a s v, sigmoid a s (-1) (INum v) = Ok (larger s a v).
Proof. intros. unfold sigmoid, larger. cbn. do 5 f_equal. ring. Qed.

Lemma sigmoid_lt : forall a s v, sigmoid a s 1 (INum v) = Ok (1 - larger s a v).
Proof.
  intros. unfold sigmoid, larger. cbn. f_equal. rewrite Rmult_1_l. rewrite exp_Ropp.
  pose proof (exp_pos (s * (v - a))). field. lra.
Qed.

Lemma larger_range : forall s a v, 0 < larger s a v < 1.
Proof.
  intros. unfold larger. set (e := exp _). assert (0 < e) by apply exp_pos. split.
  - apply Rdiv_lt_0_compat; lra.
  - apply Rmult_lt_reg_r with (1 + e); [lra|]. unfold Rdiv. rewrite Rmult_assoc, Rinv_l by lra. lra.
Qed.

(** [f] computes [t] below [path]: it succeeds exactly on the inputs with a truth. *)
Definition computes (f : fbool) (t : list string -> input -> option R) : Prop :=
  forall x, match t [] x with Some r => f x = Ok r | None => exists e, f x = Raise e end.

(** The item [path] of an input. *)
Fixpoint descend (x : input) (path : list string) : option input :=
  match path with
  | [] => Some x
  | k :: r => match get_item x k with Ok y => descend y r | Raise _ => None end
  end.

Lemma lookup_descend : forall path rest x,
  lookup x (path ++ rest) = match descend x path with Some y => lookup y rest | None => None end.
Proof.
  induction path as [|k path IH]; intros rest x; [reflexivity|].
  destruct x as [v|l]; [reflexivity|]. cbn. destruct (find _ l); [apply IH | reflexivity].
Qed.

Lemma truth_path : forall d e path x,
  truth d e path x = match descend x path with Some y => truth d e [] y | None => None end.
Proof.
  induction e as [key s op a|e1 IH1 e2 IH2|e1 IH1 e2 IH2|e IH|e IH k]; intros path x; cbn [truth].
  - rewrite lookup_descend. destruct (descend x path); reflexivity.
  - rewrite IH1, IH2. destruct (descend x path); reflexivity.
  - rewrite IH1, IH2. destruct (descend x path); reflexivity.
  - rewrite IH. destruct (descend x path); reflexivity.
  - rewrite IH. cbn [app]. assert (H : forall p y, descend y (p ++ [k]) =
      match descend y p with Some z => descend z [k] | None => None end).
    { induction p as [|q p IHp]; intros y; [reflexivity|]. cbn. destruct (get_item y q); auto. }
    rewrite H. destruct (descend x path) as [y|]; [|reflexivity]. rewrite IH. reflexivity.
Qed.


(** A comparison of a variable, pointwise. *)
Lemma cmp_item : forall key d s op a x, (op = Ceq -> s = d) ->
  fst (var_cmp (mkVar key d s) op a) x =
  (do y <- (match key with None => Ok x | Some k => get_item x k end);
   match y with
   | IItems _ => Raise TypeError
   | INum u => Ok (match op with
       | Clt | Cle => 1 - larger s a u
       | Cgt | Cge => larger s a u
       | Ceq => Rmin (1 - larger s a u) (larger s a u) end)
   end).
Proof.
  intros key d s op a x Hs.
  assert (Q : forall c, (c = 1 \/ c = -1) -> fst (var_truth (mkVar key d s) a c) x =
     (do y <- (match key with None => Ok x | Some k => get_item x k end);
      match y with
      | IItems _ => Raise TypeError
      | INum u => Ok (if Req_EM_T c 1 then 1 - larger s a u else larger s a u) end)).
  { intros c Hc. unfold var_truth, read_sharpness. cbn [fv_next fv_key fv_sharpness fst].
    assert (Q0 : forall y, sigmoid a s c y = match y with IItems _ => Raise TypeError
      | INum u => Ok (if Req_EM_T c 1 then 1 - larger s a u else larger s a u) end).
    { intros [u|l]; [|reflexivity]. destruct Hc as [->| ->].
      - rewrite sigmoid_lt. destruct (Req_EM_T 1 1); [reflexivity|lra].
      - rewrite sigmoid_gt. destruct (Req_EM_T (-1) 1); [lra|reflexivity]. }
    destruct key as [k|]; [|cbn [rbind]; apply Q0]. unfold fb_item.
    destruct (get_item x k) as [y|e]; cbn [rbind]; [apply Q0 | reflexivity]. }
  destruct op.
  - cbn [var_cmp]. unfold var_lt. rewrite Q by auto. destruct (Req_EM_T 1 1); [reflexivity|lra].
  - cbn [var_cmp]. unfold var_le, var_lt. rewrite Q by auto. destruct (Req_EM_T 1 1); [reflexivity|lra].
  - cbn [var_cmp]. unfold var_gt. rewrite Q by auto. destruct (Req_EM_T (-1) 1); [lra|reflexivity].
  - cbn [var_cmp]. unfold var_ge, var_gt. rewrite Q by auto. destruct (Req_EM_T (-1) 1); [lra|reflexivity].
  - assert (s = d) by auto. subst s. cbn [var_cmp]. unfold var_eq.
    pose proof (Q 1 (or_introl eq_refl)) as Q1. pose proof (Q (-1) (or_intror eq_refl)) as Q2.
    unfold var_lt, var_gt in *. unfold var_truth, read_sharpness in *. cbn [fv_next fv_key fv_sharpness fst] in *.
    unfold fb_and. rewrite Q1, Q2.
    destruct (match key with None => Ok x | Some k => get_item x k end) as [[u|l]|e]; cbn [rbind]; try reflexivity.
    destruct (Req_EM_T 1 1); [|lra]. destruct (Req_EM_T (-1) 1); [lra|]. rewrite nmin_R. reflexivity.
Qed.

Lemma cmp_state : forall v op a, snd (var_cmp v op a) = mkVar (fv_key v) (fv_sharpness v) (fv_sharpness v).
Proof. intros v op a. destruct op; reflexivity. Qed.

Lemma build_spec : forall e d, no_sharp_eq e = true ->
  computes (fst (build (var_new d None) e)) (truth d e) /\ snd (build (var_new d None) e) = var_new d None.
Proof.
  induction e as [key s op a|e1 IH1 e2 IH2|e1 IH1 e2 IH2|e IH|e IH k]; intros d H.
  - assert (Hs : op = Ceq -> option_default d s = d).
    { intros ->. cbn in H. destruct key, s; try discriminate; reflexivity. }
    assert (C : forall key', fst (var_cmp (match s with None => mkVar key' d d | Some s => var_call (mkVar key' d d) s end) op a)
              = fst (var_cmp (mkVar key' d (option_default d s)) op a)).
    { intros key'. destruct s; reflexivity. }
    assert (P : forall x, match truth d (FCmp key s op a) [] x with
      | Some r => fst (var_cmp (mkVar key d (option_default d s)) op a) x = Ok r
      | None => exists e, fst (var_cmp (mkVar key d (option_default d s)) op a) x = Raise e end).
    { intros x. rewrite cmp_item by auto. cbn [truth app]. destruct key as [k|].
      - cbn [lookup]. destruct x as [u|l]; [cbn; eauto|]. cbn [lookup get_item].
        destruct (find _ l) as [[k' y]|]; cbn [rbind snd]; [|eauto]. destruct y as [u|l']; cbn [lookup]; eauto.
      - destruct x as [u|l]; cbn [lookup rbind]; eauto. }
    destruct key as [k|]; cbn [build var_item read_sharpness var_new fv_next fv_key fv_sharpness]; split.
    + intros x. cbn [fst]. unfold var_new. cbn [fst]. rewrite C. apply P.
    + reflexivity.
    + intros x. unfold var_new. rewrite C. apply P.
    + rewrite cmp_state. destruct s; reflexivity.
  - apply andb_true_iff in H. destruct H as [H1 H2]. destruct (IH1 d H1) as [C1 S1], (IH2 d H2) as [C2 S2].
    cbn [build]. destruct (build (var_new d None) e1) as [f v1]. cbn [fst snd] in *. subst v1.
    destruct (build (var_new d None) e2) as [g v2]. cbn [fst snd] in *. split; [|auto].
    intros x. specialize (C1 x). specialize (C2 x). cbn [truth]. unfold fb_and.
    destruct (truth d e1 [] x) as [r1|].
    + rewrite C1. cbn [rbind]. destruct (truth d e2 [] x) as [r2|].
      * rewrite C2. cbn [rbind]. rewrite nmin_R. reflexivity.
      * destruct C2 as [e C2]. rewrite C2. cbn [rbind]. eauto.
    + destruct C1 as [e C1]. rewrite C1. cbn [rbind]. eauto.
  - apply andb_true_iff in H. destruct H as [H1 H2]. destruct (IH1 d H1) as [C1 S1], (IH2 d H2) as [C2 S2].
    cbn [build]. destruct (build (var_new d None) e1) as [f v1]. cbn [fst snd] in *. subst v1.
    destruct (build (var_new d None) e2) as [g v2]. cbn [fst snd] in *. split; [|auto].
    intros x. specialize (C1 x). specialize (C2 x). cbn [truth]. unfold fb_or.
    destruct (truth d e1 [] x) as [r1|].
    + rewrite C1. cbn [rbind]. destruct (truth d e2 [] x) as [r2|].
      * rewrite C2. cbn [rbind]. rewrite nmax_R. reflexivity.
      * destruct C2 as [e C2]. rewrite C2. cbn [rbind]. eauto.
    + destruct C1 as [e C1]. rewrite C1. cbn [rbind]. eauto.
  - destruct (IH d H) as [C1 S1]. cbn [build]. destruct (build (var_new d None) e) as [f v1].
    cbn [fst snd] in *. split; auto. intros x. specialize (C1 x). cbn [truth]. unfold fb_not.
    destruct (truth d e [] x).
    + rewrite C1. reflexivity.
    + destruct C1 as [e' C1]. rewrite C1. cbn [rbind]. eauto.
  - destruct (IH d H) as [C1 S1]. cbn [build]. destruct (build (var_new d None) e) as [f v1].
    cbn [fst snd] in *. split; auto. intros x. cbn [truth app]. rewrite truth_path. cbn [descend]. unfold fb_item.
    destruct (get_item x k) as [y|e']; cbn [rbind]; [apply C1 | eauto].
Qed.

(* ------------------------------------------------------------------ *)
(** ** C50 *)

(** Every expression computes its truth in fuzzy logic, for every input for which its
    items exist, and raises otherwise; afterwards the variable is as before. *)
Theorem fuzzy_truth_partial : forall e d x, no_sharp_eq e = true ->
  let (f, v) := build (var_new d None) e in
  v = var_new d None /\
  match truth d e [] x with Some r => f x = Ok r | None => exists ex, f x = Raise ex end.
Proof.
  intros e d x H. destruct (build_spec e d H) as [C S].
  destruct (build (var_new d None) e) as [f v]. cbn [fst snd] in *. split; auto. apply C.
Qed.
Print Assumptions fuzzy_truth_partial.

Lemma build_range : forall e v x r, fst (build v e) x = Ok r -> 0 <= r <= 1.
Proof.
  assert (A : forall v op a x r, fst (var_cmp v op a) x = Ok r -> 0 <= r <= 1).
  { assert (T : forall v a c x r, fst (var_truth v a c) x = Ok r -> 0 <= r <= 1).
    { intros v a c x r. unfold var_truth, read_sharpness. cbn [fst].
      assert (S : forall y r, sigmoid a (fv_next v) c y = Ok r -> 0 <= r <= 1).
      { intros [u|l] r0; cbn; [|discriminate]. intros E. injection E as <-.
        set (e := exp _). assert (0 < e) by apply exp_pos. split.
        - left. apply Rdiv_lt_0_compat; lra.
        - apply Rmult_le_reg_r with (1 + e); [lra|]. unfold Rdiv. rewrite Rmult_assoc, Rinv_l by lra. lra. }
      destruct (fv_key v); [|apply S]. unfold fb_item. destruct (get_item x s); cbn [rbind]; [apply S|discriminate]. }
    intros v op a x r. destruct op; try apply T. cbn [var_cmp]. unfold var_eq.
    destruct (var_lt v a) as [l v1] eqn:E1. destruct (var_gt v1 a) as [g v2] eqn:E2. cbn [fst]. unfold fb_and.
    destruct (l x) as [r1|] eqn:E3; cbn [rbind]; [|discriminate].
    destruct (g x) as [r2|] eqn:E4; cbn [rbind]; [|discriminate]. intros E. injection E as <-. rewrite nmin_R.
    assert (0 <= r1 <= 1) by (apply (T v a 1 x); unfold var_lt in E1; rewrite E1; exact E3).
    assert (0 <= r2 <= 1) by (apply (T v1 a (-1) x); unfold var_gt in E2; rewrite E2; exact E4).
    unfold Rmin. destruct (Rle_dec r1 r2); lra. }
  induction e as [key s op a|e1 IH1 e2 IH2|e1 IH1 e2 IH2|e IH|e IH k]; intros v x r; cbn [build].
  - destruct key as [k|].
    + destruct (var_item v k) as [w v1]. cbn [fst]. apply A.
    + apply A.
  - specialize (IH1 v). destruct (build v e1) as [f v1]. specialize (IH2 v1). destruct (build v1 e2) as [g v2].
    cbn [fst] in *. unfold fb_and. destruct (f x) as [r1|] eqn:E3; cbn [rbind]; [|discriminate].
    destruct (g x) as [r2|] eqn:E4; cbn [rbind]; [|discriminate]. intros E. injection E as <-. rewrite nmin_R.
    apply IH1 in E3. apply IH2 in E4. unfold Rmin. destruct (Rle_dec r1 r2); lra.
  - specialize (IH1 v). destruct (build v e1) as [f v1]. specialize (IH2 v1). destruct (build v1 e2) as [g v2].
    cbn [fst] in *. unfold fb_or. destruct (f x) as [r1|] eqn:E3; cbn [rbind]; [|discriminate].
    destruct (g x) as [r2|] eqn:E4; cbn [rbind]; [|discriminate]. intros E. injection E as <-. rewrite nmax_R.
    apply IH1 in E3. apply IH2 in E4. unfold Rmax. destruct (Rle_dec r1 r2); lra.
  - specialize (IH v). destruct (build v e) as [f v1]. cbn [fst] in *. unfold fb_not.
    destruct (f x) as [r1|] eqn:E3; cbn [rbind]; [|discriminate]. intros E. injection E as <-.
    apply IH in E3. lra.
  - specialize (IH v). destruct (build v e) as [f v1]. cbn [fst] in *. unfold fb_item.
    destruct (get_item x k) as [y|]; cbn [rbind]; [|discriminate]. apply IH.
Qed.

(** Truth values are in [0, 1] for all expressions, all sharpnesses and any state of the
    variable. *)
Theorem fuzzy_values : forall e v x r, fst (build v e) x = Ok r -> 0 <= r <= 1.
Proof. exact build_range. Qed.
Print Assumptions fuzzy_values.

(** De Morgan's laws and double negation for arbitrary truth functions. *)
Theorem fuzzy_de_morgan : forall (f g : fbool) x,
  fb_not (fb_and f g) x = fb_or (fb_not f) (fb_not g) x /\
  fb_not (fb_or f g) x = fb_and (fb_not f) (fb_not g) x /\
  fb_not (fb_not f) x = f x.
Proof.
  intros f g x. unfold fb_not, fb_and, fb_or.
  destruct (f x) as [a|]; cbn [rbind]; [|auto].
  destruct (g x) as [b|]; cbn [rbind]; repeat split; try (f_equal; lra).
  - rewrite nmin_R, nmax_R. unfold Rmin, Rmax. destruct (Rle_dec a b), (Rle_dec (1 - a) (1 - b)); f_equal; lra.
  - rewrite nmin_R, nmax_R. unfold Rmin, Rmax. destruct (Rle_dec a b), (Rle_dec (1 - a) (1 - b)); f_equal; lra.
Qed.
Print Assumptions fuzzy_de_morgan.

(** [x > a] is the complement of [x < a]; with positive sharpness [x < a] is more true than
    not exactly for values below [a], and less true for larger values; [x == a] has its
    largest truth, 1/2, exactly at [a]. *)
Theorem fuzzy_comparisons : forall s a, 0 < s ->
  let t op v := fst (build (var_new s None) (FCmp None None op a)) (INum v) in
  (forall v, exists l, t Clt v = Ok l /\ t Cgt v = Ok (1 - l) /\ t Cle v = Ok l /\ t Cge v = Ok (1 - l) /\
     (l > 1 / 2 <-> v < a)) /\
  (forall v w l m, t Clt v = Ok l -> t Clt w = Ok m -> v < w -> m < l) /\
  (forall v, exists q, t Ceq v = Ok q /\ q <= 1 / 2 /\ (q = 1 / 2 <-> v = a)).
Proof.
  intros s a Hs t.
  assert (L : forall v, t Clt v = Ok (1 - larger s a v)).
  { intros v. pose proof (build_spec (FCmp None None Clt a) s eq_refl) as [C _]. apply (C (INum v)). }
  assert (G : forall v, t Cgt v = Ok (larger s a v)).
  { intros v. pose proof (build_spec (FCmp None None Cgt a) s eq_refl) as [C _]. apply (C (INum v)). }
  assert (E : forall v, t Ceq v = Ok (Rmin (1 - larger s a v) (larger s a v))).
  { intros v. pose proof (build_spec (FCmp None None Ceq a) s eq_refl) as [C _]. apply (C (INum v)). }
  assert (M : forall v w, v < w -> larger s a v < larger s a w).
  { intros v w H. unfold larger. apply Rmult_lt_compat_l; [lra|]. apply Rinv_lt_contravar.
    - apply Rmult_lt_0_compat; apply exp_pos'.
    - apply Rplus_lt_compat_l. apply exp_increasing.
      assert (s * (v - a) < s * (w - a)) by (apply Rmult_lt_compat_l; lra). lra. }
  assert (A : larger s a a = 1 / 2).
  { unfold larger. replace (- (s * (a - a))) with 0 by ring. rewrite exp_0. field. }
  assert (B : forall v, (v < a -> larger s a v < 1 / 2) /\ (a < v -> 1 / 2 < larger s a v)).
  { intros v. rewrite <- A. split; apply M. }
  split; [|split].
  - intros v. exists (1 - larger s a v). change (t Cle v) with (t Clt v). change (t Cge v) with (t Cgt v).
    rewrite L, G. repeat split; try (f_equal; lra).
    + intros H. destruct (B v) as [B1 B2]. destruct (Rtotal_order v a) as [|[->|]]; auto; [lra|].
      assert (1 / 2 < larger s a v) by auto. lra.
    + intros H. destruct (B v) as [B1 B2]. specialize (B1 H). lra.
  - intros v w l m Hl Hm H. rewrite L in Hl, Hm. injection Hl as <-. injection Hm as <-.
    pose proof (M v w H). lra.
  - intros v. exists (Rmin (1 - larger s a v) (larger s a v)). rewrite E. split; [reflexivity|].
    destruct (B v) as [B1 B2]. unfold Rmin. destruct (Rle_dec _ _) as [q|q]; (split; [lra|]); split; intros H.
    + destruct (Rtotal_order v a) as [H1|[H1|H1]]; auto; [specialize (B1 H1); lra | specialize (B2 H1); lra].
    + subst v. lra.
    + destruct (Rtotal_order v a) as [H1|[H1|H1]]; auto; [specialize (B1 H1); lra | specialize (B2 H1); lra].
    + subst v. lra.
Qed.
Print Assumptions fuzzy_comparisons.

(** Weighing by a fuzzy expression: one weight per row, its truth. *)
Theorem fuzzy_weights_partial : forall e d rows ws, no_sharp_eq e = true ->
  fuzzy_weigh (fst (build (var_new d None) e)) rows = Ok ws ->
  length ws = length rows /\
  (forall i row w, nth_error rows i = Some row -> nth_error ws i = Some w -> truth d e [] row = Some w) /\
  Forall (fun w => 0 <= w <= 1) ws.
Proof.
  intros e d rows ws H Hw. unfold fuzzy_weigh in Hw. split; [eapply mapM_length; eauto|].
  pose proof (mapM_nth _ _ _ _ _ Hw) as N. split.
  - intros i row w H1 H2. destruct (N i row H1) as [w' [N1 N2]]. rewrite N1 in H2. injection H2 as <-.
    destruct (build_spec e d H) as [C _]. specialize (C row). destruct (truth d e [] row).
    + rewrite C in N2. injection N2 as <-. reflexivity.
    + destruct C as [ex C]. congruence.
  - apply Forall_forall. intros w Hin. apply In_nth_error in Hin. destruct Hin as [i Hi].
    assert (nth_error rows i <> None) as Hr.
    { apply nth_error_Some. rewrite <- (mapM_length _ _ _ _ _ Hw). apply nth_error_Some. congruence. }
    destruct (nth_error rows i) as [row|] eqn:Er; [|congruence].
    destruct (N i row Er) as [w' [N1 N2]]. rewrite N1 in Hi. injection Hi as <-.
    eapply fuzzy_values; eauto.
Qed.
Print Assumptions fuzzy_weights_partial.

(** Non-vacuity: the documented combinations. *)
Example fuzzy_case :
  let e := FAnd (FCmp (Some "TWS") (Some 2) Clt 20) (FNot (FOr (FCmp (Some "TWA") None Cgt 30) (FItem (FCmp None None Ceq 5) "BSP"))) in
  let row v := IItems [("TWS", INum v); ("TWA", INum 30); ("BSP", INum 5)] in
  no_sharp_eq e = true /\ truth 10 e [] (row 20) = Some (1 / 2) /\ truth 10 e [] (INum 1) = None.
Proof.
  assert (A : forall s a, larger s a a = 1 / 2).
  { intros. unfold larger. replace (- (s * (a - a))) with 0 by ring. rewrite exp_0. field. }
  split; [reflexivity|]. split; [|reflexivity]. cbn. rewrite !A. f_equal.
  replace (1 - 1 / 2) with (1 / 2) by lra. unfold Rmin, Rmax.
  repeat (destruct (Rle_dec _ _)); lra.
Qed.

(* ------------------------------------------------------------------ *)
(** ** C51 *)

(** A comparison [x(s) op a] other than [==] uses the sharpness [s] whatever happened
    before; the next comparison uses the default sharpness again. *)
Theorem sharpness_used_partial : forall v op a s u, fv_key v = None -> op <> Ceq ->
  fst (build v (FCmp None (Some s) op a)) (INum u) =
    fst (build (var_new s None) (FCmp None None op a)) (INum u) /\
  fv_next (snd (build v (FCmp None (Some s) op a))) = fv_sharpness v.
Proof.
  intros [key d n] op a s u Hk Hop. cbn in Hk. subst key. destruct op; try congruence; split; reflexivity.
Qed.
Print Assumptions sharpness_used_partial.

(** [x(s) == a] uses [s] only for one half of the comparison. *)
Theorem sharpness_eq_refuted : exists d s a u r1 r2,
  fst (build (var_new d None) (FCmp None (Some s) Ceq a)) (INum u) = Ok r1 /\
  fst (build (var_new s None) (FCmp None None Ceq a)) (INum u) = Ok r2 /\ r1 <> r2.
Proof.
  exists 10, 1, 0, (-1), (larger 10 0 (-1)), (larger 1 0 (-1)).
  assert (H : larger 10 0 (-1) < larger 1 0 (-1) < 1 / 2).
  { unfold larger. split.
    - apply Rmult_lt_compat_l; [lra|]. apply Rinv_lt_contravar.
      + apply Rmult_lt_0_compat; apply exp_pos'.
      + apply Rplus_lt_compat_l. apply exp_increasing. lra.
    - apply Rmult_lt_compat_l; [lra|]. apply Rinv_lt_contravar.
      + apply Rmult_lt_0_compat; [lra | apply exp_pos'].
      + assert (exp 0 < exp (- (1 * (-1 - 0)))) by (apply exp_increasing; lra). rewrite exp_0 in H. lra. }
  split; [|split]; [| |lra].
  - cbn [build var_call var_new fv_key fv_sharpness var_cmp fst]. unfold var_eq, var_lt, var_gt, var_truth, read_sharpness, var_call, var_new.
    cbn [fst fv_key fv_sharpness fv_next]. unfold fb_and. rewrite sigmoid_lt, sigmoid_gt. cbn [rbind].
    rewrite nmin_R, Rmin_right by lra. reflexivity.
  - cbn [build var_call var_new fv_key fv_sharpness var_cmp fst]. unfold var_eq, var_lt, var_gt, var_truth, read_sharpness, var_call, var_new.
    cbn [fst fv_key fv_sharpness fv_next]. unfold fb_and. rewrite sigmoid_lt, sigmoid_gt. cbn [rbind].
    rewrite nmin_R, Rmin_right by lra. reflexivity.
Qed.
Print Assumptions sharpness_eq_refuted.

(** An interrupted [x(s)] without comparison stays pending and is used by the next
    comparison written without sharpness. *)
Theorem sharpness_pending_refuted : exists d s a u r1 r2,
  fst (build (var_call (var_new d None) s) (FCmp None None Cgt a)) (INum u) = Ok r1 /\
  fst (build (var_new d None) (FCmp None None Cgt a)) (INum u) = Ok r2 /\ r1 <> r2.
Proof.
  exists 10, 1, 0, 1, (larger 1 0 1), (larger 10 0 1).
  split; [|split].
  - cbn. apply sigmoid_gt.
  - cbn. apply sigmoid_gt.
  - apply Rlt_not_eq. unfold larger. apply Rmult_lt_compat_l; [lra|]. apply Rinv_lt_contravar.
    + apply Rmult_lt_0_compat; apply exp_pos'.
    + apply Rplus_lt_compat_l. apply exp_increasing. lra.
Qed.
Print Assumptions sharpness_pending_refuted.

