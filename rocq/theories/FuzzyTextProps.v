(** * Properties of the texts of fuzzy statements *)

From Coq Require Import String Ascii.
From Coq Require Import List Bool Arith ZArith Reals Lra.
From Verif Require Import Py Num FuzzyModel.
Import ListNotations.
Open Scope string_scope.
Open Scope list_scope.

(** ** Strings *)

(** The character [c] does not occur in [s]. *)
Fixpoint free (c : ascii) (s : string) : Prop :=
  match s with EmptyString => True | String d r => d <> c /\ free c r end.

Lemma sapp_assoc' : forall a b c, ((a ++ b) ++ c)%string = (a ++ b ++ c)%string.
Proof. induction a as [|x a IH]; intros b c; simpl; auto. rewrite IH. auto. Qed.

Lemma free_app : forall c a b, free c a -> free c b -> free c (a ++ b)%string.
Proof. induction a as [|d a IH]; simpl; intros b A B; [auto|]. destruct A; auto. Qed.

(** Cutting at the first [c]. *)
Lemma cut : forall c a a' b b', free c a -> free c a' ->
  (a ++ String c b = a' ++ String c b')%string -> a = a' /\ b = b'.
Proof.
  induction a as [|d a IH]; intros [|d' a'] b b' A A' E; simpl in *.
  - inversion E. auto.
  - inversion E. subst. tauto.
  - inversion E. subst. tauto.
  - inversion E. subst. destruct (IH a' b b') as [-> ->]; tauto.
Qed.

(** [r] is empty or begins with a character for which [p] holds. *)
Definition starts (p : ascii -> bool) (r : string) : Prop :=
  match r with EmptyString => True | String c _ => p c = true end.

(** No character of [a] ends the word. *)
Fixpoint none (p : ascii -> bool) (a : string) : Prop :=
  match a with EmptyString => True | String c r => p c = false /\ none p r end.

Lemma cut_word : forall p a a' r r', none p a -> none p a' -> starts p r -> starts p r' ->
  (a ++ r = a' ++ r')%string -> a = a' /\ r = r'.
Proof.
  induction a as [|d a IH]; intros [|d' a'] r r' A A' Sr Sr' E; simpl in *.
  - auto.
  - subst r. simpl in Sr. destruct A'. congruence.
  - subst r'. simpl in Sr'. destruct A. congruence.
  - inversion E. subst. destruct A, A'. destruct (IH a' r r') as [-> ->]; auto.
Qed.

Lemma has_blank_app : forall a b, has_blank (a ++ b) = has_blank a || has_blank b.
Proof. induction a as [|c a IH]; intros b; simpl; auto. rewrite IH, orb_assoc. auto. Qed.

(** ** Expressions *)

(** The characters that structure a text. *)
Definition special (c : ascii) : bool :=
  existsb (Ascii.eqb c) (list_ascii_of_string " ()[]").

(** Expressions whose keys are plain words, whose numbers are doubles and which give no
    sharpness. *)
Fixpoint plain (double : R -> Prop) (e : fexpr) : Prop :=
  match e with
  | FCmp key s _ a =>
      s = None /\ match key with None => True | Some k => none special k end /\ double a
  | FAnd e1 e2 | FOr e1 e2 => plain double e1 /\ plain double e2
  | FNot e1 => plain double e1
  | FItem e1 k => plain double e1 /\ none special k
  end.

(** [<=] and [<], [>=] and [>] are the same statement. *)
Definition same_op (op : cmp) : cmp := match op with Cle => Clt | Cge => Cgt | o => o end.
Fixpoint norm (e : fexpr) : fexpr :=
  match e with
  | FCmp key s op a => FCmp key s (same_op op) a
  | FAnd e1 e2 => FAnd (norm e1) (norm e2)
  | FOr e1 e2 => FOr (norm e1) (norm e2)
  | FNot e1 => FNot (norm e1)
  | FItem e1 k => FItem (norm e1) k
  end.

Lemma build_norm : forall e v, build v (norm e) = build v e.
Proof.
  induction e as [key s op a|e1 IH1 e2 IH2|e1 IH1 e2 IH2|e1 IH1|e1 IH1 k]; intros v; simpl.
  - destruct op, key; reflexivity.
  - rewrite IH1. destruct (build v e1) as [f v1]. rewrite IH2. reflexivity.
  - rewrite IH1. destruct (build v e1) as [f v1]. rewrite IH2. reflexivity.
  - rewrite IH1. reflexivity.
  - rewrite IH1. reflexivity.
Qed.

Section Faithful.
  (** [double] are the numbers that floats can be.  Different ones have different texts,
      without blanks and brackets. *)
  Variable number : R -> string.
  Variable double : R -> Prop.
  Hypothesis number_inj : forall a b, double a -> double b -> number a = number b -> a = b.
  Hypothesis number_plain : forall a, double a -> none special (number a).

  Notation text := (text number).
  Notation plain := (plain double).

  Lemma text_blank : forall e, has_blank (text e) = true.
  Proof.
    induction e; simpl; rewrite ?has_blank_app; simpl; rewrite ?has_blank_app; simpl;
      rewrite ?IHe, ?orb_true_r; auto.
  Qed.

  Lemma bracket_text : forall e, bracket (text e) = ("(" ++ text e ++ ")")%string.
  Proof. intros. unfold bracket. rewrite text_blank. auto. Qed.

  (** Items got one after the other. *)
  Fixpoint wrap (e : fexpr) (ks : list string) : fexpr :=
    match ks with [] => e | k :: r => wrap (FItem e k) r end.
  Fixpoint suffix (ks : list string) : string :=
    match ks with [] => "" | k :: r => ("[" ++ k ++ "]" ++ suffix r)%string end.

  Definition closing (c : ascii) : bool := Ascii.eqb c ")"%char.

  Lemma none_cons : forall p c r, p c = false -> none p r -> none p (String c r).
  Proof. simpl. auto. Qed.

  Lemma special_free : forall c s, special c = true -> none special s -> free c s.
  Proof.
    induction s as [|d s IH]; simpl; intros C N; auto. destruct N. split; auto. congruence.
  Qed.

  Lemma suffix_inj : forall ks1 ks2 r1 r2, Forall (none special) ks1 -> Forall (none special) ks2 ->
    starts closing r1 -> starts closing r2 ->
    (suffix ks1 ++ r1 = suffix ks2 ++ r2)%string -> ks1 = ks2 /\ r1 = r2.
  Proof.
    induction ks1 as [|k1 ks1 IH]; intros [|k2 ks2] r1 r2 F1 F2 S1 S2 E; cbn [suffix] in E.
    - auto.
    - simpl in E. subst r1. discriminate.
    - simpl in E. subst r2. discriminate.
    - inversion F1; inversion F2; subst.
      rewrite !sapp_assoc' in E. simpl in E. inversion E as [E'].
      apply cut in E'; [|apply special_free; auto..]. destruct E' as [<- E'].
      apply IH in E'; auto. destruct E' as [<- <-]. auto.
  Qed.

  Lemma var_cut : forall k1 k2 r1 r2,
    match k1 with None => True | Some k => none special k end ->
    match k2 with None => True | Some k => none special k end ->
    (var_text k1 ++ String " " r1 = var_text k2 ++ String " " r2)%string -> k1 = k2 /\ r1 = r2.
  Proof.
    intros [k1|] [k2|] r1 r2 P1 P2 E; simpl in E; inversion E as [E']; auto.
    rewrite !sapp_assoc' in E'. simpl in E'. apply cut in E'; [|apply special_free; auto..].
    destruct E' as [<- E']. inversion E'. auto.
  Qed.

  Lemma op_cut : forall op1 op2 r1 r2,
    (cmp_text op1 ++ String " " r1 = cmp_text op2 ++ String " " r2)%string -> same_op op1 = same_op op2 /\ r1 = r2.
  Proof. intros [] [] r1 r2 E; simpl in E; inversion E; auto. Qed.

  Definition opening (c : ascii) : bool := Ascii.eqb c ")"%char || Ascii.eqb c "["%char.

  Lemma none_imp : forall (p q : ascii -> bool) s, (forall c, p c = true -> q c = true) -> none q s -> none p s.
  Proof.
    induction s as [|c s IH]; simpl; intros I N; auto. destruct N as [N1 N2]. split; auto.
    destruct (p c) eqn:P; auto. rewrite (I c P) in N1. discriminate.
  Qed.

  Lemma opening_special : forall c, opening c = true -> special c = true.
  Proof.
    intros c O. unfold opening in O. apply orb_prop in O. destruct O as [O | O]; apply Ascii.eqb_eq in O; subst; auto.
  Qed.

  Lemma starts_suffix : forall ks r, starts closing r -> starts opening (suffix ks ++ r).
  Proof.
    intros [|k ks] r S; simpl; auto. destruct r as [|c r]; simpl in *; auto.
    unfold closing in S. unfold opening. rewrite S. auto.
  Qed.

  (** An expression that is not got by an item. *)
  Definition core (e : fexpr) : bool := match e with FItem _ _ => false | _ => true end.

  Lemma unwrap : forall e, plain e -> exists c ks, e = wrap c ks /\ core c = true /\ plain c /\
    Forall (none special) ks /\ forall ks', wrap c (ks ++ ks') = wrap e ks' /\ (text c ++ suffix (ks ++ ks') = text e ++ suffix ks')%string.
  Proof.
    induction e as [key s op a|e1 _ e2 _|e1 _ e2 _|e1 _|e1 IH k]; intros P.
    1-4: eexists _, []; split; [reflexivity|split; [reflexivity|split; [exact P|split; [constructor|]]]];
      intros ks'; split; reflexivity.
    destruct P as [P K]. destruct (IH P) as (c & ks & E & C & Pc & F & W).
    exists c, (ks ++ [k]). split; [|split; [|split; [|split]]]; auto.
    - destruct (W [k]) as [W1 _]. rewrite W1. reflexivity.
    - apply Forall_app. auto.
    - intros ks'. rewrite <- app_assoc. destruct (W ([k] ++ ks')) as [W1 W2]. rewrite W1, W2.
      split; [reflexivity|]. simpl. rewrite !sapp_assoc'. simpl. rewrite sapp_assoc'. reflexivity.
  Qed.

  Lemma norm_wrap : forall ks e, norm (wrap e ks) = wrap (norm e) ks.
  Proof. induction ks as [|k ks IH]; intros e; simpl; auto. rewrite IH. auto. Qed.

  Fixpoint size (e : fexpr) : nat :=
    match e with
    | FCmp _ _ _ _ => 1
    | FAnd e1 e2 | FOr e1 e2 => S (size e1 + size e2)
    | FNot e1 | FItem e1 _ => S (size e1)
    end.

  Lemma size_wrap : forall ks e, size e <= size (wrap e ks).
  Proof. induction ks as [|k ks IH]; intros e; simpl; auto. specialize (IH (FItem e k)). simpl in IH. auto with arith. Qed.

  Lemma text_cut : forall n e1 e2 r1 r2, size e1 <= n -> plain e1 -> plain e2 ->
    starts closing r1 -> starts closing r2 ->
    (text e1 ++ r1 = text e2 ++ r2)%string -> norm e1 = norm e2 /\ r1 = r2.
  Proof.
    induction n as [|n IH]; intros e1 e2 r1 r2 L P1 P2 S1 S2 E.
    { destruct e1; simpl in L; inversion L. }
    destruct (unwrap e1 P1) as (c1 & ks1 & E1 & C1 & Pc1 & F1 & W1).
    destruct (unwrap e2 P2) as (c2 & ks2 & E2 & C2 & Pc2 & F2 & W2).
    assert (T1 := proj2 (W1 [])). assert (T2 := proj2 (W2 [])). rewrite !app_nil_r in T1, T2.
    assert (A : forall a, (a ++ "")%string = a) by (induction a as [|x a IHa]; simpl; auto; rewrite IHa; auto).
    simpl in T1, T2. rewrite A in T1, T2. rewrite <- T1, <- T2, !sapp_assoc' in E.
    assert (L1 : size c1 <= S n) by (rewrite E1 in L; pose proof (size_wrap ks1 c1); eapply Nat.le_trans; eauto).
    assert (O1 := starts_suffix ks1 r1 S1). assert (O2 := starts_suffix ks2 r2 S2).
    assert (G : forall q1 q2, (text c1 ++ q1 = text c2 ++ q2)%string -> starts opening q1 -> starts opening q2 ->
                norm c1 = norm c2 /\ q1 = q2).
    { intros q1 q2 Q B1 B2.
      destruct c1 as [k1 s1 op1 a1|f1 g1|f1 g1|f1|]; destruct c2 as [k2 s2 op2 a2|f2 g2|f2 g2|f2|];
        try discriminate; cbn [FuzzyModel.text] in Q; rewrite ?bracket_text in Q;
        rewrite !sapp_assoc' in Q;
        try (destruct k1; discriminate Q); try (destruct k2; discriminate Q); try discriminate Q.
      - destruct Pc1 as (-> & K1 & D1), Pc2 as (-> & K2 & D2).
        apply var_cut in Q; auto. destruct Q as [-> Q]. apply op_cut in Q. destruct Q as [Op Q].
        apply (cut_word opening) in Q; auto.
        2-3: apply (none_imp _ special); auto using opening_special.
        destruct Q as [Q1 Q2]. simpl. rewrite Op, (number_inj _ _ D1 D2 Q1). auto.
      - simpl in Q. inversion Q as [Q']. destruct Pc1, Pc2. simpl in L1. apply le_S_n in L1.
        apply IH in Q'; simpl; auto; [|eapply Nat.le_trans; [apply Nat.le_add_r|eauto]].
        destruct Q' as [N1 Q']. simpl in Q'. inversion Q' as [Q2].
        rewrite ?sapp_assoc' in Q2. apply IH in Q2; simpl; auto; [|eapply Nat.le_trans; [apply Nat.le_add_l|eauto]].
        destruct Q2 as [N2 Q2]. inversion Q2. rewrite N1, N2. auto.
      - simpl in Q. inversion Q as [Q']. destruct Pc1, Pc2. simpl in L1. apply le_S_n in L1.
        apply IH in Q'; simpl; auto; [|eapply Nat.le_trans; [apply Nat.le_add_r|eauto]].
        destruct Q' as [N1 Q']. discriminate.
      - simpl in Q. inversion Q as [Q']. destruct Pc1, Pc2. simpl in L1. apply le_S_n in L1.
        apply IH in Q'; simpl; auto; [|eapply Nat.le_trans; [apply Nat.le_add_r|eauto]].
        destruct Q' as [N1 Q']. discriminate.
      - simpl in Q. inversion Q as [Q']. destruct Pc1, Pc2. simpl in L1. apply le_S_n in L1.
        apply IH in Q'; simpl; auto; [|eapply Nat.le_trans; [apply Nat.le_add_r|eauto]].
        destruct Q' as [N1 Q']. simpl in Q'. inversion Q' as [Q2].
        rewrite ?sapp_assoc' in Q2. apply IH in Q2; simpl; auto; [|eapply Nat.le_trans; [apply Nat.le_add_l|eauto]].
        destruct Q2 as [N2 Q2]. inversion Q2. rewrite N1, N2. auto.
      - simpl in Q. inversion Q as [Q']. simpl in L1. apply le_S_n in L1.
        apply IH in Q'; simpl; auto. destruct Q' as [N1 Q']. inversion Q'. rewrite N1. auto. }
    destruct (G _ _ E O1 O2) as [N Q]. apply suffix_inj in Q; auto. destruct Q as [<- <-].
    rewrite E1, E2, !norm_wrap, N. auto.
  Qed.

  (** C119.  Two statements with the same text have the same truth function, as long as the
      expressions give no sharpness of their own ([x(s) < a]).  Keys must be words without
      blanks and brackets. *)
  Theorem fuzzy_text_faithful_partial : forall v e1 e2, plain e1 -> plain e2 ->
    text e1 = text e2 -> fst (build v e1) = fst (build v e2).
  Proof.
    intros v e1 e2 P1 P2 E.
    destruct (text_cut (size e1) e1 e2 "" "" (le_n _) P1 P2 I I) as [N _].
    - rewrite E. auto.
    - rewrite <- (build_norm e1), <- (build_norm e2), N. auto.
  Qed.
End Faithful.
Print Assumptions fuzzy_text_faithful_partial.

(** ** How Python reads a text *)

(** Python's grammar for the texts, with its precedence (subscription binds tighter than
    [~], [~] tighter than [&], [&] tighter than [|], [|] tighter than a comparison). *)
Section Reading.
  Variable number : R -> string.

  Inductive primary : string -> fexpr -> Prop :=
  | pr_bracket : forall s e, expression s e -> primary ("(" ++ s ++ ")")%string e
  | pr_item : forall s e k, primary s e -> primary (s ++ "[" ++ k ++ "]")%string (FItem e k)
  with factor : string -> fexpr -> Prop :=
  | fa_primary : forall s e, primary s e -> factor s e
  | fa_not : forall s e, factor s e -> factor ("~" ++ s)%string (FNot e)
  with term : string -> fexpr -> Prop :=
  | te_factor : forall s e, factor s e -> term s e
  | te_and : forall s1 s2 e1 e2, term s1 e1 -> factor s2 e2 -> term (s1 ++ " & " ++ s2)%string (FAnd e1 e2)
  with expression : string -> fexpr -> Prop :=
  | ex_term : forall s e, term s e -> expression s e
  | ex_or : forall s1 s2 e1 e2, expression s1 e1 -> term s2 e2 -> expression (s1 ++ " | " ++ s2)%string (FOr e1 e2)
  | ex_lt : forall a, expression ("x < " ++ number a)%string (FCmp None None Clt a)
  | ex_gt : forall a, expression ("x > " ++ number a)%string (FCmp None None Cgt a)
  | ex_eq : forall a, expression ("x == " ++ number a)%string (FCmp None None Ceq a)
  | ex_key_lt : forall k a, expression ("x[" ++ k ++ "] < " ++ number a)%string (FCmp (Some k) None Clt a)
  | ex_key_gt : forall k a, expression ("x[" ++ k ++ "] > " ++ number a)%string (FCmp (Some k) None Cgt a)
  | ex_key_eq : forall k a, expression ("x[" ++ k ++ "] == " ++ number a)%string (FCmp (Some k) None Ceq a).

  (** No sharpness and no item of an expression. *)
  Fixpoint simple (e : fexpr) : Prop :=
    match e with
    | FCmp _ s _ _ => s = None
    | FAnd e1 e2 | FOr e1 e2 => simple e1 /\ simple e2
    | FNot e1 => simple e1
    | FItem _ _ => False
    end.

  Lemma text_read : forall e, simple e -> expression (text number e) (norm e).
  Proof.
    induction e as [key s op a|e1 IH1 e2 IH2|e1 IH1 e2 IH2|e1 IH1|e1 IH1 k]; intros S; cbn [text norm].
    - simpl in S. subst s.
      destruct key as [k|], op; simpl; rewrite ?sapp_assoc'; cbn [append];
        first [apply ex_key_lt | apply ex_key_gt | apply ex_key_eq | apply ex_lt | apply ex_gt | apply ex_eq].
    - rewrite !bracket_text. destruct S. apply ex_term. apply te_and; [apply te_factor|]; apply fa_primary, pr_bracket; auto.
    - rewrite !bracket_text. destruct S. apply ex_or; [apply ex_term|]; apply te_factor, fa_primary, pr_bracket; auto.
    - apply ex_term, te_factor. apply (fa_not ("(" ++ text number e1 ++ ")")%string). apply fa_primary, pr_bracket. auto.
    - contradiction.
  Qed.

  (** C119.  Read as a Python expression, the text of a statement built from comparisons
      and connectives means the statement again. *)
  Theorem fuzzy_text_reads_back_partial : forall e, simple e ->
    exists e', expression (text number e) e' /\ forall v, build v e' = build v e.
  Proof. intros e S. exists (norm e). split; [apply text_read; auto|]. intros v. apply build_norm. Qed.
End Reading.
Print Assumptions fuzzy_text_reads_back_partial.

(** C119.  The text of [((x < 0) & (x < 0))["k"]] means, read as a Python expression,
    another statement: the item is taken of the second operand only. *)
Theorem fuzzy_item_text_refuted : forall number, exists e e' u r,
  expression number (text number e) e' /\
  fst (build (var_new 1 None) e) u = Ok r /\
  fst (build (var_new 1 None) e') u = Raise TypeError.
Proof.
  intros number. set (c := FCmp None None Clt 0%R).
  exists (FItem (FAnd c c) "k"), (FAnd c (FItem c "k")), (IItems [("k", INum 0%R)]).
  eexists. split; [|split].
  - cbn [text]. rewrite !bracket_text. rewrite !sapp_assoc'. apply ex_term.
    assert (H := te_and number ("(" ++ text number c ++ ")")%string (("(" ++ text number c ++ ")") ++ "[" ++ "k" ++ "]")%string c (FItem c "k")).
    rewrite !sapp_assoc' in H. apply H.
    + apply te_factor, fa_primary, pr_bracket. apply (ex_lt number 0).
    + assert (G := pr_item number ("(" ++ text number c ++ ")")%string c "k"). rewrite !sapp_assoc' in G.
      apply fa_primary, G, pr_bracket. apply (ex_lt number 0).
  - cbn. reflexivity.
  - cbn. reflexivity.
Qed.
Print Assumptions fuzzy_item_text_refuted.

(** C119.  The sharpness of a comparison is not part of its text: [x(1) < 0] and
    [x(2) < 0] have one text and differ at 1. *)
Theorem fuzzy_text_sharpness_refuted : forall number, exists e1 e2 u r1 r2,
  text number e1 = text number e2 /\
  fst (build (var_new 1 None) e1) u = Ok r1 /\ fst (build (var_new 1 None) e2) u = Ok r2 /\ r1 <> r2.
Proof.
  intros number.
  exists (FCmp None (Some 1%R) Clt 0%R), (FCmp None (Some 2%R) Clt 0%R), (INum 1%R). eexists. eexists.
  split; [reflexivity|]. split; [reflexivity|]. split; [reflexivity|].
  cbn. intros E.
  assert (P1 := exp_pos (1 * 1 * (1 - 0))). assert (P2 := exp_pos (1 * 2 * (1 - 0))).
  assert (L : (exp (1 * 1 * (1 - 0)) < exp (1 * 2 * (1 - 0)))%R) by (apply exp_increasing; lra).
  unfold Rdiv in E. apply Rmult_eq_reg_l in E; [|lra].
  assert (E2 : (/ / (1 + exp (1 * 1 * (1 - 0))) = / / (1 + exp (1 * 2 * (1 - 0))))%R) by (f_equal; exact E).
  rewrite !Rinv_inv in E2; lra.
Qed.
Print Assumptions fuzzy_text_sharpness_refuted.

Open Scope string_scope.
(** The text of [(x["TWS"] <= 3) & ~(x["TWA"] == 0)], with two numbers. *)
Example fuzzy_text_case :
  let number := fun a => if Reqb a 3 then "3.0" else "0.0" in
  let double := fun a => a = 3%R \/ a = 0%R in
  let e := FAnd (FCmp (Some "TWS") None Cle 3%R) (FNot (FCmp (Some "TWA") None Ceq 0%R)) in
  text number e = "(x[TWS] < 3.0) & (~(x[TWA] == 0.0))" /\ plain double e /\ simple e /\
  (forall a b, double a -> double b -> number a = number b -> a = b) /\
  (forall a, double a -> none special (number a)).
Proof.
  assert (E3 : Reqb 3 3 = true) by (apply Reqb_eq; auto).
  assert (E0 : Reqb 0 3 = false) by (destruct (Reqb 0 3) eqn:E; auto; apply Reqb_eq in E; lra).
  cbv zeta. split; [|split; [|split; [|split]]].
  - simpl. rewrite E3, E0. reflexivity.
  - simpl. repeat split; auto.
  - simpl. auto.
  - intros a b [-> | ->] [-> | ->]; rewrite ?E3, ?E0; auto; discriminate.
  - intros a [-> | ->]; rewrite ?E3, ?E0; simpl; repeat split; auto.
Qed.
