(** * C143: representations of components *)

From Coq Require Import String Ascii.
From Coq Require Import List Bool Arith ZArith Reals Lra Lia.
From Verif Require Import Py Num NhoodModel InterpModel FilterModel CurveModel ReprModel.
Import List ListNotations.
Open Scope string_scope.
Open Scope list_scope.

Fixpoint lacks (c : ascii) (s : string) : Prop :=
  match s with EmptyString => True | String a r => a <> c /\ lacks c r end.

(** A word that can be an argument. *)
Definition plain (w : string) : Prop := w <> "" /\ lacks "("%char w /\ lacks ")"%char w /\ lacks ","%char w /\ lacks "="%char w /\ lacks " "%char w.

(* ---- reading calls ---- *)

Lemma lacks_app : forall c s t, lacks c s -> lacks c t -> lacks c (s ++ t).
Proof. induction s as [|a s IH]; intros t H1 H2; [exact H2|]. destruct H1 as [N H1]. split; [exact N|]. apply IH; assumption. Qed.
Lemma app_assoc_s : forall s t u : string, ((s ++ t) ++ u = s ++ (t ++ u))%string.
Proof. induction s as [|a s IH]; intros t u; [reflexivity|]. cbn. rewrite IH. reflexivity. Qed.
Lemma app_nil_s : forall s : string, (s ++ "" = s)%string.
Proof. induction s as [|a s IH]; [reflexivity|]. cbn. rewrite IH. reflexivity. Qed.
Lemma cut_app : forall c s t, lacks c s -> cut c (s ++ String c t) = Some (s, t).
Proof.
  induction s as [|a s IH]; intros t H; cbn.
  - rewrite Ascii.eqb_refl. reflexivity.
  - destruct H as [N H]. destruct (Ascii.eqb_spec a c); [contradiction|]. rewrite IH by auto. reflexivity.
Qed.
Lemma cut_none_s : forall c s, lacks c s -> cut c s = None.
Proof.
  induction s as [|a s IH]; intros H; [reflexivity|]. destruct H as [N H]. cbn. destruct (Ascii.eqb_spec a c); [contradiction|]. rewrite IH by auto. reflexivity.
Qed.
Lemma pieces_one : forall s, lacks ","%char s -> pieces s = [s].
Proof. induction s as [|a s IH]; intros H; [reflexivity|]. destruct H as [N H]. cbn. destruct (Ascii.eqb_spec a ","%char); [contradiction|]. rewrite IH by auto. reflexivity. Qed.
Lemma pieces_app : forall s t, lacks ","%char s -> pieces (s ++ String ","%char t) = s :: pieces t.
Proof. induction s as [|a s IH]; intros t H; [reflexivity|]. destruct H as [N H]. cbn. destruct (Ascii.eqb_spec a ","%char); [contradiction|]. rewrite IH by auto. reflexivity. Qed.

Fixpoint spaces (n : nat) : string := match n with O => "" | S n => String " "%char (spaces n) end.
Lemma lstrip_spaces : forall n s, lstrip (spaces n ++ s) = lstrip s.
Proof. induction n as [|n IH]; intros s; [reflexivity|]. cbn. apply IH. Qed.
Lemma lstrip_plain : forall s t, s <> "" -> lacks " "%char s -> lstrip (s ++ t) = (s ++ t)%string.
Proof. intros [|a s] t NE H; [contradiction|]. destruct H as [N _]. cbn. destruct (Ascii.eqb_spec a " "%char); [contradiction|]. reflexivity. Qed.
Lemma lacks_spaces : forall c n, c <> " "%char -> lacks c (spaces n).
Proof. induction n as [|n IH]; intros H; cbn; auto. Qed.

(** An argument with blanks in front of it. *)
Definition piece (a : nat * (string * string)) : string := (spaces (fst a) ++ fst (snd a) ++ "=" ++ snd (snd a))%string.
Fixpoint body_end (l : list (nat * (string * string))) : string :=
  match l with
  | [] => ")"
  | [a] => (piece a ++ ")")%string
  | a :: r => (piece a ++ "," ++ body_end r)%string
  end.
Fixpoint inside (l : list (nat * (string * string))) : string :=
  match l with [] => "" | [a] => piece a | a :: r => (piece a ++ "," ++ inside r)%string end.

Definition good_arg (a : nat * (string * string)) : Prop := plain (fst (snd a)) /\ plain (snd (snd a)).

Lemma body_inside : forall l, body_end l = (inside l ++ ")")%string.
Proof.
  induction l as [|a l IH]; [reflexivity|]. destruct l as [|b l]; [reflexivity|].
  change (body_end (a :: b :: l)) with (piece a ++ "," ++ body_end (b :: l))%string.
  change (inside (a :: b :: l)) with (piece a ++ "," ++ inside (b :: l))%string. rewrite IH, !app_assoc_s. reflexivity.
Qed.
Lemma piece_lacks : forall c a, good_arg a -> c = "("%char \/ c = ")"%char \/ c = ","%char -> lacks c (piece a).
Proof.
  intros c [n [k w]] [[_ [K1 [K2 [K3 _]]]] [_ [W1 [W2 [W3 _]]]]] HC. unfold piece. cbn [fst snd] in *.
  apply lacks_app; [apply lacks_spaces; intros ->; destruct HC as [H|[H|H]]; discriminate|].
  apply lacks_app; [destruct HC as [-> | [-> | ->]]; assumption|].
  apply lacks_app; [|destruct HC as [-> | [-> | ->]]; assumption]. split; [|exact I]. intros <-. destruct HC as [H|[H|H]]; discriminate.
Qed.
Lemma inside_lacks : forall l, Forall good_arg l -> lacks ")"%char (inside l).
Proof.
  induction l as [|a l IH]; intros F; [exact I|]. inversion F as [|? ? G F']; subst. destruct l as [|b l].
  - apply piece_lacks; auto.
  - change (inside (a :: b :: l)) with (piece a ++ "," ++ inside (b :: l))%string. apply lacks_app; [apply piece_lacks; auto|].
    split; [discriminate|]. apply IH. auto.
Qed.
Lemma inside_pieces : forall l, l <> [] -> Forall good_arg l -> pieces (inside l) = map piece l.
Proof.
  induction l as [|a l IH]; intros NE F; [contradiction|]. inversion F as [|? ? G F']; subst. destruct l as [|b l].
  - apply pieces_one. apply piece_lacks; auto.
  - change (inside (a :: b :: l)) with (piece a ++ String ","%char (inside (b :: l)))%string.
    rewrite pieces_app by (apply piece_lacks; auto). rewrite IH by (auto; discriminate). reflexivity.
Qed.
Lemma keyword_arguments : forall l seen, Forall good_arg l -> arguments (map piece l) seen = Value (map (fun a => (Some (fst (snd a)), snd (snd a))) l).
Proof.
  induction l as [|[n [k w]] l IH]; intros seen F; [reflexivity|]. inversion F as [|? ? [K W] F']; subst. cbn [map arguments fst snd] in *.
  unfold piece at 1. cbn [fst snd]. rewrite lstrip_spaces. destruct K as [NE [_ [_ [_ [KE KB]]]]]. rewrite lstrip_plain by auto.
  change (k ++ "=" ++ w)%string with (k ++ String "="%char w)%string. rewrite cut_app by auto. rewrite IH by auto. reflexivity.
Qed.
Lemma parse_keywords : forall name l, lacks "("%char name -> Forall good_arg l ->
  parse_call (name ++ "(" ++ body_end l) = Value (name, map (fun a => (Some (fst (snd a)), snd (snd a))) l).
Proof.
  intros name l N F. unfold parse_call. change (name ++ "(" ++ body_end l)%string with (name ++ String "("%char (body_end l))%string.
  rewrite cut_app by auto. rewrite body_inside. change (inside l ++ ")")%string with (inside l ++ String ")"%char "")%string.
  rewrite cut_app by (apply inside_lacks; auto). destruct l as [|a l]; [reflexivity|].
  assert (String.eqb (inside (a :: l)) "" = false) as ->.
  { apply String.eqb_neq. inversion F as [|? ? [[NE _] _] _]; subst. destruct a as [n [k w]]. cbn [fst snd] in NE. clear - NE.
    assert (piece (n, (k, w)) <> "") as P.
    { unfold piece. cbn [fst snd]. destruct n; [|discriminate]. destruct k; [contradiction|discriminate]. }
    destruct l as [|b l]; [exact P|]. change (inside ((n, (k, w)) :: b :: l)) with (piece (n, (k, w)) ++ "," ++ inside (b :: l))%string.
    destruct (piece (n, (k, w))); [contradiction|discriminate]. }
  rewrite inside_pieces by (auto; discriminate). rewrite keyword_arguments by auto. reflexivity.
Qed.

(* ---- the claims ---- *)

Section Claims.
  Variable show : R -> string.
  Variable show_int : Z -> string.
  Variable show_mat : (R * R) * (R * R) -> string.
  Variable word_value : string -> option value.
  Variable scaled absolute standard : norm.

  (** The number is printed as a word that evaluates to it. *)
  Definition shown (x : R) : Prop := plain (show x) /\ word_value (show x) = Some (VNum x).
  Definition shown_int (z : Z) : Prop := plain (show_int z) /\ word_value (show_int z) = Some (VInt z).

  (** The norm is known under its name. *)
  Definition known (n : norm) : Prop :=
    exists s, n_name n = Some s /\ plain s /\ word_value s = Some (VNorm n).

  (** The objects in question, as their constructors make them. *)
  Definition fine (o : comp) : Prop :=
    match o with
    | OBall n r => known n /\ shown r /\ (0 < r)%R
    | OScalingBall k n => known n /\ shown_int k /\ (0 < k)%Z
    | OIdw p n => known n /\ shown_int (Z.of_nat p)
    | OBilinear => True
    | OQuantile p => shown p /\ (0 <= p <= 100)%R
    | OBound lo up => shown lo /\ shown up /\ (lo <= up)%R
    | OMean r (Some n) None => known n /\ shown r /\ (0 < r)%R
    | OMember r l n None => known n /\ shown r /\ shown l /\ (0 < r)%R /\ (0 <= l)%R
    | _ => False
    end.

  (** C143: the representation of these components is a call that makes an equal component. *)
  Theorem repr_rebuilds_partial : forall o, fine o ->
    exists t, repr show show_int show_mat o = Ok t /\ eval_text word_value scaled absolute standard t = Value o.
  Proof.
    intros o F. unfold eval_text.
    destruct o as [n r|k n|m n r|n d|p n|tl sl n| |p|lo up|r [n|] [ds|]|r l n [ds|]]; try contradiction; cbn [fine] in F.
    - destruct F as [[s [E [PS WS]]] [[P1 W1] Pr]]. cbn [repr dunder_name]. rewrite E. cbn [rbind]. eexists. split; [reflexivity|].
      change ("Ball(norm=" ++ s ++ ", radius=" ++ show r ++ ")")%string with ("Ball" ++ "(" ++ body_end [(0%nat, ("norm", s)); (1%nat, ("radius", show r))])%string.
      rewrite parse_keywords; [|cbn; repeat split; discriminate|repeat constructor; try discriminate; try (apply PS); try (apply P1)].
      cbn -[ball_new]. unfold evaluate. rewrite WS, W1. cbn -[ball_new]. unfold ball_new. rnum. rewrite Rleb_false by lra. reflexivity.
    - destruct F as [[s [E [PS WS]]] [[P1 W1] Pr]]. cbn [repr dunder_name]. rewrite E. cbn [rbind]. eexists. split; [reflexivity|].
      change ("ScalingBall(min_pts=" ++ show_int k ++ ", norm=" ++ s ++ ")")%string with
        ("ScalingBall" ++ "(" ++ body_end [(0%nat, ("min_pts", show_int k)); (1%nat, ("norm", s))])%string.
      rewrite parse_keywords; [|cbn; repeat split; discriminate|repeat constructor; try discriminate; try (apply PS); try (apply P1)].
      cbn -[scaling_ball_new]. unfold evaluate. rewrite WS, W1. cbn -[scaling_ball_new]. unfold scaling_ball_new.
      destruct (Z.leb_spec k 0); [lia|]. reflexivity.
    - destruct F as [[s [E [PS WS]]] [P1 W1]]. cbn [repr dunder_name]. rewrite E. cbn [rbind]. eexists. split; [reflexivity|].
      change ("IDWInterpolator(p=" ++ show_int (Z.of_nat p) ++ ", norm=" ++ s ++ ")")%string with
        ("IDWInterpolator" ++ "(" ++ body_end [(0%nat, ("p", show_int (Z.of_nat p))); (1%nat, ("norm", s))])%string.
      rewrite parse_keywords; [|cbn; repeat split; discriminate|repeat constructor; try discriminate; try (apply PS); try (apply P1)].
      cbn -[idw_new]. unfold evaluate. rewrite WS, W1. cbn -[idw_new]. unfold idw_new.
      destruct (Z.ltb_spec (Z.of_nat p) 0); [lia|]. rewrite Nat2Z.id. reflexivity.
    - eexists. split; reflexivity.
    - destruct F as [[P1 W1] Pr]. cbn [repr]. eexists. split; [reflexivity|].
      change ("QuantileFilter(percent=" ++ show p ++ ")")%string with ("QuantileFilter" ++ "(" ++ body_end [(0%nat, ("percent", show p))])%string.
      rewrite parse_keywords; [|cbn; repeat split; discriminate|repeat constructor; try discriminate; try (apply P1)].
      cbn -[quantile_new]. unfold evaluate. rewrite W1. cbn -[quantile_new]. unfold quantile_new. rnum. rewrite !Rltb_false by lra. reflexivity.
    - destruct F as [[P1 W1] [[P2 W2] Pr]]. cbn [repr]. eexists. split; [reflexivity|].
      change ("BoundFilter(upper_bound=" ++ show up ++ ", lower_bound=" ++ show lo ++ ")")%string with
        ("BoundFilter" ++ "(" ++ body_end [(0%nat, ("upper_bound", show up)); (1%nat, ("lower_bound", show lo))])%string.
      rewrite parse_keywords; [|cbn; repeat split; discriminate|repeat constructor; try discriminate; try (apply P1); try (apply P2)].
      cbn -[bound_new]. unfold evaluate. rewrite W1, W2. cbn -[bound_new]. unfold bound_new. rnum. rewrite !Rltb_false by lra. reflexivity.
    - destruct F as [[s [E [PS WS]]] [[P1 W1] Pr]]. cbn [repr dunder_name]. rewrite E. cbn [rbind]. eexists. split; [reflexivity|].
      change ("CylindricMeanWeigher(radius=" ++ show r ++ ", norm=" ++ s ++ ")")%string with
        ("CylindricMeanWeigher" ++ "(" ++ body_end [(0%nat, ("radius", show r)); (1%nat, ("norm", s))])%string.
      rewrite parse_keywords; [|cbn; repeat split; discriminate|repeat constructor; try discriminate; try (apply PS); try (apply P1)].
      cbn -[nleb]. unfold evaluate. rewrite WS, W1. cbn -[nleb]. rnum. rewrite Rleb_false by lra. reflexivity.
    - destruct F as [[s [E [PS WS]]] [[P1 W1] [[P2 W2] [Pr Pl]]]].
      cbn [repr dunder_name]. rewrite E. cbn [rbind]. eexists. split; [reflexivity|].
      change ("CylindricMemberWeigher(radius=" ++ show r ++ ",length=" ++ show l ++ ", norm=" ++ s ++ ")")%string with
        ("CylindricMemberWeigher" ++ "(" ++ body_end [(0%nat, ("radius", show r)); (0%nat, ("length", show l)); (1%nat, ("norm", s))])%string.
      rewrite parse_keywords; [|cbn; repeat split; discriminate|repeat constructor; try discriminate; try (apply PS); try (apply P1); try (apply P2)].
      cbn -[nleb nltb]. unfold evaluate. rewrite WS, W1, W2. cbn -[nleb nltb]. rnum. rewrite Rleb_false, Rltb_false by lra. reflexivity.
  Qed.

  (** C143 fails: the default mean weigher, and every component whose norm has no name, has no representation. *)
  Theorem repr_default_weigher_refuted : forall r dims l k p n, n_name n = None ->
    repr show show_int show_mat (OMean r None dims) = Raise AttributeError /\
    repr show show_int show_mat (OMean r (Some n) dims) = Raise AttributeError /\
    repr show show_int show_mat (OMember r l n dims) = Raise AttributeError /\
    repr show show_int show_mat (OBall n r) = Raise AttributeError /\
    repr show show_int show_mat (OScalingBall k n) = Raise AttributeError /\
    repr show show_int show_mat (OIdw p n) = Raise AttributeError.
  Proof. intros r dims l k p n E. cbn [repr dunder_name]. rewrite E. repeat split; reflexivity. Qed.

  (** C143 fails: the dimensions of weighers are not shown, so evaluating gives a weigher without them. *)
  Theorem repr_dimensions_refuted : forall n ds r l, known n -> shown r -> shown l -> (0 < r)%R -> (0 <= l)%R ->
    exists t t', repr show show_int show_mat (OMean r (Some n) (Some ds)) = Ok t /\
      eval_text word_value scaled absolute standard t = Value (OMean r (Some n) None) /\
      repr show show_int show_mat (OMember r l n (Some ds)) = Ok t' /\
      eval_text word_value scaled absolute standard t' = Value (OMember r l n None).
  Proof.
    intros n ds r l K Sr Sl Hr Hl.
    destruct (repr_rebuilds_partial (OMean r (Some n) None)) as [t [E1 E2]]; [cbn; auto|].
    destruct (repr_rebuilds_partial (OMember r l n None)) as [t' [E3 E4]]; [cbn; auto|].
    exists t, t'. repeat split; assumption.
  Qed.

  (** C143 fails: cuboids and Shepard interpolators are shown with keywords the constructors do not have. *)
  Theorem repr_keywords_refuted : forall n d tol slope, known n -> shown d -> shown tol -> shown slope ->
    exists t t', repr show show_int show_mat (OCuboid n d) = Ok t /\
      eval_text word_value scaled absolute standard t = Failed (BadCall TypeError) /\
      repr show show_int show_mat (OShepard tol slope n) = Ok t' /\
      eval_text word_value scaled absolute standard t' = Failed (BadCall TypeError).
  Proof.
    intros n d tol slope [s [E [PS WS]]] [P1 W1] [P2 W2] [P3 W3].
    cbn [repr dunder_name]. rewrite E. cbn [rbind]. do 2 eexists. split; [reflexivity|]. unfold eval_text. split; [|split; [reflexivity|]].
    - change ("Cuboid(norm=" ++ s ++ ", attributes=" ++ show d ++ ")")%string with
        ("Cuboid" ++ "(" ++ body_end [(0%nat, ("norm", s)); (1%nat, ("attributes", show d))])%string.
      rewrite parse_keywords; [|cbn; repeat split; discriminate|repeat constructor; try discriminate; try (apply PS); try (apply P1)].
      cbn. unfold evaluate. rewrite WS. cbn. rewrite W1. reflexivity.
    - change ("ShepardInterpolator( tol=" ++ show tol ++ ", slope_scal=" ++ show slope ++ ", norm=" ++ s ++ ")")%string with
        ("ShepardInterpolator" ++ "(" ++ body_end [(1%nat, ("tol", show tol)); (1%nat, ("slope_scal", show slope)); (1%nat, ("norm", s))])%string.
      rewrite parse_keywords; [|cbn; repeat split; discriminate|repeat constructor; try discriminate; try (apply PS); try (apply P2); try (apply P3)].
      cbn. unfold evaluate. rewrite W2. cbn. rewrite W3. reflexivity.
  Qed.

  (** C143 fails: the representation of an ellipsoid shows the inverse of the given matrix.  Even
      if the printed matrix could be evaluated, the result would be the ellipsoid of the inverse. *)
  Theorem repr_ellipsoid_refuted : forall m n r e, known n -> shown (snd e) ->
    plain (show_mat (fst e)) -> word_value (show_mat (fst e)) = Some (VMat (fst e)) -> ellipsoid_new (Some m) r = Ok e ->
    exists t, repr show show_int show_mat (OEllipsoid (fst e) n (snd e)) = Ok t /\
      eval_text word_value scaled absolute standard t = Value (OEllipsoid m n (snd e)).
  Proof.
    intros m n r e [s [E [PS WS]]] [P1 W1] P2 W2 EN. unfold ellipsoid_new in EN. rnum.
    destruct (Reqb (det2 m) 0) eqn:ED; [discriminate|]. destruct (Rleb r 0) eqn:ER; [discriminate|]. injection EN as <-. cbn [fst snd] in *.
    cbn [repr dunder_name]. rewrite E. cbn [rbind]. eexists. split; [reflexivity|].
    unfold eval_text. change ("Ellipsoid(lin_trans=" ++ show_mat (inv2 m) ++ ", norm=" ++ s ++ ", radius=" ++ show r ++ ")")%string with
      ("Ellipsoid" ++ "(" ++ body_end [(0%nat, ("lin_trans", show_mat (inv2 m))); (1%nat, ("norm", s)); (1%nat, ("radius", show r))])%string.
    rewrite parse_keywords; [|cbn; repeat split; discriminate|repeat constructor; try discriminate; try (apply PS); try (apply P1); try (apply P2)].
    cbn -[ellipsoid_new inv2]. unfold evaluate. rewrite W2. cbn -[ellipsoid_new inv2]. rewrite WS.
    cbn -[ellipsoid_new inv2]. rewrite W1. cbn -[ellipsoid_new inv2]. unfold ellipsoid_new. rnum.
    destruct m as [[a b] [c d]]. assert (a * d - b * c <> 0)%R as ND.
    { destruct (Reqb_spec (det2 ((a, b), (c, d))) 0); [discriminate|]. unfold det2 in *. rnum. assumption. }
    assert (det2 (inv2 ((a, b), (c, d))) = / (a * d - b * c))%R as DI.
    { unfold inv2, det2. rnum. field. exact ND. }
    destruct (Reqb_spec (det2 (inv2 ((a, b), (c, d)))) 0) as [Z|_].
    { exfalso. rewrite DI in Z. apply (Rinv_neq_0_compat _ ND). exact Z. }
    rewrite ER. cbn [called obind fst snd]. do 2 f_equal. unfold inv2 at 1. rewrite DI. unfold inv2, det2. rnum.
    f_equal; f_equal; field; exact ND.
  Qed.

  (** C143 fails: the representation of a curve is no Python expression, whatever the parameters. *)
  Theorem repr_curve_refuted : forall c, Forall (fun x => plain (show x)) (c_params c) -> plain (f_name (c_fun c)) ->
    parse_call (repr_curve show c) = Failed BadSyntax.
  Proof.
    intros [f ps rad] PS PF. cbn [c_fun c_params] in PS, PF. rewrite Forall_forall in PS. unfold repr_curve. cbn [c_fun c_params c_rad].
    set (tail := tuple_inside show ps). set (b := if rad then "True" else "False").
    assert (plain b) as PB by (unfold b; destruct rad; repeat split; discriminate).
    assert (forall c l, c = "("%char \/ c = ")"%char -> (forall x, In x l -> plain (show x)) -> lacks c (join (map show l))) as JL.
    { intros c l HC. induction l as [|x l IH]; intros HP; [exact I|]. destruct (HP x (or_introl eq_refl)) as [_ [H1 [H2 _]]].
      destruct l as [|y l]; [cbn [map join]; destruct HC as [-> | ->]; assumption|].
      change (join (map show (x :: y :: l))) with (show x ++ ", " ++ join (map show (y :: l)))%string.
      apply lacks_app; [destruct HC as [-> | ->]; assumption|]. apply lacks_app; [|apply IH; intros z Hz; apply HP; right; exact Hz].
      destruct HC as [-> | ->]; repeat split; discriminate. }
    assert (forall c, c = "("%char \/ c = ")"%char -> lacks c tail) as TL.
    { intros c HC. unfold tail, tuple_inside. destruct ps as [|x [|y ps]]; [exact I| |apply JL; [exact HC|exact PS]].
      destruct (PS x (or_introl eq_refl)) as [_ [H1 [H2 _]]]. apply lacks_app; [destruct HC as [-> | ->]; assumption|].
      destruct HC as [-> | ->]; repeat split; discriminate. }
    unfold parse_call.
    change ("PolarDiagramCurve(f=" ++ f_name f ++ ", " ++ tail ++ ", radians=" ++ b ++ ")")%string with
      ("PolarDiagramCurve" ++ String "("%char ("f=" ++ f_name f ++ ", " ++ tail ++ ", radians=" ++ b ++ ")"))%string.
    rewrite cut_app by (repeat split; discriminate).
    replace ("f=" ++ f_name f ++ ", " ++ tail ++ ", radians=" ++ b ++ ")")%string with
      (("f=" ++ f_name f ++ ", " ++ tail ++ ", radians=" ++ b) ++ String ")"%char "")%string by (rewrite !app_assoc_s; reflexivity).
    rewrite cut_app.
    2:{ apply lacks_app; [repeat split; discriminate|]. apply lacks_app; [apply PF|]. apply lacks_app; [repeat split; discriminate|].
        apply lacks_app; [apply TL; auto|]. apply lacks_app; [repeat split; discriminate|]. apply PB. }
    change (String.eqb ("f=" ++ f_name f ++ ", " ++ tail ++ ", radians=" ++ b) "") with false. cbv iota.
    change ("f=" ++ f_name f ++ ", " ++ tail ++ ", radians=" ++ b)%string with
      (("f=" ++ f_name f) ++ String ","%char (" " ++ tail ++ ", radians=" ++ b))%string.
    rewrite pieces_app by (apply lacks_app; [repeat split; discriminate|apply PF]).
    assert (exists h X, lacks ","%char h /\ lacks "="%char h /\
      (" " ++ tail ++ ", radians=" ++ b = (" " ++ h) ++ String ","%char X)%string) as [h [X [H1 [H2 EX]]]].
    { unfold tail, tuple_inside. destruct ps as [|x [|y ps]].
      - exists "", (" radians=" ++ b)%string. repeat split.
      - exists (show x), (", radians=" ++ b)%string. split; [apply PS; left; reflexivity|]. split; [apply PS; left; reflexivity|]. rewrite !app_assoc_s. reflexivity.
      - exists (show x), (" " ++ join (map show (y :: ps)) ++ ", radians=" ++ b)%string. split; [apply PS; left; reflexivity|]. split; [apply PS; left; reflexivity|].
        change (join (map show (x :: y :: ps))) with (show x ++ ", " ++ join (map show (y :: ps)))%string. rewrite !app_assoc_s. reflexivity. }
    rewrite EX. rewrite pieces_app by (apply lacks_app; [repeat split; discriminate|exact H1]).
    assert (forall l, arguments ((" " ++ h)%string :: l) true = Failed BadSyntax) as AF.
    { intros l. cbn [arguments]. change (" " ++ h)%string with (spaces 1 ++ h)%string. rewrite lstrip_spaces.
      rewrite cut_none_s.
      - destruct (String.eqb (lstrip h) ""); reflexivity.
      - clear - H2. induction h as [|a h IH]; [exact I|]. cbn. destruct (Ascii.eqb a " "%char); [apply IH, H2|exact H2]. }
    cbn [arguments append lstrip cut Ascii.eqb Bool.eqb obind]. cbn in AF. rewrite AF. reflexivity.
  Qed.
End Claims.

Print Assumptions repr_rebuilds_partial.
Print Assumptions repr_default_weigher_refuted.
Print Assumptions repr_dimensions_refuted.
Print Assumptions repr_keywords_refuted.
Print Assumptions repr_ellipsoid_refuted.
Print Assumptions repr_curve_refuted.

(* ---- examples ---- *)

Definition show_ex (x : R) : string := if Reqb x 2%R then "2.0" else "0.5".
Definition norm_ex : norm := mkNorm 1 (Some "norm").
Definition nameless_ex : norm := mkNorm 2 None.
Definition words_ex (s : string) : option value :=
  if String.eqb s "2.0" then Some (VNum 2)
  else if String.eqb s "0.5" then Some (VNum 0.5)
  else if String.eqb s "3" then Some (VInt 3)
  else if String.eqb s "M" then Some (VMat ((1/2, 0), (0, 1/2)))%R
  else if String.eqb s "norm" then Some (VNorm norm_ex)
  else None.
Definition show_int_ex (z : Z) : string := "3".
Definition show_mat_ex (m : (R * R) * (R * R)) : string := "M".

Lemma show_two : show_ex 2 = "2.0".
Proof. unfold show_ex. destruct (Reqb_spec 2 2); [reflexivity|lra]. Qed.
Lemma show_half : show_ex 0.5 = "0.5".
Proof. unfold show_ex. destruct (Reqb_spec 0.5 2); [lra|reflexivity]. Qed.

Example fine_ex :
  fine show_ex show_int_ex words_ex (OBall norm_ex 2) /\
  fine show_ex show_int_ex words_ex (OScalingBall 3 norm_ex) /\
  fine show_ex show_int_ex words_ex (OIdw 3 norm_ex) /\
  fine show_ex show_int_ex words_ex (OQuantile 2) /\
  fine show_ex show_int_ex words_ex (OBound 0.5 2) /\
  fine show_ex show_int_ex words_ex (OMean 2 (Some norm_ex) None) /\
  fine show_ex show_int_ex words_ex (OMember 2 0.5 norm_ex None).
Proof.
  assert (known words_ex norm_ex) as K by (exists "norm"; repeat split; discriminate).
  assert (shown show_ex words_ex 2) as S2 by (unfold shown; rewrite show_two; repeat split; discriminate).
  assert (shown show_ex words_ex 0.5) as S5 by (unfold shown; rewrite show_half; repeat split; discriminate).
  assert (shown_int show_int_ex words_ex 3) as S3 by (unfold shown_int; repeat split; discriminate).
  repeat split; try exact K; try apply S2; try apply S5; try apply S3; try lra; try lia.
Qed.

Example ball_ex : repr show_ex show_int_ex show_mat_ex (OBall norm_ex 2) = Ok "Ball(norm=norm, radius=2.0)".
Proof. cbn [repr dunder_name n_name norm_ex rbind]. rewrite show_two. reflexivity. Qed.
Example nameless_repr_ex : n_name nameless_ex = None.
Proof. reflexivity. Qed.

(** Twice the identity is stored as half of it, and the representation makes twice the identity of that. *)
Example ellipsoid_ex :
  exists e, ellipsoid_new (Some ((2, 0), (0, 2))%R) 2%R = Ok e /\ fst e = ((1/2, 0), (0, 1/2))%R /\ snd e = 2%R /\
    fst e <> ((2, 0), (0, 2))%R /\ plain (show_mat_ex (fst e)) /\ words_ex (show_mat_ex (fst e)) = Some (VMat (fst e)).
Proof.
  unfold ellipsoid_new. rnum. unfold det2. rnum. destruct (Reqb_spec (2 * 2 - 0 * 0) 0); [lra|]. rewrite Rleb_false by lra.
  eexists. split; [reflexivity|]. cbn [fst snd].
  assert (inv2 ((2, 0), (0, 2))%R = ((1/2, 0), (0, 1/2))%R) as ->.
  { unfold inv2, det2. rnum. f_equal; f_equal; field. }
  split; [reflexivity|]. split; [reflexivity|]. split; [intros H; injection H; lra|].
  split; [repeat split; discriminate|reflexivity].
Qed.

(** A curve with two parameters. *)
Example curve_repr_ex : forall f, f_name f = "f" ->
  repr_curve show_ex (mkCurve f [2; 0.5]%R true) = "PolarDiagramCurve(f=f, 2.0, 0.5, radians=True)" /\
  parse_call (repr_curve show_ex (mkCurve f [2; 0.5]%R true)) = Failed BadSyntax.
Proof.
  intros f E. split.
  - unfold repr_curve. cbn [c_fun c_params c_rad tuple_inside map join]. rewrite E, show_two, show_half. reflexivity.
  - apply repr_curve_refuted; cbn [c_fun c_params]; [|rewrite E; repeat split; discriminate].
    constructor; [rewrite show_two; repeat split; discriminate|]. constructor; [rewrite show_half; repeat split; discriminate|constructor].
Qed.
