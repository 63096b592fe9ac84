(** * What the text of a [Data] object tells

    [str(data)] names every column with its class and shows its entries, from ten rows on only the first
    and the last five. *)

From Coq Require Import String Ascii.
From Coq Require Import List Bool Arith ZArith QArith Lia.
From Verif Require Import Py Dict ListX DataModel DataSpec StrModel StrSpec StrProps DataTextModel.
Import ListNotations.
Open Scope string_scope.
Open Scope list_scope.
Open Scope nat_scope.

(** ** Specification *)

(** A text without the character [c]. *)
Definition without (c : ascii) (s : string) : Prop := sforall (fun x => negb (Ascii.eqb x c)) s = true.

(** The text of an entry: not empty, without commas and line breaks. *)
Definition word (s : string) : Prop := s <> "" /\ without "," s /\ sforall inline s = true.

(** The texts of the entries with [P] show which entry it is. *)
Definition telling (P : cell -> Prop) (show : cell -> string) : Prop :=
  (forall v, P v -> word (show v)) /\ forall v w, P v -> P w -> show v = show w -> v = w.

(** Two columns that look alike: equal, or both long with the same first and last five entries. *)
Definition alike (c c' : list cell) : Prop :=
  (length c < 10 /\ c = c') \/
  (10 <= length c /\ 10 <= length c' /\ firstn 5 c = firstn 5 c' /\ skipn (length c - 5) c = skipn (length c' - 5) c').

(** Two tables that look alike: the same keys in the same order, the same classes, columns that look alike. *)
Definition look_alike (d d' : Data) : Prop :=
  Forall2 (fun kc kc' => fst kc = fst kc' /\ dget (fst kc) (types d) = dget (fst kc') (types d') /\ alike (snd kc) (snd kc'))
          (cols d) (cols d').

(** ** Proofs *)

(** The pieces of a text between the characters [c]. *)
Fixpoint pieces (c : ascii) (s : string) : list string :=
  match s with
  | EmptyString => [EmptyString]
  | String x r => if Ascii.eqb x c then EmptyString :: pieces c r
                  else match pieces c r with l :: ls => String x l :: ls | [] => [String x EmptyString] end
  end.
Lemma pieces_break : forall c a b, without c a -> pieces c (a ++ String c b) = a :: pieces c b.
Proof.
  induction a as [|x a IH]; intros b F; cbn.
  - rewrite Ascii.eqb_refl. reflexivity.
  - unfold without in F. cbn in F. apply andb_prop in F. destruct F as [F1 F2]. apply negb_true_iff in F1. rewrite F1.
    rewrite IH by exact F2. reflexivity.
Qed.
Lemma pieces_end : forall c a, without c a -> pieces c a = [a].
Proof.
  induction a as [|x a IH]; intros F; auto. unfold without in F. cbn in *. apply andb_prop in F. destruct F as [F1 F2].
  apply negb_true_iff in F1. rewrite F1, IH by exact F2. reflexivity.
Qed.
Lemma without_app : forall c a b, without c (a ++ b)%string <-> without c a /\ without c b.
Proof. intros. unfold without. rewrite sforall_app. apply andb_true_iff. Qed.

(** Texts joined by commas. *)
Lemma pieces_comma : forall l e, (forall s, In s l -> without "," s) -> without "," e -> l <> [] ->
  pieces "," (sep_join "," l ++ e) = removelast l ++ [last l "" ++ e]%string.
Proof.
  induction l as [|x l IH]; intros e F Fe NE; [contradiction|]. destruct l as [|y l].
  - cbn [sep_join removelast last app]. apply pieces_end. apply without_app. split; auto. apply F. left. auto.
  - change (sep_join "," (x :: y :: l)) with (x ++ "," ++ sep_join "," (y :: l))%string. rewrite !sapp_assoc.
    change ("," ++ sep_join "," (y :: l) ++ e)%string with (String "," (sep_join "," (y :: l) ++ e)).
    rewrite pieces_break by (apply F; left; auto). rewrite (IH e) by first [intros s I; apply F; right; exact I|exact Fe|discriminate].
    change (removelast (x :: y :: l)) with (x :: removelast (y :: l)). change (last (x :: y :: l) "") with (last (y :: l) ""). reflexivity.
Qed.
(** Texts joined by commas and blanks. *)
Definition blanked (l : list string) : list string := match l with [] => [] | x :: r => x :: map (fun s => String " " s) r end.
Lemma blanked_join : forall l, sep_join ", " l = sep_join "," (blanked l).
Proof.
  intros [|x l]; auto. revert x. induction l as [|y l IH]; intros x; auto.
  change (sep_join ", " (x :: y :: l)) with (x ++ ", " ++ sep_join ", " (y :: l))%string.
  cbn [blanked map]. change (sep_join "," (x :: String " " y :: map (fun s : string => String " " s) l))
    with (x ++ "," ++ sep_join "," (String " " y :: map (fun s : string => String " " s) l))%string.
  rewrite IH. cbn [blanked]. f_equal. destruct l as [|z l]; reflexivity.
Qed.
Lemma blanked_inj : forall l l', blanked l = blanked l' -> l = l'.
Proof.
  intros [|x l] [|y l'] E; try discriminate; auto. cbn in E. injection E as -> E. f_equal.
  revert l' E. induction l as [|a l IH]; intros [|b l'] E; try discriminate; auto. cbn in E. injection E as -> E. f_equal. auto.
Qed.
Lemma blanked_length : forall l, length (blanked l) = length l.
Proof. intros [|x l]; auto. cbn. rewrite map_length. reflexivity. Qed.
Lemma blanked_without : forall l, (forall s, In s l -> without "," s) -> forall s, In s (blanked l) -> without "," s.
Proof.
  intros [|x l] F s I; [contradiction|]. destruct I as [<-|I]; [apply F; left; auto|]. apply in_map_iff in I.
  destruct I as [t [<- I]]. unfold without. cbn. apply F. right. auto.
Qed.
Lemma sapp_inj_r : forall a b c, (a ++ c = b ++ c)%string -> a = b.
Proof.
  intros a b c E. assert (String.length a = String.length b) as L.
  { apply (f_equal String.length) in E. rewrite !slen_app in E. lia. }
  revert b L E. induction a as [|x a IH]; intros [|y b] L E; try discriminate; auto. cbn in *. injection E as -> E. f_equal.
  apply IH; auto.
Qed.
Lemma sapp_inj_l : forall a b c, (a ++ b = a ++ c)%string -> b = c.
Proof. induction a as [|x a IH]; intros b c E; auto. cbn in E. injection E as E. auto. Qed.
Lemma last_split : forall A (l : list A) d, l <> [] -> l = removelast l ++ [last l d].
Proof. intros. apply app_removelast_last. auto. Qed.

Lemma ended_inj : forall (l l' : list string) e, l <> [] -> l' <> [] ->
  removelast l ++ [last l "" ++ e]%string = removelast l' ++ [last l' "" ++ e]%string -> l = l'.
Proof.
  intros l l' e N N' E. apply app_inj_tail in E. destruct E as [E1 E2]. apply sapp_inj_r in E2.
  rewrite (last_split _ l "" N), (last_split _ l' "" N'), E1, E2. reflexivity.
Qed.
Lemma ended_length : forall (l : list string) e, l <> [] -> length (removelast l ++ [last l "" ++ e]%string) = length l.
Proof. intros l e N. rewrite (last_split _ l "" N) at 3. rewrite !app_length. reflexivity. Qed.

Lemma app_inj_length : forall A (a a' b b' : list A), length a = length a' -> a ++ b = a' ++ b' -> a = a' /\ b = b'.
Proof.
  intros A a. induction a as [|x a IH]; intros [|y a'] b b' L E; try discriminate; auto. cbn in *. injection E as -> E.
  destruct (IH a' b b') as [-> ->]; auto.
Qed.

Lemma firstn_nonempty : forall A n (l : list A), 0 < n -> l <> [] -> firstn n l <> [].
Proof. intros A [|n] [|x l] P N; cbn; try lia; congruence. Qed.

Section Tells.
  Variable str_ repr_ : cell -> string.
  Variable tname : option ptype -> string.
  Variable P : cell -> Prop.
  Definition all (l : list cell) : Prop := forall v, In v l -> P v.
  Lemma all_firstn : forall n l, all l -> all (firstn n l).
  Proof. intros n l A v I. apply A. rewrite <- (firstn_skipn n l). apply in_or_app. auto. Qed.
  Lemma all_skipn : forall n l, all l -> all (skipn n l).
  Proof. intros n l A v I. apply A. rewrite <- (firstn_skipn n l). apply in_or_app. auto. Qed.

  Definition long_text (a b : list cell) : string :=
    (sep_join "," (map str_ a) ++ "," ++ " ..." ++ " ," ++ sep_join "," (map str_ b) ++ "]")%string.

  Lemma pieces_list : forall l m, (forall s, In s l -> without "," s) -> l <> [] ->
    pieces "," (sep_join "," l ++ String "," m) = l ++ pieces "," m.
  Proof.
    induction l as [|x l IH]; intros m F NE; [contradiction|]. destruct l as [|y l].
    - cbn [sep_join app]. apply pieces_break. apply F. left. auto.
    - change (sep_join "," (x :: y :: l)) with (x ++ "," ++ sep_join "," (y :: l))%string. rewrite !sapp_assoc.
      change ("," ++ sep_join "," (y :: l) ++ String "," m)%string with (String "," (sep_join "," (y :: l) ++ String "," m)).
      rewrite pieces_break by (apply F; left; auto). rewrite (IH m) by first [intros s I; apply F; right; exact I|discriminate]. reflexivity.
  Qed.

  Lemma long_pieces : telling P str_ -> forall a b, all a -> all b -> a <> [] -> b <> [] ->
    pieces "," (long_text a b) = map str_ a ++ " ... " :: removelast (map str_ b) ++ [last (map str_ b) "" ++ "]"]%string.
  Proof.
    intros [W _] a b AA AB NA NB. unfold long_text.
    assert (forall l, all l -> forall s, In s (map str_ l) -> without "," s) as F.
    { intros l A s I. apply in_map_iff in I. destruct I as [v [<- I]]. apply (W v). auto. }
    change ("," ++ " ..." ++ " ," ++ sep_join "," (map str_ b) ++ "]")%string
      with (String "," (" ... " ++ String "," (sep_join "," (map str_ b) ++ "]")))%string.
    rewrite pieces_list; [|apply F; auto|intros E; apply map_eq_nil in E; auto]. f_equal.
    rewrite pieces_break by reflexivity. f_equal.
    apply pieces_comma; [apply F; auto|reflexivity|intros E; apply map_eq_nil in E; auto].
  Qed.
  Lemma short_pieces : telling P repr_ -> forall c, all c ->
    pieces "," (sep_join ", " (map repr_ c) ++ "]") =
      match c with [] => ["]"] | _ => removelast (blanked (map repr_ c)) ++ [last (blanked (map repr_ c)) "" ++ "]"]%string end.
  Proof.
    intros [W _] c A. destruct c as [|v c0] eqn:EC; [reflexivity|]. rewrite <- EC in *. rewrite blanked_join.
    rewrite pieces_comma; [reflexivity| |reflexivity|rewrite EC; discriminate].
    apply blanked_without. intros s I. apply in_map_iff in I. destruct I as [w [<- I]]. apply (W w). auto.
  Qed.
  Lemma short_pieces_length : telling P repr_ -> forall c, all c -> length (pieces "," (sep_join ", " (map repr_ c) ++ "]")) = Nat.max 1 (length c).
  Proof.
    intros T c A. rewrite short_pieces by auto. destruct c as [|v c0] eqn:EC; [reflexivity|]. rewrite <- EC.
    rewrite ended_length by (rewrite EC; discriminate). rewrite blanked_length, map_length. rewrite EC. cbn. lia.
  Qed.
  Lemma map_show_inj : forall show, telling P show -> forall l l', all l -> all l' -> map show l = map show l' -> l = l'.
  Proof.
    intros show [_ I] l. induction l as [|x l IH]; intros [|y l'] A A' E; try discriminate; auto. cbn in E. injection E as E1 E2.
    f_equal; [apply I; auto; [apply A|apply A']; left; auto|apply IH; auto; intros v J; [apply A|apply A']; right; auto].
  Qed.

  Lemma column_text_long : forall c, 10 <= length c -> column_text str_ repr_ c = ("[" ++ long_text (firstn 5 c) (skipn (length c - 5) c))%string.
  Proof. intros c L. unfold column_text. assert ((length c <? 10) = false) as -> by (apply Nat.ltb_ge; auto). reflexivity. Qed.
  Lemma column_text_short : forall c, length c < 10 -> column_text str_ repr_ c = ("[" ++ sep_join ", " (map repr_ c) ++ "]")%string.
  Proof. intros c L. unfold column_text. assert ((length c <? 10) = true) as -> by (apply Nat.ltb_lt; auto). reflexivity. Qed.

  Lemma five_first : forall A (c : list A), 10 <= length c -> length (firstn 5 c) = 5.
  Proof. intros A c L. rewrite firstn_length. lia. Qed.
  Lemma five_last : forall A (c : list A), 10 <= length c -> length (skipn (length c - 5) c) = 5.
  Proof. intros A c L. rewrite skipn_length. lia. Qed.
  Lemma length_nonempty : forall A (l : list A) n, length l = S n -> l <> [].
  Proof. intros A l n E ->. discriminate. Qed.

  Lemma long_pieces_length : telling P str_ -> forall c, all c -> 10 <= length c ->
    length (pieces "," (long_text (firstn 5 c) (skipn (length c - 5) c))) = 11.
  Proof.
    intros T c A L. pose proof (five_first _ c L) as L1. pose proof (five_last _ c L) as L2.
    rewrite long_pieces by first [exact T|apply all_firstn; exact A|apply all_skipn; exact A|eapply length_nonempty; eauto]. rewrite app_length. cbn [length].
    rewrite ended_length by (intros E; apply map_eq_nil in E; rewrite E in L2; discriminate). rewrite !map_length, L1, L2. reflexivity.
  Qed.

  Lemma joined_nonempty : telling P repr_ -> forall c, all c -> sep_join ", " (map repr_ c) = "" -> c = [].
  Proof.
    intros [W _] [|v c] A E; auto. exfalso. destruct (W v) as [NE _]; [apply A; left; auto|]. destruct c as [|w c]; cbn [map sep_join] in E; [auto|].
    destruct (repr_ v); [auto|discriminate].
  Qed.
  Lemma short_inj : telling P repr_ -> forall c c', all c -> all c' -> sep_join ", " (map repr_ c) = sep_join ", " (map repr_ c') -> c = c'.
  Proof.
    intros T c c' A A' E. destruct c as [|v c0].
    { symmetry. apply joined_nonempty; auto. }
    destruct c' as [|w c1].
    { apply joined_nonempty; auto. }
    apply (f_equal (fun s => pieces "," (s ++ "]")%string)) in E. cbv beta in E. rewrite !short_pieces in E by auto.
    apply ended_inj in E; [|discriminate|discriminate]. apply blanked_inj in E. apply (map_show_inj repr_ T); auto.
  Qed.

  Lemma column_text_alike : telling P str_ -> telling P repr_ -> forall c c', all c -> all c' ->
    column_text str_ repr_ c = column_text str_ repr_ c' <-> alike c c'.
  Proof.
    intros TS TR c c' A A'. split.
    - intros E. destruct (Nat.lt_ge_cases (length c) 10) as [L|L], (Nat.lt_ge_cases (length c') 10) as [L'|L'].
      + left. split; auto. rewrite !column_text_short in E by auto. apply sapp_inj_l in E. apply sapp_inj_r in E. apply short_inj; auto.
      + exfalso. rewrite (column_text_short c), (column_text_long c') in E by auto. apply sapp_inj_l in E.
        apply (f_equal (fun s => length (pieces "," s))) in E. cbv beta in E. rewrite short_pieces_length, long_pieces_length in E by auto. lia.
      + exfalso. rewrite (column_text_short c'), (column_text_long c) in E by auto. apply sapp_inj_l in E.
        apply (f_equal (fun s => length (pieces "," s))) in E. cbv beta in E. rewrite short_pieces_length, long_pieces_length in E by auto. lia.
      + right. split; auto. split; auto. rewrite !column_text_long in E by auto. apply sapp_inj_l in E. apply (f_equal (pieces ",")) in E.
        pose proof (five_first _ c L) as L1. pose proof (five_last _ c L) as L2.
        pose proof (five_first _ c' L') as L3. pose proof (five_last _ c' L') as L4.
        rewrite !long_pieces in E by first [exact TS|apply all_firstn; assumption|apply all_skipn; assumption|eapply length_nonempty; eauto].
        assert (all (firstn 5 c) /\ all (firstn 5 c') /\ all (skipn (length c - 5) c) /\ all (skipn (length c' - 5) c')) as [A1 [A2 [A3 A4]]] by (repeat split; first [apply all_firstn; assumption|apply all_skipn; assumption]).
        set (a := firstn 5 c) in *. set (b := skipn (length c - 5) c) in *. set (a' := firstn 5 c') in *. set (b' := skipn (length c' - 5) c') in *.
        assert (map str_ a = map str_ a' /\ removelast (map str_ b) ++ [last (map str_ b) "" ++ "]"]%string = removelast (map str_ b') ++ [last (map str_ b') "" ++ "]"]%string) as [E1 E2].
        { assert (length (map str_ a) = length (map str_ a')) as LL by (rewrite !map_length, L1, L3; reflexivity).
          apply app_inj_length in E; auto. destruct E as [E1 E2]. split; auto. injection E2 as E2. auto. }
        apply ended_inj in E2; try (intros Q; apply map_eq_nil in Q; first [rewrite Q in L2; discriminate|rewrite Q in L4; discriminate]).
        split; apply (map_show_inj str_ TS); auto.
    - intros [[L ->]|[L [L' [E1 E2]]]]; auto. rewrite !column_text_long by auto. rewrite E1, E2. reflexivity.
  Qed.

  (** The two lines of a column. *)
  Definition head_line (d : Data) (kc : string * list cell) : string :=
    ("Data field '" ++ fst kc ++ "' of type " ++ tname (match dget (fst kc) (types d) with Some t => t | None => None end) ++ ":")%string.
  Definition body_line (kc : string * list cell) : string := String (ascii_of_nat 9) (column_text str_ repr_ (snd kc)).
  Definition two_lines (d : Data) (kc : string * list cell) : list string := [head_line d kc; body_line kc].

  Lemma text_lines : forall d l, (forall kc, In kc l -> exists t, dget (fst kc) (types d) = Some t) ->
    exists ts, mapM (field_text str_ repr_ tname d) l = Ok ts /\
      join ts = join (map (fun r => r ++ nl)%string (flat_map (two_lines d) l)).
  Proof.
    intros d l. induction l as [|kc l IH]; intros F; [exists []; auto|]. destruct IH as [ts [E J]]; [intros x I; apply F; right; auto|].
    destruct (F kc) as [t Et]; [left; auto|]. cbn [mapM]. unfold field_text at 1. rewrite Et, E. cbn [rbind]. eexists. split; [reflexivity|].
    cbn [flat_map two_lines app map]. rewrite !join_cons, J. unfold head_line, body_line. rewrite Et.
    set (rest := join (map (fun r : string => (r ++ nl)%string) (flat_map (two_lines d) l))). clearbody rest.
    rewrite ?sapp_assoc. cbn [String.append]. rewrite ?sapp_assoc. repeat (f_equal; [idtac]). rewrite ?sapp_assoc. reflexivity.
  Qed.

  Definition readable (d : Data) : Prop := typed d /\ (forall k, In k (data_keys d) -> without "'" k /\ sforall inline k = true) /\
    forall k col v, In (k, col) (cols d) -> In v col -> P v.

  Lemma typed_has : forall d, typed d -> forall kc, In kc (cols d) -> exists t, dget (fst kc) (types d) = Some t.
  Proof.
    intros d [ND [_ T]] [k c] I. destruct (T k c) as [t [E _]]; [apply NoDup_dget; auto|]. exists t. auto.
  Qed.

  Lemma inline_join : forall sep l, sforall inline sep = true -> (forall s, In s l -> sforall inline s = true) -> sforall inline (sep_join sep l) = true.
  Proof.
    intros sep l S. induction l as [|x l IH]; intros F; auto. destruct l as [|y l]; [apply F; left; auto|].
    change (sep_join sep (x :: y :: l)) with (x ++ sep ++ sep_join sep (y :: l))%string. rewrite !sforall_app.
    rewrite S, (F x) by (left; auto). rewrite IH by (intros s I; apply F; right; auto). reflexivity.
  Qed.
  Lemma column_inline : telling P str_ -> telling P repr_ -> forall c, all c -> sforall inline (column_text str_ repr_ c) = true.
  Proof.
    intros [WS _] [WR _] c A.
    assert (forall (show : cell -> string) (l : list cell), all l -> (forall v, P v -> word (show v)) -> forall s : string, In s (map show l) -> sforall inline s = true) as F.
    { intros show l AL W s I. apply in_map_iff in I. destruct I as [v [<- I]]. apply (W v). auto. }
    unfold column_text. destruct (length c <? 10).
    - cbn [String.append sforall inline]. rewrite sforall_app, inline_join; [reflexivity|reflexivity|eapply F; eauto].
    - cbn [String.append sforall inline]. rewrite !sforall_app. cbn [String.append sforall inline]. rewrite !sforall_app.
      rewrite !inline_join; try reflexivity; eapply F; eauto; first [apply all_firstn; exact A|apply all_skipn; exact A].
  Qed.

  Lemma head_inj : (forall t t', tname t = tname t' -> t = t') -> forall k t k' t', without "'" k -> without "'" k' ->
    ("Data field '" ++ k ++ "' of type " ++ tname t ++ ":" = "Data field '" ++ k' ++ "' of type " ++ tname t' ++ ":")%string -> k = k' /\ t = t'.
  Proof.
    intros TI k t k' t' W W' E. apply sapp_inj_l in E.
    change ("' of type " ++ tname t ++ ":")%string with (String "'" (" of type " ++ tname t ++ ":")) in E.
    change ("' of type " ++ tname t' ++ ":")%string with (String "'" (" of type " ++ tname t' ++ ":")) in E.
    assert (k = k') as <-.
    { apply (f_equal (pieces "'")) in E. rewrite !pieces_break in E by auto. injection E as E _. auto. }
    split; auto. apply sapp_inj_l in E. injection E as E. apply TI. apply sapp_inj_r in E. auto.
  Qed.

  (** C151.  If the texts of entries tell the entries, have no commas and line breaks, and the names of columns no apostrophes and line
      breaks, two tables have the same text exactly if they look alike. *)
  Theorem data_text_tells : telling P str_ -> telling P repr_ -> (forall t t', tname t = tname t' -> t = t') -> (forall t, sforall inline (tname t) = true) ->
    forall d d', readable d -> readable d' ->
    exists s s', data_text str_ repr_ tname d = Ok s /\ data_text str_ repr_ tname d' = Ok s' /\ (s = s' <-> look_alike d d').
  Proof.
    intros TS TR TI TL d d' [T [K AP]] [T' [K' AP']].
    destruct (text_lines d (cols d) (typed_has d T)) as [ts [E J]]. destruct (text_lines d' (cols d') (typed_has d' T')) as [ts' [E' J']].
    exists (join ts), (join ts'). unfold data_text. rewrite E, E'. cbn [rbind]. split; auto. split; auto. rewrite J, J'.
    assert (forall e l, (forall kc, In kc l -> sforall inline (fst kc) = true /\ all (snd kc)) -> forall r, In r (flat_map (two_lines e) l) -> sforall inline r = true) as IN.
    { intros e l F r I. apply in_flat_map in I. destruct I as [kc [I [<-|[<-|[]]]]].
      - unfold head_line. rewrite !sforall_app. rewrite (proj1 (F kc I)), TL. reflexivity.
      - unfold body_line. cbn [sforall inline]. rewrite column_inline; auto. apply (F kc I). }
    pose proof (typed_has d T) as H. pose proof (typed_has d' T') as H'.
    assert (forall kc, In kc (cols d) -> without "'" (fst kc) /\ sforall inline (fst kc) = true /\ all (snd kc)) as KI.
    { intros [k c] I. split; [apply K; apply (in_map fst _ _ I)|]. split; [apply K; apply (in_map fst _ _ I)|]. intros v IV. apply (AP k c); auto. }
    assert (forall kc, In kc (cols d') -> without "'" (fst kc) /\ sforall inline (fst kc) = true /\ all (snd kc)) as KI'.
    { intros [k c] I. split; [apply K'; apply (in_map fst _ _ I)|]. split; [apply K'; apply (in_map fst _ _ I)|]. intros v IV. apply (AP' k c); auto. }
    unfold look_alike. clear - TS TR TI IN H H' KI KI'. revert H H' KI KI'. generalize (cols d) as l, (cols d') as l'. intros l l' H H' KI KI'. split.
    - intros Q. apply (f_equal (fun s => lines (s ++ ""))) in Q. cbv beta in Q.
      rewrite !lines_rows in Q by (eapply IN; intros kc I; first [apply (KI kc I)|apply (KI' kc I)]).
      revert l' H' KI' Q. induction l as [|kc l IH]; intros [|kc' l'] H' KI' Q.
      + constructor.
      + apply (f_equal (@length string)) in Q. cbn in Q. rewrite app_length in Q. cbn in Q. lia.
      + apply (f_equal (@length string)) in Q. cbn in Q. rewrite app_length in Q. cbn in Q. lia.
      + cbn [flat_map two_lines app] in Q. injection Q as Q1 Q2 Q3.
        constructor; [|apply IH; auto; intros x I; first [apply H; right; exact I|apply H'; right; exact I|apply KI; right; exact I|apply KI'; right; exact I]].
        destruct (H kc) as [t Et]; [left; auto|]. destruct (H' kc') as [t' Et']; [left; auto|].
        assert (head_line d kc = head_line d' kc') as Q0 by (unfold head_line; cbn [String.append]; rewrite Q1; reflexivity).
        unfold head_line in Q0. rewrite Et, Et' in Q0. apply head_inj in Q0; auto; [|apply (KI kc); left; auto|apply (KI' kc'); left; auto].
        destruct Q0 as [QK QT]. rewrite Et, Et', QT. split; auto. split; auto. apply column_text_alike; auto; [apply (KI kc)|apply (KI' kc')]; left; auto.
    - intros F. f_equal. f_equal. clear - TS TR F KI KI'. induction F as [|[k c] [k' c'] l l' [E1 [E2 E3]] F IH]; auto.
      cbn [flat_map]. rewrite IH by (intros x I; first [apply KI; right; exact I|apply KI'; right; exact I]). f_equal. unfold two_lines, head_line, body_line. cbn [fst snd] in *. rewrite E2, E1.
      apply (column_text_alike TS TR) in E3; [rewrite E3; reflexivity| |]; [apply (KI (k, c))|apply (KI' (k', c'))]; left; auto.
  Qed.
End Tells.
Print Assumptions data_text_tells.

(** Texts of numbers and of None. *)
Definition show_cell (c : cell) : string := match c with None => "None" | Some (VInt z) => if (z =? 1)%Z then "1" else "2" | Some (VStr s) => s | _ => "x" end.

(** C151.  From ten rows on the entries between the first and the last five are not shown: for all texts of entries two tables with
    different columns have the same text. *)
Theorem data_text_long_refuted : forall str_ repr_ tname (v w : pyval), v <> w -> vtype v = vtype w ->
  exists d d', readable (fun _ => True) d /\ readable (fun _ => True) d' /\ get_col d "x" <> get_col d' "x" /\
    data_text str_ repr_ tname d = data_text str_ repr_ tname d'.
Proof.
  intros str_ repr_ tname v w NE TE.
  exists (mkData [("x", repeat (Some v) 5 ++ [Some v] ++ repeat (Some v) 5)] [("x", Some (vtype v))] 11),
         (mkData [("x", repeat (Some v) 5 ++ [Some w] ++ repeat (Some v) 5)] [("x", Some (vtype v))] 11).
  assert (forall c, (forall u, In (Some u) c -> vtype u = vtype v) -> readable (fun _ => True) (mkData [("x", c)] [("x", Some (vtype v))] 11)) as RD.
  { intros c TC. split; [split; [|split]|].
    - repeat constructor. simpl. tauto.
    - repeat constructor. simpl. tauto.
    - intros k col H. cbn [cols types] in *. cbn [dget] in *. destruct (String.eqb "x" k); [|discriminate]. injection H as <-.
      exists (Some (vtype v)). split; auto. intros u I. f_equal. symmetry. apply TC. auto.
    - split; [|auto]. intros k [<-|[]]. split; reflexivity. }
  split; [apply RD|split; [apply RD|split; [|reflexivity]]].
  - intros u I. cbn in I. repeat (destruct I as [I|I]; [congruence|]). contradiction.
  - intros u I. cbn in I. repeat (destruct I as [I|I]; [congruence|]). contradiction.
  - cbn. congruence.
Qed.
Print Assumptions data_text_long_refuted.

(** C151.  Texts with commas are not told apart in long columns, because they are shown without quotation marks. *)
Theorem data_text_commas_refuted : forall repr_ tname, exists d d', readable (fun _ => True) d /\ readable (fun _ => True) d' /\ get_col d "x" <> get_col d' "x" /\
  (exists c, get_col d "x" = Ok c /\ length c = 10) /\ (exists c, get_col d' "x" = Ok c /\ length c = 10) /\
  data_text show_cell repr_ tname d = data_text show_cell repr_ tname d'.
Proof.
  intros repr_ tname.
  exists (mkData [("x", [Some (VStr "a,b"); Some (VStr "c")] ++ repeat (Some (VStr "d")) 8)] [("x", Some TStr)] 10),
         (mkData [("x", [Some (VStr "a"); Some (VStr "b,c")] ++ repeat (Some (VStr "d")) 8)] [("x", Some TStr)] 10).
  assert (forall c, (forall u, In (Some u) c -> vtype u = TStr) -> readable (fun _ => True) (mkData [("x", c)] [("x", Some TStr)] 10)) as RD.
  { intros c TC. split; [split; [|split]|].
    - repeat constructor. simpl. tauto.
    - repeat constructor. simpl. tauto.
    - intros k col H. cbn [cols types] in *. cbn [dget] in *. destruct (String.eqb "x" k); [|discriminate]. injection H as <-.
      exists (Some TStr). split; auto. intros u I. f_equal. symmetry. apply TC. auto.
    - split; [|auto]. intros k [<-|[]]. split; reflexivity. }
  split; [apply RD|split; [apply RD|split; [|split; [|split; [|reflexivity]]]]].
  - intros u I. cbn in I. repeat (destruct I as [I|I]; [injection I as <-; reflexivity|]). contradiction.
  - intros u I. cbn in I. repeat (destruct I as [I|I]; [injection I as <-; reflexivity|]). contradiction.
  - cbn. discriminate.
  - eexists. split; reflexivity.
  - eexists. split; reflexivity.
Qed.
Print Assumptions data_text_commas_refuted.

Definition class_name (t : option ptype) : string := match t with Some TInt => "<class 'int'>" | None => "None" | _ => "?" end.
Example data_text_example :
  data_text show_cell show_cell class_name (mkData [("TWS", [Some (VInt 1); None]); ("n", repeat (Some (VInt 2)) 11)] [("TWS", Some TInt); ("n", Some TInt)] 11) =
  Ok ("Data field 'TWS' of type <class 'int'>:" ++ nl ++ String (ascii_of_nat 9) ("[1, None]" ++ nl) ++
      "Data field 'n' of type <class 'int'>:" ++ nl ++ String (ascii_of_nat 9) ("[2,2,2,2,2, ... ,2,2,2,2,2]" ++ nl))%string.
Proof. vm_compute. reflexivity. Qed.

(** Tables with None and the numbers 1 and 2 meet the conditions. *)
Definition small (c : cell) : Prop := c = None \/ c = Some (VInt 1) \/ c = Some (VInt 2).
Example telling_meets : telling small show_cell.
Proof.
  split.
  - intros v [->|[->| ->]]; (split; [discriminate|split; reflexivity]).
  - intros v w [->|[->| ->]] [->|[->| ->]] E; auto; discriminate.
Qed.
Example readable_meets : readable small (mkData [("TWS", [Some (VInt 1); None])] [("TWS", Some TInt)] 2).
Proof.
  split; [split; [|split]|].
  - repeat constructor. simpl. tauto.
  - repeat constructor. simpl. tauto.
  - intros k col H. cbn [cols types dget] in *. destruct (String.eqb "TWS" k); [|discriminate]. injection H as <-.
    exists (Some TInt). split; auto. intros u [I|[I|[]]]; [injection I as <-; reflexivity|discriminate].
  - split.
    + intros k [<-|[]]. split; reflexivity.
    + intros k col v [I|[]] J. injection I as <- <-. destruct J as [<-|[<-|[]]]; unfold small; auto.
Qed.

(** Only columns that have a type can be written: if one has none, there is no text. *)
Theorem data_text_untyped : forall str_ repr_ tname d,
  ((exists k c, In (k, c) (cols d) /\ ~ In k (map fst (types d))) -> data_text str_ repr_ tname d = Raise KeyError) /\
  ((forall k c, In (k, c) (cols d) -> In k (map fst (types d))) -> exists s, data_text str_ repr_ tname d = Ok s).
Proof.
  intros str_ repr_ tname d.
  assert (forall k (l : dict (option ptype)), dget k l = None <-> ~ In k (map fst l)) as DN.
  { intros k l. induction l as [|[k' v] l IH]; cbn [dget map fst In]; [tauto|].
    destruct (String.eqb_spec k' k) as [->|N]; [split; [discriminate|tauto]|]. rewrite IH. tauto. }
  unfold data_text. split.
  - intros [k [c [I N]]]. apply DN in N.
    assert (forall l, In (k, c) l -> mapM (field_text str_ repr_ tname d) l = Raise KeyError) as M.
    { induction l as [|kc l IH]; intros H; [destruct H|]. cbn [mapM]. unfold field_text at 1.
      destruct H as [->|H]; [cbn [fst]; rewrite N; reflexivity|].
      destruct (dget (fst kc) (types d)); cbn [rbind]; auto. rewrite (IH H). reflexivity. }
    rewrite M by auto. reflexivity.
  - intros H. assert (forall l, (forall k c, In (k, c) l -> In k (map fst (types d))) -> exists t, mapM (field_text str_ repr_ tname d) l = Ok t) as M.
    { induction l as [|[k c] l IH]; intros F; [exists []; reflexivity|]. cbn [mapM]. unfold field_text at 1. cbn [fst snd].
      destruct (dget k (types d)) as [t|] eqn:E.
      - cbn [rbind]. destruct IH as [ts ->]; [intros; eapply F; right; eauto|]. cbn [rbind]. eauto.
      - apply DN in E. destruct E. apply (F k c). left. reflexivity. }
    destruct (M _ H) as [t ->]. cbn [rbind]. eauto.
Qed.
Print Assumptions data_text_untyped.
