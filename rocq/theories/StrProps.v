(** * Properties of the texts of polar diagrams *)

From Coq Require Import String Ascii DecimalString DecimalNat.
From Coq Require Import List Bool Arith ZArith QArith Reals Lia Lra.
From Verif Require Import Py Num ListX WPointsModel InterpModel DataModel TableModel MultiModel ExtModel ExtProps StrModel StrSpec.
Import ListNotations.
Open Scope nat_scope.
Open Scope string_scope.
Open Scope list_scope.

(** ** Strings *)

Lemma slen_app : forall a b, String.length (a ++ b)%string = String.length a + String.length b.
Proof. induction a as [|c a IH]; intros b; simpl; auto. Qed.

Lemma sapp_assoc : forall a b c, ((a ++ b) ++ c)%string = (a ++ b ++ c)%string.
Proof. induction a as [|x a IH]; intros b c; simpl; auto. rewrite IH. auto. Qed.

Lemma sapp_nil : forall a, (a ++ "")%string = a.
Proof. induction a as [|x a IH]; simpl; auto. rewrite IH. auto. Qed.

Lemma substring_0 : forall a b, substring 0 (String.length a) (a ++ b) = a.
Proof. induction a as [|x a IH]; intros b; simpl; [destruct b; auto|]. rewrite IH. auto. Qed.

Lemma substring_mid : forall a b c, substring (String.length a) (String.length b) (a ++ b ++ c) = b.
Proof. induction a as [|x a IH]; intros b c; simpl; [apply substring_0|apply IH]. Qed.

Lemma join_app : forall l m, join (l ++ m) = (join l ++ join m)%string.
Proof. induction l as [|a l IH]; intros m; simpl; auto. rewrite IH, sapp_assoc. auto. Qed.

Lemma join_cons : forall a l, join (a :: l) = (a ++ join l)%string.
Proof. reflexivity. Qed.

Lemma join_nil : join [] = ""%string.
Proof. reflexivity. Qed.

Lemma join_concat : forall ls, join (concat ls) = join (map join ls).
Proof. induction ls as [|l ls IH]; simpl; auto. rewrite join_app, IH. auto. Qed.

(** All characters satisfy a test. *)
Fixpoint sforall (p : ascii -> bool) (s : string) : bool :=
  match s with EmptyString => true | String c r => p c && sforall p r end.

Lemma sforall_app : forall p a b, sforall p (a ++ b)%string = sforall p a && sforall p b.
Proof. induction a as [|x a IH]; intros b; simpl; auto. rewrite IH, andb_assoc. auto. Qed.

Lemma sforall_imp : forall (p q : ascii -> bool) s, (forall c, p c = true -> q c = true) ->
  sforall p s = true -> sforall q s = true.
Proof.
  induction s as [|c s IH]; simpl; intros I F; auto.
  apply andb_prop in F. destruct F as [F1 F2]. rewrite (I _ F1). auto.
Qed.

Lemma sforall_join : forall p l, (forall s, In s l -> sforall p s = true) -> sforall p (join l) = true.
Proof.
  induction l as [|a l IH]; simpl; intros F; auto. rewrite sforall_app, F by auto. apply IH. auto.
Qed.

(** Characters of a number, other characters than line breaks. *)
Definition numeral (c : ascii) : bool :=
  existsb (Ascii.eqb c) (list_ascii_of_string "0123456789.-").
Definition inline (c : ascii) : bool := negb (Ascii.eqb c (ascii_of_nat 10)).

Lemma numeral_inline : forall c, numeral c = true -> inline c = true.
Proof.
  intros c N. unfold numeral in N. apply existsb_exists in N. destruct N as [d [D E]].
  apply Ascii.eqb_eq in E. subst. simpl in D.
  repeat (destruct D as [<- | D]; [reflexivity|]). contradiction.
Qed.

Lemma numeral_no_blank : forall c, numeral c = true -> Ascii.eqb c " "%char = false.
Proof.
  intros c N. unfold numeral in N. apply existsb_exists in N. destruct N as [d [D E]].
  apply Ascii.eqb_eq in E. subst. simpl in D.
  repeat (destruct D as [<- | D]; [reflexivity|]). contradiction.
Qed.

Lemma sforall_fill : forall p c n, p c = true -> sforall p (fill c n) = true.
Proof. induction n as [|n IH]; simpl; intros E; auto. rewrite E. auto. Qed.

Lemma fill_length : forall c n, String.length (fill c n) = n.
Proof. induction n as [|n IH]; simpl; auto. Qed.

Lemma string_of_uint_numeral : forall u, sforall numeral (NilEmpty.string_of_uint u) = true.
Proof. induction u; simpl; auto. Qed.

Lemma string_of_nat_numeral : forall n, sforall numeral (string_of_nat n) = true.
Proof. intros. apply string_of_uint_numeral. Qed.

Lemma fixed_numeral : forall T (N : Num T) k x, sforall numeral (fixed k x) = true.
Proof.
  intros. unfold fixed, digits. rewrite !sforall_app, !string_of_nat_numeral, sforall_fill by reflexivity.
  destruct (nltb x (nofZ 0)); reflexivity.
Qed.

Lemma no_blanks_app : forall a b, no_blanks (a ++ b) = (no_blanks a ++ no_blanks b)%string.
Proof. induction a as [|x a IH]; intros b; simpl; auto. rewrite IH. destruct (Ascii.eqb x " "); auto. Qed.

Lemma no_blanks_fill : forall n, no_blanks (fill " " n) = ""%string.
Proof. induction n; simpl; auto. Qed.

Lemma no_blanks_numeral : forall s, sforall numeral s = true -> no_blanks s = s.
Proof.
  induction s as [|c s IH]; simpl; intros F; auto. apply andb_prop in F. destruct F as [F1 F2].
  rewrite (numeral_no_blank _ F1), IH; auto.
Qed.

Lemma no_blanks_rjust : forall w s, sforall numeral s = true -> no_blanks (rjust w s) = s.
Proof. intros. unfold rjust. rewrite no_blanks_app, no_blanks_fill. simpl. apply no_blanks_numeral. auto. Qed.

Lemma no_blanks_ljust : forall w s, sforall numeral s = true -> no_blanks (ljust w " " s) = s.
Proof.
  intros. unfold ljust. rewrite no_blanks_app, no_blanks_fill, sapp_nil. apply no_blanks_numeral. auto.
Qed.

Lemma rjust_length : forall w s, String.length s <= w -> String.length (rjust w s) = w.
Proof. intros. unfold rjust. rewrite slen_app, fill_length. lia. Qed.

Lemma ljust_length : forall w c s, String.length s <= w -> String.length (ljust w c s) = w.
Proof. intros. unfold ljust. rewrite slen_app, fill_length. lia. Qed.

Lemma rjust_inline : forall w s, sforall numeral s = true -> sforall inline (rjust w s) = true.
Proof.
  intros. unfold rjust. rewrite sforall_app, sforall_fill by reflexivity.
  apply (sforall_imp numeral); auto using numeral_inline.
Qed.

Lemma ljust_inline : forall w s, sforall numeral s = true -> sforall inline (ljust w " " s) = true.
Proof.
  intros. unfold ljust. rewrite sforall_app, sforall_fill by reflexivity.
  rewrite (sforall_imp numeral); auto using numeral_inline.
Qed.

(** ** Lines *)

Lemma lines_break : forall a b, sforall inline a = true -> lines (a ++ nl ++ b) = a :: lines b.
Proof.
  induction a as [|c a IH]; intros b F.
  - reflexivity.
  - simpl in F. apply andb_prop in F. destruct F as [F1 F2]. simpl.
    unfold inline in F1. apply negb_true_iff in F1. simpl in F1. rewrite F1.
    specialize (IH b F2). simpl in IH. rewrite IH. auto.
Qed.

Lemma lines_rows : forall rows b, (forall r, In r rows -> sforall inline r = true) ->
  lines (join (map (fun r => r ++ nl)%string rows) ++ b) = rows ++ lines b.
Proof.
  induction rows as [|r rows IH]; intros b F; simpl; auto.
  rewrite !sapp_assoc, lines_break by (apply F; simpl; auto).
  rewrite IH; auto. intros. apply F. simpl. auto.
Qed.

(** The cell [j] of a line made of cells. *)
Lemma read_cells : forall cells a b j w, (exists c, nth_error cells j = Some c) ->
  (forall i c, nth_error cells i = Some c -> nth_error w i = Some (String.length c)) ->
  exists c, nth_error cells j = Some c /\
  read (a ++ join cells ++ b) (position (String.length a) w j) (String.length c) = no_blanks c.
Proof.
  induction cells as [|c cells IH]; intros a b j w [x J] W.
  - destruct j; discriminate.
  - destruct j as [|j].
    + exists c. split; auto. unfold read. destruct w as [|w0 w]; simpl; rewrite sapp_assoc, substring_mid; auto.
    + destruct w as [|w0 w]; [specialize (W 0 c eq_refl); discriminate|].
      assert (W0 := W 0 c eq_refl). simpl in W0. inversion W0; subst.
      simpl. rewrite sapp_assoc. rewrite <- (sapp_assoc a c).
      rewrite <- slen_app. apply IH.
      * exists x. auto.
      * intros i d D. apply (W (S i)). auto.
Qed.

(** ** Tables *)

Section TableText.
  Context {T : Type} `{Num T}.

  (** The number of characters of a wind speed, and of its column. *)
  Definition width (ws : T) : nat := 4 + String.length (fixed 1 ws).

  Definition row_cells (row wind : list T) : list string :=
    map (fun '(j, ws) => rjust (width ws) (fixed 2 (nth j row (nofZ 0)))) (enumerate wind).

  Definition rectangular (t : table T) : Prop :=
    length (t_bs t) = length (t_wa t) /\ forall row, In row (t_bs t) -> length row = length (t_ws t).

  (** The text of a table from its lines. *)
  Definition text_of (head rule : string) (rows : list string) : string :=
    (head ++ nl ++ rule ++ nl ++ join (map (fun r => r ++ nl)%string rows))%string.

  Lemma lines_text : forall head rule rows, sforall inline head = true -> sforall inline rule = true ->
    (forall r, In r rows -> sforall inline r = true) ->
    lines (text_of head rule rows) = head :: rule :: rows ++ [""%string].
  Proof.
    intros head rule rows Hh Hr Hrows. unfold text_of.
    rewrite lines_break by auto. rewrite lines_break by auto.
    rewrite <- (sapp_nil (join _)), lines_rows by auto. auto.
  Qed.

  Lemma nth_error_nth_some : forall A (l : list A) i d, i < length l -> nth_error l i = Some (nth i l d).
  Proof. intros. apply nth_error_nth'. auto. Qed.

  Lemma cells_ok : forall row wind, length wind <= length row ->
    mapM (fun '(j, ws) => body_cell row j ws) (enumerate wind) = Ok (row_cells row wind).
  Proof.
    intros row wind L. unfold row_cells. apply mapM_Ok_map.
    intros [j ws] J. apply enumerate_In in J.
    assert (j < length wind) by (apply nth_error_Some; congruence).
    unfold body_cell, py_nth. rewrite (nth_error_nth_some _ row j (nofZ 0)) by lia. reflexivity.
  Qed.

  Lemma mapM_ext_in : forall A B (f g : A -> result B) l, (forall x, In x l -> f x = g x) -> mapM f l = mapM g l.
  Proof.
    induction l as [|a l IH]; simpl; intros E; auto. rewrite E by auto. rewrite IH by auto. auto.
  Qed.

  Lemma short_text : forall t wind, rectangular t -> length wind <= length (t_ws t) ->
    exists rest, short_table t wind = Ok rest /\
    join ("  TWA / TWS" :: rest) =
    text_of ("  TWA / TWS" ++ join (map head_cell wind)) ("+++++++++++" ++ join (map rule_cell wind))
      (map (fun '(i, wa) => ljust 11 " " (fixed 1 wa) ++ join (row_cells (nth i (t_bs t) []) wind))%string
           (enumerate (t_wa t))).
  Proof.
    intros t wind [R1 R2] L. unfold short_table.
    rewrite (mapM_Ok_map _ _ _ (fun '(i, wa) =>
      [ljust 11 " "%char (fixed 1 wa)] ++ row_cells (nth i (t_bs t) []) wind ++ [nl])).
    2:{ intros [i wa] I. apply enumerate_In in I.
        assert (i < length (t_wa t)) by (apply nth_error_Some; congruence).
        assert (E : py_nth (t_bs t) i = Ok (nth i (t_bs t) [])).
        { unfold py_nth. rewrite (nth_error_nth_some _ (t_bs t) i []) by lia. auto. }
        rewrite (mapM_ext_in _ _ _ (fun '(j, ws) => body_cell (nth i (t_bs t) []) j ws)).
        2:{ intros [j ws] J. rewrite E. reflexivity. }
        rewrite cells_ok; [reflexivity|]. rewrite (R2 (nth i (t_bs t) [])); auto. apply nth_In. lia. }
    unfold rbind at 1. eexists. split; [reflexivity|].
    unfold text_of. repeat rewrite ?join_cons, ?join_app, ?join_nil, ?sapp_nil, ?sapp_assoc.
    rewrite join_concat, !map_map. do 7 f_equal. apply map_ext. intros [i wa].
    repeat rewrite ?join_cons, ?join_app, ?join_nil, ?sapp_nil, ?sapp_assoc. auto.
  Qed.

  Lemma head_cell_length : forall ws : T, String.length (head_cell ws) = width ws.
  Proof. intros. unfold head_cell, width. rewrite slen_app. auto. Qed.

  Lemma head_cell_inline : forall ws : T, sforall inline (head_cell ws) = true.
  Proof.
    intros. unfold head_cell. rewrite sforall_app. simpl.
    apply (sforall_imp numeral); auto using numeral_inline, fixed_numeral.
  Qed.

  Lemma rule_cell_inline : forall ws : T, sforall inline (rule_cell ws) = true.
  Proof. intros. unfold rule_cell, ljust. rewrite sforall_app, sforall_fill by reflexivity. auto. Qed.

  Lemma rule_cell_length : forall ws : T, String.length (rule_cell ws) = width ws.
  Proof.
    intros. unfold rule_cell, width. rewrite Nat.add_comm. apply ljust_length. cbn. lia.
  Qed.

  Lemma no_blanks_plus : forall n, no_blanks (fill "+"%char n) = fill "+"%char n.
  Proof. induction n as [|n IH]; [reflexivity|]. cbn. f_equal. exact IH. Qed.

  Lemma rule_cell_read : forall ws : T, no_blanks (rule_cell ws) = fill "+"%char (width ws - 2).
  Proof.
    intros. unfold rule_cell, ljust, width. rewrite no_blanks_app, no_blanks_plus, Nat.add_comm. reflexivity.
  Qed.

  Lemma row_cells_nth : forall row wind j ws b, nth_error wind j = Some ws -> nth_error row j = Some b ->
    nth_error (row_cells row wind) j = Some (rjust (width ws) (fixed 2 b)).
  Proof.
    intros row wind j ws b J B. unfold row_cells.
    apply nth_error_map_iff. exists (j, ws). split.
    - apply nth_error_enumerate. auto.
    - rewrite (nth_error_nth _ _ _ B). auto.
  Qed.

  Lemma row_cells_inline : forall row wind s, In s (row_cells row wind) -> sforall inline s = true.
  Proof.
    intros row wind s I. unfold row_cells in I. apply in_map_iff in I. destruct I as [[j ws] [<- _]].
    apply rjust_inline, fixed_numeral.
  Qed.

  (** Every number fits in its column. *)
  Definition fits (t : table T) : Prop :=
    (forall wa, In wa (t_wa t) -> String.length (fixed 1 wa) <= 11) /\
    (forall row b ws, In row (t_bs t) -> In b row -> In ws (t_ws t) -> String.length (fixed 2 b) <= width ws).

  (** What a reader of the text [text] finds in the columns that start at [from] and are
      [w] wide, on the line [k]. *)
  Definition reads (text : string) (k from w : nat) (what : string) : Prop :=
    exists line, nth_error (lines text) k = Some line /\ read line from w = what.

  Lemma read_line_cell : forall pre cells w j c, nth_error cells j = Some c ->
    (forall i d, nth_error cells i = Some d -> nth_error w i = Some (String.length d)) ->
    read (pre ++ join cells) (position (String.length pre) w j) (String.length c) = no_blanks c.
  Proof.
    intros pre cells w j c J W.
    destruct (read_cells cells pre ""%string j w) as [d [D E]]; eauto.
    rewrite sapp_nil in E. congruence.
  Qed.

  Lemma read_pre : forall pre s, read (pre ++ s) 0 (String.length pre) = no_blanks pre.
  Proof. intros. unfold read. rewrite substring_0. auto. Qed.

  (** C117.  The text of a table with at most 15 wind speeds has a line of wind speeds, a
      rule of plus signs below each of them, and a line for each wind angle; below each wind speed stand the boat speeds for
      that wind speed, beside the wind angle, with two places. *)
  Theorem table_text_partial : forall t, length (t_ws t) <= 15 -> rectangular t -> fits t ->
    exists text, table_str t = Ok text /\ length (lines text) = 3 + length (t_wa t) /\
    forall j ws, nth_error (t_ws t) j = Some ws ->
      reads text 0 (position 11 (map width (t_ws t)) j) (width ws) (fixed 1 ws) /\
      reads text 1 (position 11 (map width (t_ws t)) j) (width ws) (fill "+"%char (width ws - 2)) /\
      forall i wa row b, nth_error (t_wa t) i = Some wa -> nth_error (t_bs t) i = Some row ->
        nth_error row j = Some b ->
        reads text (2 + i) 0 11 (fixed 1 wa) /\
        reads text (2 + i) (position 11 (map width (t_ws t)) j) (width ws) (fixed 2 b).
  Proof.
    intros t N Rt [F1 F2].
    destruct (short_text t (t_ws t) Rt (le_n _)) as [rest [E1 E2]].
    unfold table_str. rewrite (proj2 (Nat.leb_le _ _) N), E1. simpl rbind.
    exists (join ("  TWA / TWS" :: rest)). split; auto. rewrite E2. clear E1 E2 rest.
    set (head := ("  TWA / TWS" ++ _)%string). set (rule := ("+++++++++++" ++ _)%string).
    set (rows := map _ (enumerate (t_wa t))).
    assert (LT : lines (text_of head rule rows) = head :: rule :: rows ++ [""%string]).
    { apply lines_text.
      - unfold head. rewrite sforall_app. apply sforall_join. intros s I. apply in_map_iff in I.
        destruct I as [x [<- _]]. apply head_cell_inline.
      - unfold rule. rewrite sforall_app. apply sforall_join. intros s I. apply in_map_iff in I.
        destruct I as [x [<- _]]. apply rule_cell_inline.
      - intros r I. unfold rows in I. apply in_map_iff in I. destruct I as [[i wa] [<- _]].
        rewrite sforall_app, ljust_inline by apply fixed_numeral.
        apply sforall_join. intros s S. apply row_cells_inline in S. auto. }
    assert (LR : length rows = length (t_wa t)) by (unfold rows; rewrite map_length, enumerate_length; auto).
    unfold reads. rewrite LT.
    split; [simpl; rewrite app_length, LR; simpl; lia|].
    intros j ws J. split; [|split].
    - exists head. split; [reflexivity|].
      change 11 with (String.length "  TWA / TWS"). rewrite <- head_cell_length. unfold head.
      rewrite read_line_cell.
      + unfold head_cell. rewrite no_blanks_app. simpl. apply no_blanks_numeral, fixed_numeral.
      + exact (map_nth_error head_cell _ _ J).
      + intros i d D. apply nth_error_map_iff in D. destruct D as [x [D <-]].
        rewrite head_cell_length. exact (map_nth_error width _ _ D).
    - exists rule. split; [reflexivity|].
      change 11 with (String.length "+++++++++++"). rewrite <- (rule_cell_length ws) at 1. unfold rule.
      rewrite read_line_cell.
      + apply rule_cell_read.
      + exact (map_nth_error rule_cell _ _ J).
      + intros i d D. apply nth_error_map_iff in D. destruct D as [x [D <-]].
        rewrite rule_cell_length. exact (map_nth_error width _ _ D).
    - intros i wa row b I B1 B2.
      assert (Hr : nth_error (head :: rule :: rows ++ [""%string]) (2 + i) =
                   Some (ljust 11 " " (fixed 1 wa) ++ join (row_cells row (t_ws t)))%string).
      { simpl. rewrite nth_error_app1.
        - unfold rows. apply nth_error_map_iff. exists (i, wa). split.
          + apply nth_error_enumerate. auto.
          + rewrite (nth_error_nth _ _ _ B1). auto.
        - rewrite LR. apply nth_error_Some. congruence. }
      assert (L11 : String.length (ljust 11 " " (fixed 1 wa)) = 11).
      { apply ljust_length, F1. eapply nth_error_In; eauto. }
      split; eexists; (split; [exact Hr|]).
      + pose proof (read_pre (ljust 11 " " (fixed 1 wa)) (join (row_cells row (t_ws t)))) as P.
        rewrite L11 in P. rewrite P. apply no_blanks_ljust, fixed_numeral.
      +
        assert (LW : forall k b' ws', nth_error row k = Some b' -> nth_error (t_ws t) k = Some ws' ->
                  String.length (rjust (width ws') (fixed 2 b')) = width ws').
        { intros k b' ws' K1 K2. apply rjust_length. apply (F2 row).
          - eapply nth_error_In; eauto.
          - eapply nth_error_In; eauto.
          - eapply nth_error_In; eauto. }
        pose proof (read_line_cell (ljust 11 " " (fixed 1 wa)) (row_cells row (t_ws t))
                      (map width (t_ws t)) j (rjust (width ws) (fixed 2 b))) as P.
        rewrite L11, (LW j b ws) in P by auto. rewrite P.
        * apply no_blanks_rjust, fixed_numeral.
        * apply row_cells_nth; auto.
        * intros k d D.
          assert (K : k < length (row_cells row (t_ws t))) by (apply nth_error_Some; congruence).
          unfold row_cells in K. rewrite map_length, enumerate_length in K.
          assert (RL : length row = length (t_ws t)) by (apply Rt; eapply nth_error_In; eauto).
          destruct (nth_error (t_ws t) k) as [ws'|] eqn:K2; [|apply nth_error_None in K2; lia].
          destruct (nth_error row k) as [b'|] eqn:K1; [|apply nth_error_None in K1; lia].
          rewrite (row_cells_nth row _ k ws' b') in D by auto. inversion D; subst.
          rewrite (LW k b' ws') by auto. exact (map_nth_error width _ _ K2).
  Qed.

  (** Ten columns with another one in the middle. *)
  Definition gapped {A} (g : A) (l : list A) : list A := firstn 5 l ++ [g] ++ skipn 5 l.

  Lemma ten : forall A (l : list A), length l = 10 ->
    exists a b c d e f g h i j, l = [a; b; c; d; e; f; g; h; i; j].
  Proof.
    intros A l L. do 10 (destruct l as [|? l]; [discriminate|]).
    destruct l; [|discriminate]. repeat eexists.
  Qed.

  Lemma concat_gapped : forall A (g : string) (f : nat -> A -> string) (l : list A), length l = 10 ->
    concat (map (fun '(i, x) => gap g i ++ [f i x]) (enumerate l)) =
    gapped g (map (fun '(i, x) => f i x) (enumerate l)).
  Proof.
    intros A g f l L. destruct (ten A l L) as (a & b & c & d & e & f' & g' & h & i & j & ->). reflexivity.
  Qed.

  Lemma map_enumerate : forall A B (f : A -> B) l, map (fun '(_, x) => f x) (enumerate l) = map f l.
  Proof.
    intros A B f l. unfold enumerate. generalize 0.
    induction l as [|a l IH]; intros n; simpl; auto. f_equal. apply IH.
  Qed.

  Lemma gapped_nth : forall A (g : A) l c x, length l = 10 -> nth_error l c = Some x ->
    nth_error (gapped g l) (if Nat.ltb c 5 then c else S c) = Some x.
  Proof.
    intros A g l c x L C. destruct (ten A l L) as (y0 & y1 & y2 & y3 & y4 & y5 & y6 & y7 & y8 & y9 & ->).
    do 10 (destruct c as [|c]; [exact C|]). destruct c; discriminate.
  Qed.

  Lemma gapped_pointwise : forall A B (P : A -> B -> Prop) (g : A) (g' : B) l l', length l = 10 -> length l' = 10 ->
    P g g' -> (forall i x, nth_error l i = Some x -> exists y, nth_error l' i = Some y /\ P x y) ->
    forall i x, nth_error (gapped g l) i = Some x -> exists y, nth_error (gapped g' l') i = Some y /\ P x y.
  Proof.
    intros A B P g g' l l' L L' G E i x N.
    destruct (ten A l L) as (y0 & y1 & y2 & y3 & y4 & y5 & y6 & y7 & y8 & y9 & ->).
    destruct (ten B l' L') as (z0 & z1 & z2 & z3 & z4 & z5 & z6 & z7 & z8 & z9 & ->).
    do 5 (destruct i as [|i]; [match goal with |- exists y, nth_error _ ?k = _ /\ _ => exact (E k x N) end|]).
    destruct i as [|i]; [simpl in *; inversion N; subst; eauto|].
    apply (E (5 + i) x). exact N.
  Qed.

  Lemma long_text : forall t wind, rectangular t -> length wind = 10 -> 10 <= length (t_ws t) ->
    exists rest, long_table t wind = Ok rest /\
    join ("  TWA / TWS" :: rest) =
    text_of ("  TWA / TWS" ++ join (gapped "  ..." (map head_cell wind)))
      ("+++++++++++" ++ join (gapped "  +++" (map rule_cell wind)))
      (map (fun '(i, wa) => rjust 11 (fixed 1 wa) ++
              join (gapped "  ..." (row_cells (nth i (t_bs t) []) wind)))%string (enumerate (t_wa t))).
  Proof.
    intros t wind [R1 R2] L10 L. unfold long_table.
    rewrite (mapM_Ok_map _ _ _ (fun '(i, wa) =>
      [rjust 11 (fixed 1 wa)] ++ gapped "  ..."%string (row_cells (nth i (t_bs t) []) wind) ++ [nl])).
    2:{ intros [i wa] I. apply enumerate_In in I.
        assert (i < length (t_wa t)) by (apply nth_error_Some; congruence).
        assert (E : py_nth (t_bs t) i = Ok (nth i (t_bs t) [])).
        { unfold py_nth. rewrite (nth_error_nth_some _ (t_bs t) i []) by lia. auto. }
        rewrite (mapM_Ok_map _ _ _ (fun '(j, ws) =>
          gap "  ..." j ++ [rjust (width ws) (fixed 2 (nth j (nth i (t_bs t) []) (nofZ 0)))])).
        2:{ intros [j ws] J. apply enumerate_In in J.
            assert (j < length wind) by (apply nth_error_Some; congruence).
            rewrite E. unfold rbind at 1. unfold body_cell, py_nth.
            rewrite (nth_error_nth_some _ (nth i (t_bs t) []) j (nofZ 0)); [reflexivity|].
            rewrite (R2 (nth i (t_bs t) [])); [lia|]. apply nth_In. lia. }
        unfold rbind. do 2 f_equal.
        rewrite (concat_gapped T "  ..." (fun j ws => rjust (width ws) (fixed 2 (nth j (nth i (t_bs t) []) (nofZ 0)))) wind L10).
        reflexivity. }
    unfold rbind at 1. eexists. split; [reflexivity|].
    rewrite (concat_gapped T "  ..." (fun _ ws => head_cell ws) wind L10).
    rewrite (concat_gapped T "  +++" (fun _ ws => rule_cell ws) wind L10).
    rewrite !map_enumerate.
    unfold text_of. repeat rewrite ?join_cons, ?join_app, ?join_nil, ?sapp_nil, ?sapp_assoc.
    rewrite join_concat, !map_map. do 7 f_equal. apply map_ext. intros [i wa].
    repeat rewrite ?join_cons, ?join_app, ?join_nil, ?sapp_nil, ?sapp_assoc. auto.
  Qed.

  (** C117, long tables: only the first and the last five wind speeds are listed, and the
      columns below them are the first ten of the table.  So below the last five wind speeds
      stand the boat speeds for the sixth to the tenth one. *)
  Theorem table_text_long_refuted : forall t, 15 < length (t_ws t) -> rectangular t -> fits t ->
    let wind := firstn 5 (t_ws t) ++ skipn (length (t_ws t) - 5) (t_ws t) in
    let at_ c := position 11 (gapped 5 (map width wind)) (if Nat.ltb c 5 then c else S c) in
    exists text, table_str t = Ok text /\ length (lines text) = 3 + length (t_wa t) /\
    forall c ws, nth_error wind c = Some ws ->
      reads text 0 (at_ c) (width ws) (fixed 1 ws) /\
      reads text 1 (at_ c) (width ws) (fill "+"%char (width ws - 2)) /\
      forall i wa row b, nth_error (t_wa t) i = Some wa -> nth_error (t_bs t) i = Some row ->
        nth_error row c = Some b ->
        reads text (2 + i) 0 11 (fixed 1 wa) /\
        reads text (2 + i) (at_ c) (width ws) (fixed 2 b).
  Proof.
    intros t N Rt [F1 F2] wind at_.
    assert (LW : length wind = 10).
    { unfold wind. rewrite app_length, firstn_length, skipn_length. lia. }
    assert (IW : forall ws, In ws wind -> In ws (t_ws t)).
    { intros ws I. unfold wind in I. apply in_app_or in I. destruct I as [I | I].
      - rewrite <- (firstn_skipn 5 (t_ws t)). apply in_or_app. auto.
      - rewrite <- (firstn_skipn (length (t_ws t) - 5) (t_ws t)). apply in_or_app. auto. }
    destruct (long_text t wind Rt LW) as [rest [E1 E2]]; [lia|].
    unfold table_str. rewrite (proj2 (Nat.leb_gt _ _) N). fold wind. rewrite E1. simpl rbind.
    exists (join ("  TWA / TWS" :: rest)). split; auto. rewrite E2. clear E1 E2 rest.
    set (head := ("  TWA / TWS" ++ _)%string). set (rule := ("+++++++++++" ++ _)%string).
    set (rows := map _ (enumerate (t_wa t))).
    assert (IG : forall g l, sforall inline g = true -> (forall s, In s l -> sforall inline s = true) ->
               sforall inline (join (gapped g l)) = true).
    { intros g l G A. apply sforall_join. intros s I. unfold gapped in I.
      apply in_app_or in I. destruct I as [I | I].
      - apply A. rewrite <- (firstn_skipn 5 l). apply in_or_app. auto.
      - apply in_app_or in I. destruct I as [[<- | []] | I]; auto.
        apply A. rewrite <- (firstn_skipn 5 l). apply in_or_app. auto. }
    assert (LT : lines (text_of head rule rows) = head :: rule :: rows ++ [""%string]).
    { apply lines_text.
      - unfold head. rewrite sforall_app. apply IG; auto. intros s I. apply in_map_iff in I.
        destruct I as [x [<- _]]. apply head_cell_inline.
      - unfold rule. rewrite sforall_app. apply IG; auto. intros s I. apply in_map_iff in I.
        destruct I as [x [<- _]]. apply rule_cell_inline.
      - intros r I. unfold rows in I. apply in_map_iff in I. destruct I as [[i wa] [<- _]].
        rewrite sforall_app, rjust_inline by apply fixed_numeral.
        apply IG; auto. intros s S. apply row_cells_inline in S. auto. }
    assert (LR : length rows = length (t_wa t)) by (unfold rows; rewrite map_length, enumerate_length; auto).
    assert (WL : length (map width wind) = 10) by (rewrite map_length; auto).
    unfold reads. rewrite LT.
    split; [simpl; rewrite app_length, LR; simpl; lia|].
    intros c ws C. split; [|split].
    - exists head. split; [reflexivity|].
      change 11 with (String.length "  TWA / TWS") in at_. rewrite <- head_cell_length. unfold head, at_.
      rewrite read_line_cell.
      + unfold head_cell. rewrite no_blanks_app. simpl. apply no_blanks_numeral, fixed_numeral.
      + apply gapped_nth; [rewrite map_length; auto|]. exact (map_nth_error head_cell _ _ C).
      + intros i d D.
        destruct (gapped_pointwise string nat (fun s n => n = String.length s) "  ..."%string 5
                    (map head_cell wind) (map width wind)) with (i := i) (x := d) as [y [Y1 Y2]]; auto.
        * rewrite map_length. auto.
        * intros i' x X. apply nth_error_map_iff in X. destruct X as [z [X <-]].
          exists (width z). split; [exact (map_nth_error width _ _ X)|]. rewrite head_cell_length. auto.
        * subst. auto.
    - exists rule. split; [reflexivity|].
      change 11 with (String.length "+++++++++++") in at_. rewrite <- (rule_cell_length ws) at 1. unfold rule, at_.
      rewrite read_line_cell.
      + apply rule_cell_read.
      + apply gapped_nth; [rewrite map_length; auto|]. exact (map_nth_error rule_cell _ _ C).
      + intros i d D.
        destruct (gapped_pointwise string nat (fun s n => n = String.length s) "  +++"%string 5
                    (map rule_cell wind) (map width wind)) with (i := i) (x := d) as [y [Y1 Y2]]; auto.
        * rewrite map_length. auto.
        * intros i' x X. apply nth_error_map_iff in X. destruct X as [z [X <-]].
          exists (width z). split; [exact (map_nth_error width _ _ X)|]. rewrite rule_cell_length. auto.
        * subst. auto.
    - intros i wa row b I B1 B2.
      assert (Hr : nth_error (head :: rule :: rows ++ [""%string]) (2 + i) =
                   Some (rjust 11 (fixed 1 wa) ++ join (gapped "  ..." (row_cells row wind)))%string).
      { simpl. rewrite nth_error_app1.
        - unfold rows. apply nth_error_map_iff. exists (i, wa). split.
          + apply nth_error_enumerate. auto.
          + rewrite (nth_error_nth _ _ _ B1). auto.
        - rewrite LR. apply nth_error_Some. congruence. }
      assert (L11 : String.length (rjust 11 (fixed 1 wa)) = 11).
      { apply rjust_length, F1. eapply nth_error_In; eauto. }
      split; eexists; (split; [exact Hr|]).
      + pose proof (read_pre (rjust 11 (fixed 1 wa)) (join (gapped "  ..."%string (row_cells row wind)))) as P.
        rewrite L11 in P. rewrite P. apply no_blanks_rjust, fixed_numeral.
      + assert (LC : forall k b' ws', nth_error row k = Some b' -> nth_error wind k = Some ws' ->
                  String.length (rjust (width ws') (fixed 2 b')) = width ws').
        { intros k b' ws' K1 K2. apply rjust_length. apply (F2 row).
          - eapply nth_error_In; eauto.
          - eapply nth_error_In; eauto.
          - apply IW. eapply nth_error_In; eauto. }
        pose proof (read_line_cell (rjust 11 (fixed 1 wa)) (gapped "  ..."%string (row_cells row wind))
                      (gapped 5 (map width wind)) (if Nat.ltb c 5 then c else S c) (rjust (width ws) (fixed 2 b))) as P.
        rewrite L11, (LC c b ws) in P by auto. unfold at_. rewrite P.
        * apply no_blanks_rjust, fixed_numeral.
        * apply gapped_nth.
          -- unfold row_cells. rewrite map_length, enumerate_length. auto.
          -- apply row_cells_nth; auto.
        * intros k d D.
          destruct (gapped_pointwise string nat (fun s n => n = String.length s) "  ..."%string 5
                    (row_cells row wind) (map width wind)) with (i := k) (x := d) as [y [Y1 Y2]]; auto.
          -- unfold row_cells. rewrite map_length, enumerate_length. auto.
          -- intros k' x X.
             assert (K : k' < length (row_cells row wind)) by (apply nth_error_Some; congruence).
             unfold row_cells in K. rewrite map_length, enumerate_length in K.
             assert (RL : length row = length (t_ws t)) by (apply Rt; eapply nth_error_In; eauto).
             destruct (nth_error wind k') as [ws'|] eqn:K2; [|apply nth_error_None in K2; lia].
             destruct (nth_error row k') as [b'|] eqn:K1; [|apply nth_error_None in K1; lia].
             rewrite (row_cells_nth row _ k' ws' b') in X by auto. inversion X; subst.
             exists (width ws'). split; [exact (map_nth_error width _ _ K2)|]. symmetry. apply (LC k'); auto.
          -- subst. auto.
  Qed.
End TableText.

(** ** Numbers *)

Lemma string_of_nat_short : forall n, (n < 1000)%nat -> (String.length (string_of_nat n) <= 3)%nat.
Proof.
  intros n L. apply Nat.leb_le.
  assert (E : forallb (fun n => Nat.leb (String.length (string_of_nat n)) 3) (seq 0 1000) = true)
    by (vm_compute; reflexivity).
  rewrite forallb_forall in E. apply E. apply in_seq. lia.
Qed.

Lemma string_of_nat_nonempty : forall n, string_of_nat n <> ""%string.
Proof.
  intros n E. unfold string_of_nat in E.
  assert (U : Nat.to_uint n = Decimal.Nil) by (destruct (Nat.to_uint n); [reflexivity|discriminate..]).
  pose proof (Unsigned.of_to n) as O. rewrite U in O. simpl in O. subst n. discriminate.
Qed.

Lemma digits_length : forall w n, (String.length (string_of_nat n) <= w)%nat -> String.length (digits w n) = w.
Proof. intros. unfold digits. rewrite slen_app, fill_length. lia. Qed.

Lemma nabs_R : forall x : R, nabs x = Rabs x.
Proof.
  intros x. unfold nabs. cbn. unfold Rltb. destruct (Rlt_dec x 0).
  - rewrite Rabs_left; auto.
  - rewrite Rabs_right; auto. lra.
Qed.

(** The number of hundredths (tenths) printed is the nearest one. *)
Definition printed (places : nat) (x : R) : nat :=
  Z.to_nat (py_round (nabs x * nofZ (Z.of_nat (Nat.pow 10 places)))%num).

Lemma printed_near : forall places x,
  (Rabs (INR (printed places x) - Rabs x * INR (Nat.pow 10 places)) <= 1 / 2)%R.
Proof.
  intros k x. unfold printed. rewrite nabs_R. cbn [nofZ nmul RNum]. rewrite <- INR_IZR_INZ.
  set (y := (Rabs x * INR (Nat.pow 10 k))%R).
  assert (Y : (0 <= y)%R) by (apply Rmult_le_pos; [apply Rabs_pos | apply pos_INR]).
  assert (P : (0 <= py_round y)%Z).
  { rewrite <- (py_round_IZR 0). apply py_round_mono. auto. }
  rewrite INR_IZR_INZ, Z2Nat.id by auto. apply py_round_near.
Qed.

Lemma fixed_text : forall places x,
  fixed places x = ((if Rltb x 0 then "-" else "") ++
    string_of_nat (Nat.div (printed places x) (Nat.pow 10 places)) ++ "." ++
    digits places (Nat.modulo (printed places x) (Nat.pow 10 places)))%string.
Proof. reflexivity. Qed.

Lemma printed_bound : forall k x m, (Rabs x <= INR m)%R -> (printed k x <= m * Nat.pow 10 k)%nat.
Proof.
  intros k x m B. unfold printed. rewrite nabs_R. cbn [nofZ nmul RNum].
  assert (L : (py_round (Rabs x * IZR (Z.of_nat (Nat.pow 10 k)))%R <= Z.of_nat (m * Nat.pow 10 k))%Z).
  { rewrite <- (py_round_IZR (Z.of_nat (m * Nat.pow 10 k))). apply py_round_mono.
    rewrite <- !INR_IZR_INZ, mult_INR. apply Rmult_le_compat_r; auto. apply pos_INR. }
  lia.
Qed.

Lemma fixed_length : forall k x, (1 <= k <= 3)%nat -> (Rabs x <= 999)%R ->
  (String.length (fixed k x) <= 5 + k)%nat.
Proof.
  intros k x K B. rewrite fixed_text, !slen_app.
  assert (P : (0 < Nat.pow 10 k)%nat) by (apply Nat.neq_0_lt_0, Nat.pow_nonzero; lia).
  assert (L1 : (String.length (string_of_nat (printed k x / Nat.pow 10 k)) <= 3)%nat).
  { apply string_of_nat_short.
    assert (printed k x <= 999 * Nat.pow 10 k)%nat by (apply printed_bound; simpl; lra).
    apply Nat.div_lt_upper_bound; lia. }
  assert (L2 : String.length (digits k (Nat.modulo (printed k x) (Nat.pow 10 k))) = k).
  { apply digits_length.
    assert (M : (Nat.modulo (printed k x) (Nat.pow 10 k) < Nat.pow 10 k)%nat) by (apply Nat.mod_upper_bound; lia).
    revert M. generalize (Nat.modulo (printed k x) (Nat.pow 10 k)). intros n M.
    assert (E : forall b, (forallb (fun n => Nat.leb (String.length (string_of_nat n)) k) (seq 0 b) = true) ->
                (n < b)%nat -> (String.length (string_of_nat n) <= k)%nat).
    { intros b E Lt. rewrite forallb_forall in E. apply Nat.leb_le, E, in_seq. lia. }
    apply (E (Nat.pow 10 k)); auto.
    assert (k = 1 \/ k = 2 \/ k = 3)%nat as [-> | [-> | ->]] by lia; vm_compute; reflexivity. }
  rewrite L2. destruct (Rltb x 0); simpl String.length; lia.
Qed.

(** Tables with numbers below a thousand fit. *)
Lemma small_fits : forall t : table R, (forall wa, In wa (t_wa t) -> (Rabs wa <= 999)%R) ->
  (forall row b, In row (t_bs t) -> In b row -> (Rabs b <= 999)%R) -> fits t.
Proof.
  intros t A B. split.
  - intros wa I. pose proof (fixed_length 1 wa ltac:(lia) (A wa I)). lia.
  - intros row b ws I1 I2 _. pose proof (fixed_length 2 b ltac:(lia) (B row b I1 I2)).
    unfold width. assert (3 <= String.length (fixed 1 ws))%nat.
    { rewrite fixed_text, !slen_app.
      unfold digits. rewrite slen_app, fill_length.
      assert (String.length (string_of_nat (printed 1 ws / 10 ^ 1)) <> 0)%nat.
      { destruct (string_of_nat (printed 1 ws / 10 ^ 1)) eqn:E; [|discriminate].
        exfalso. revert E. apply string_of_nat_nonempty. }
      change (String.length ".") with 1. lia. }
    lia.
Qed.
Print Assumptions small_fits.

(** The sixteen wind speeds 1 to 16, one wind angle, the boat speed equal to the wind speed. *)
Definition long_example : table Q :=
  let ws := map (fun k => inject_Z (Z.of_nat k)) (seq 1 16) in mkTable ws [0%Q] [ws] false.

(** C117 is false: below the wind speed 16 stands the boat speed for the wind speed 10. *)
Theorem table_text_refuted : exists (t : table Q) text row b,
  rectangular t /\ fits t /\ table_str t = Ok text /\
  nth_error (t_ws t) 15 = Some 16%Q /\ nth_error (t_bs t) 0 = Some row /\ nth_error row 15 = Some b /\
  reads text 0 83 8 "16.0" /\ fixed 2 b = "16.00"%string /\ reads text 2 83 8 "10.00".
Proof.
  eexists long_example, _, _, _. split; [|split; [|split; [reflexivity|]]].
  - split; [reflexivity|]. intros row [<- | []]. reflexivity.
  - split.
    + intros wa [<- | []]. vm_compute. lia.
    + intros row b ws [<- | []] B W.
      assert (E : forallb (fun b => forallb (fun ws => Nat.leb (String.length (fixed 2 b)) (width ws))
                (t_ws long_example)) (t_ws long_example) = true) by (vm_compute; reflexivity).
      rewrite forallb_forall in E. specialize (E b B). rewrite forallb_forall in E.
      apply Nat.leb_le, E, W.
  - do 3 (split; [reflexivity|]).
    split; [eexists; split; vm_compute; reflexivity|]. split; [vm_compute; reflexivity|].
    eexists; split; vm_compute; reflexivity.
Qed.
Print Assumptions table_text_partial.
Print Assumptions table_text_long_refuted.
Print Assumptions table_text_refuted.

Example table_text_case :
  let t := mkTable [4; 12]%Q [45; 180]%Q [[3; 21 # 4]; [1; 201 # 20]]%Q false in
  exists text, table_str t = Ok text /\ rectangular t /\ fits t /\
  reads text 0 18 8 "12.0" /\ reads text 3 0 11 "180.0" /\ reads text 3 18 8 "10.05".
Proof.
  intros t. eexists. split; [reflexivity|]. split; [|split; [|split; [|split]]].
  - split; [reflexivity|]. intros row [<- | [<- | []]]; reflexivity.
  - split.
    + intros wa [<- | [<- | []]]; vm_compute; lia.
    + intros row b ws [<- | [<- | []]] [<- | [<- | []]] [<- | [<- | []]]; vm_compute; lia.
  - eexists; split; vm_compute; reflexivity.
  - eexists; split; vm_compute; reflexivity.
  - eexists; split; vm_compute; reflexivity.
Qed.

(** ** Numbers as they are printed *)

(** C117: a number is printed as the nearest multiple of the last place. *)
Theorem printed_number : forall places x, exists n,
  fixed places x = ((if Rltb x 0 then "-" else "") ++ string_of_nat (Nat.div n (Nat.pow 10 places)) ++ "." ++
                    digits places (Nat.modulo n (Nat.pow 10 places)))%string /\
  (Rabs (INR n / INR (Nat.pow 10 places) - Rabs x) <= 1 / 2 / INR (Nat.pow 10 places))%R.
Proof.
  intros k x. exists (printed k x). split; [apply fixed_text|].
  pose proof (printed_near k x) as P.
  assert (U : (0 < INR (Nat.pow 10 k))%R) by (apply lt_0_INR, Nat.neq_0_lt_0, Nat.pow_nonzero; lia).
  replace (INR (printed k x) / INR (Nat.pow 10 k) - Rabs x)%R
    with ((INR (printed k x) - Rabs x * INR (Nat.pow 10 k)) / INR (Nat.pow 10 k))%R by (field; lra).
  unfold Rdiv at 1 3. rewrite Rabs_mult, (Rabs_right (/ _)).
  - apply Rmult_le_compat_r; auto. left. apply Rinv_0_lt_compat. auto.
  - left. apply Rinv_0_lt_compat. auto.
Qed.
Print Assumptions printed_number.

Example printed_number_case : fixed 2 (2 # 3)%Q = "0.67"%string /\ fixed 1 (1 # 4)%Q = "0.2"%string /\
  fixed 1 (-1 # 30)%Q = "-0.0"%string.
Proof. repeat split. Qed.

(** ** Point clouds *)

Lemma fixed_length_pos : forall k x, (1 <= k <= 3)%nat -> (0 <= x <= 999)%R ->
  (String.length (fixed k x) <= 4 + k)%nat.
Proof.
  intros k x K B.
  assert (A : (Rabs x <= 999)%R) by (rewrite Rabs_right; lra).
  pose proof (fixed_length k (- x) K) as L. rewrite Rabs_Ropp in L. specialize (L A).
  rewrite fixed_text in L |- *.
  assert (E : printed k (- x) = printed k x) by (unfold printed; rewrite !nabs_R, Rabs_Ropp; auto).
  rewrite E in L. rewrite !slen_app in L |- *.
  unfold Rltb in L |- *. destruct (Rlt_dec x 0); [lra|].
  destruct (Rlt_dec (- x) 0) as [N|N].
  - simpl String.length at 1 in L. simpl String.length at 1. lia.
  - assert (x = 0)%R by lra. subst x.
    assert (printed k 0 = 0)%nat as ->.
    { pose proof (printed_bound k 0 0) as P. rewrite Rabs_R0 in P. simpl in P. specialize (P (Rle_refl 0)). lia. }
    assert (k = 1 \/ k = 2 \/ k = 3)%nat as [-> | [-> | ->]] by lia; vm_compute; lia.
Qed.

(** C118.  The text of a point cloud has two lines of headings and then a line for each point,
    in their order, with wind speed, wind angle and boat speed in columns of their own. *)
Theorem cloud_text : forall cloud : list (pt3 R),
  (forall p, In p cloud -> (0 <= pws p <= 999 /\ 0 <= pwa p <= 999 /\ 0 <= pbs p <= 999)%R) ->
  length (lines (cloud_str cloud)) = 3 + length cloud /\
  forall i p, nth_error cloud i = Some p ->
    reads (cloud_str cloud) (2 + i) 0 6 (fixed 2 (pws p)) /\
    reads (cloud_str cloud) (2 + i) 8 7 (fixed 2 (pwa p)) /\
    reads (cloud_str cloud) (2 + i) 17 6 (fixed 2 (pbs p)).
Proof.
  intros cloud F.
  set (row := fun p : pt3 R => join [rjust 6 (fixed 2 (pws p)); "  "; rjust 7 (fixed 2 (pwa p)); "  ";
     rjust 6 (fixed 2 (pbs p)); "  "]%string).
  assert (E : cloud_str cloud =
    text_of "   TWS      TWA     BSP" "++++++  +++++++  ++++++" (map row cloud)).
  { unfold cloud_str, text_of. repeat rewrite ?join_cons, ?join_app, ?join_nil, ?sapp_nil, ?sapp_assoc.
    rewrite join_concat, !map_map. do 5 f_equal. apply map_ext. intros p. unfold cloud_line, row.
    repeat rewrite ?join_cons, ?join_app, ?join_nil, ?sapp_nil, ?sapp_assoc. auto. }
  assert (L : lines (cloud_str cloud) =
    "   TWS      TWA     BSP"%string :: "++++++  +++++++  ++++++"%string :: map row cloud ++ [""%string]).
  { rewrite E. apply lines_text; auto. intros r I. apply in_map_iff in I. destruct I as [p [<- _]].
    apply sforall_join. intros s S. simpl in S.
    repeat (destruct S as [<- | S]; [try reflexivity; apply rjust_inline, fixed_numeral|]). contradiction. }
  unfold reads. rewrite L. split; [simpl; rewrite app_length, map_length; simpl; lia|].
  intros i p I.
  assert (Hr : nth_error ("   TWS      TWA     BSP"%string :: "++++++  +++++++  ++++++"%string :: map row cloud ++ [""%string]) (2 + i)
               = Some (row p)).
  { simpl. rewrite nth_error_app1; [exact (map_nth_error row _ _ I)|].
    rewrite map_length. apply nth_error_Some. congruence. }
  destruct (F p (nth_error_In _ _ I)) as [B1 [B2 B3]].
  pose proof (fixed_length_pos 2 _ ltac:(lia) B1) as L1.
  pose proof (fixed_length_pos 2 _ ltac:(lia) B2) as L2.
  pose proof (fixed_length_pos 2 _ ltac:(lia) B3) as L3.
  assert (W : forall i d, nth_error [rjust 6 (fixed 2 (pws p)); "  "; rjust 7 (fixed 2 (pwa p)); "  ";
     rjust 6 (fixed 2 (pbs p)); "  "]%string i = Some d -> nth_error [6; 2; 7; 2; 6; 2] i = Some (String.length d)).
  { intros k d D.
    do 6 (destruct k as [|k]; [simpl in D; inversion D; subst; simpl; rewrite ?rjust_length by lia; reflexivity|]).
    destruct k; discriminate. }
  assert (P : forall k c, nth_error [rjust 6 (fixed 2 (pws p)); "  "; rjust 7 (fixed 2 (pwa p)); "  ";
     rjust 6 (fixed 2 (pbs p)); "  "]%string k = Some c ->
     read (row p) (position 0 [6; 2; 7; 2; 6; 2] k) (String.length c) = no_blanks c).
  { intros k c C. exact (read_line_cell "" _ _ k c C W). }
  split; [|split]; exists (row p); (split; [exact Hr|]).
  - specialize (P 0 _ eq_refl). rewrite rjust_length in P by lia. simpl position in P. rewrite P.
    apply no_blanks_rjust, fixed_numeral.
  - specialize (P 2 _ eq_refl). rewrite rjust_length in P by lia. simpl position in P. rewrite P.
    apply no_blanks_rjust, fixed_numeral.
  - specialize (P 4 _ eq_refl). rewrite rjust_length in P by lia. simpl position in P. rewrite P.
    apply no_blanks_rjust, fixed_numeral.
Qed.
Print Assumptions cloud_text.

Example cloud_text_case :
  reads (cloud_str [(4, 350, 21 # 4); (12, 45, 7)]%Q) 3 17 6 "7.00" /\
  length (lines (cloud_str [(4, 350, 21 # 4); (12, 45, 7)]%Q)) = 5.
Proof. split; [eexists; split; vm_compute; reflexivity | reflexivity]. Qed.

(** ** Several sails *)

Lemma multi_new_sails : forall D (pds : list D) sails, length (m_sails (multi_new pds sails)) = length pds.
Proof.
  intros D pds [l|]; simpl.
  - destruct (Nat.ltb_spec (length l) (length pds)).
    + rewrite app_length, map_length, seq_length. lia.
    + destruct (Nat.ltb_spec (length pds) (length l)); [rewrite firstn_length|]; lia.
  - rewrite map_length, seq_length. auto.
Qed.

(** C118.  The text of a diagram with several sails is one block for each diagram, in their
    order: the name of the sail, the text of the diagram, and an empty line. *)
Theorem multi_text : forall D (str : D -> string) pds sails,
  let m := multi_new pds sails in
  exists blocks, multi_str str m = join blocks /\ length blocks = length pds /\
  forall i pd, nth_error pds i = Some pd ->
    exists name, nth_error (m_sails m) i = Some name /\
      nth_error blocks i = Some (name ++ nl ++ str pd ++ nl ++ nl)%string.
Proof.
  intros D str pds sails m.
  exists (map (fun '(name, table) => name ++ nl ++ table ++ nl ++ nl)%string
           (combine (m_sails m) (map str (m_diagrams m)))).
  assert (L : length (m_sails m) = length pds) by apply multi_new_sails.
  split; [|split].
  - unfold multi_str. rewrite join_concat, map_map. f_equal. apply map_ext. intros [a b].
    rewrite !join_cons, join_nil, sapp_nil. auto.
  - rewrite map_length, combine_length, map_length, L. apply Nat.min_id.
  - intros i pd I.
    destruct (nth_error (m_sails m) i) as [name|] eqn:N.
    + exists name. split; auto. apply nth_error_map_iff. exists (name, str pd). split; auto.
      apply nth_error_combine. split; auto. exact (map_nth_error str _ _ I).
    + apply nth_error_None in N. assert (i < length pds) by (apply nth_error_Some; congruence). lia.
Qed.
Print Assumptions multi_text.

Example multi_text_case :
  multi_str string_of_nat (multi_new [7; 42] (Some ["Jib"%string])) =
  ("Jib" ++ nl ++ "7" ++ nl ++ nl ++ "Sail 1" ++ nl ++ "42" ++ nl ++ nl)%string.
Proof. reflexivity. Qed.
