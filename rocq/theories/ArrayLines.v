(** * Reading tables of the format "array" that were typed by hand (C133)

    [np.genfromtxt(file)] of _reading.py 104-106 (ArrayTextModel.v) on files with any line ends, any blanks
    around the numbers and comments. *)

From Coq Require Import String Ascii.
From Coq Require Import List Bool Arith Lia.
From Verif Require Import Py ListX CsvTextModel CsvTextProps CsvLines ArrayTextModel ArrayTextProps.
Import List ListNotations.
Open Scope nat_scope.
Open Scope list_scope.

(** ** Specification *)

(** A blank within a line: tabulator, vertical tabulator, form feed, four separators or a space. *)
Definition inner_blank (c : ascii) : Prop :=
  let n := nat_of_ascii c in n = 9 \/ n = 11 \/ n = 12 \/ 28 <= n <= 32.

(** A line: the blanks at its beginning, the words with the blanks after them, perhaps a comment. *)
Record aline := mkLine { l_indent : text; l_words : list (text * text); l_comment : option text }.

Definition line_text (l : aline) : text :=
  l_indent l ++ flat_map (fun wb => fst wb ++ snd wb) (l_words l) ++
  match l_comment l with Some c => "#"%char :: c | None => [] end.

(** Blanks between any two words. *)
Fixpoint spaced (ws : list (text * text)) : Prop :=
  match ws with
  | [] => True
  | (w, b) :: r => word w /\ Forall inner_blank b /\ (r = [] \/ b <> []) /\ spaced r
  end.

Definition line_ok (l : aline) : Prop :=
  line_text l <> [] /\ Forall inner_blank (l_indent l) /\ spaced (l_words l) /\
  forall t c, l_comment l = Some t -> In c t -> c <> CR /\ c <> LF.

Definition lines_text (ls : list (aline * text)) (last : option aline) : text :=
  flat_map (fun le => line_text (fst le) ++ snd le) ls ++ match last with Some l => line_text l | None => [] end.
Definition all_lines (ls : list (aline * text)) (last : option aline) : list aline :=
  map fst ls ++ match last with Some l => [l] | None => [] end.

(** ** Proofs *)

Lemma inner_tests : forall c, inner_blank c -> blank c = true /\ c <> CR /\ c <> LF /\ Ascii.eqb c HASH = false.
Proof.
  intros c H. unfold inner_blank in H. cbv zeta in H. split.
  - unfold blank. apply orb_true_iff. rewrite !andb_true_iff, !Nat.leb_le. lia.
  - assert (nat_of_ascii CR = 13 /\ nat_of_ascii LF = 10 /\ nat_of_ascii HASH = 35) as [A [B C]] by (vm_compute; auto).
    split; [intros ->; lia|]. split; [intros ->; lia|]. destruct (Ascii.eqb_spec c HASH) as [->|]; [lia|reflexivity].
Qed.

Lemma word_ne : forall c, word_char c -> c <> CR /\ c <> LF /\ Ascii.eqb c HASH = false.
Proof.
  intros c H. destruct (word_tests c H) as [_ [E _]]. destruct H as [H _].
  assert (nat_of_ascii CR = 13 /\ nat_of_ascii LF = 10) as [A B] by (vm_compute; auto).
  split; [intros ->; lia|]. split; [intros ->; lia|auto].
Qed.

Lemma words_chars : forall ws c, spaced ws -> In c (flat_map (fun wb => fst wb ++ snd wb) ws) -> c <> CR /\ c <> LF /\ Ascii.eqb c HASH = false.
Proof.
  induction ws as [|[w b] ws IH]; intros c S I; [destruct I|]. destruct S as [W [B [_ S]]]. cbn [flat_map fst snd] in I.
  apply in_app_or in I. destruct I as [I|I]; [|auto]. apply in_app_or in I. destruct I as [I|I].
  - apply word_ne, W, I.
  - rewrite Forall_forall in B. apply inner_tests; auto.
Qed.

Lemma line_no_end : forall l c, line_ok l -> In c (line_text l) -> c <> CR /\ c <> LF.
Proof.
  intros l c [_ [FI [S C]]] I. unfold line_text in I. apply in_app_or in I. destruct I as [I|I].
  { rewrite Forall_forall in FI. destruct (inner_tests c (FI c I)) as [_ [A [B _]]]. auto. }
  apply in_app_or in I. destruct I as [I|I].
  { destruct (words_chars _ c S I) as [A [B _]]. auto. }
  destruct (l_comment l) as [t|] eqn:E; [|destruct I]. destruct I as [<-|I]; [split; discriminate|]. eapply C; eauto.
Qed.

Lemma lines_end : forall b e rest cur, (forall c, In c b -> c <> CR /\ c <> LF) -> line_end e ->
  (e = [CR] -> forall t, rest <> LF :: t) -> file_lines (b ++ e ++ rest) cur = (rev cur ++ b ++ e) :: file_lines rest [].
Proof.
  induction b as [|c b IH]; intros e rest cur H E R.
  - cbn [app]. destruct E as [-> | [-> | ->]]; cbn [app file_lines].
    + change (ends_line LF rest) with true. reflexivity.
    + change (ends_line CR (LF :: rest)) with false. cbn iota. change (ends_line LF rest) with true. cbn iota.
      cbn [rev]. rewrite <- app_assoc. reflexivity.
    + assert (ends_line CR rest = true) as ->; [|reflexivity].
      unfold ends_line. destruct rest as [|x rest]; [reflexivity|]. rewrite (eqb_ne x LF); [reflexivity|].
      intros ->. apply (R eq_refl rest). reflexivity.
  - cbn [app file_lines]. destruct (H c (or_introl eq_refl)) as [A B]. rewrite ends_ne by auto.
    rewrite IH; auto; [|intros x X; apply H; right; auto]. cbn [rev]. rewrite <- app_assoc. reflexivity.
Qed.

Lemma lines_last : forall b cur, (forall c, In c b -> c <> CR /\ c <> LF) -> rev cur ++ b <> [] -> file_lines b cur = [rev cur ++ b].
Proof.
  induction b as [|c b IH]; intros cur H N.
  - cbn [file_lines]. rewrite app_nil_r in *. destruct cur; [contradiction N; reflexivity|reflexivity].
  - cbn [file_lines]. destruct (H c (or_introl eq_refl)) as [A B]. rewrite ends_ne by auto. rewrite IH.
    + cbn [rev]. rewrite <- app_assoc. reflexivity.
    + intros x X. apply H. right. auto.
    + cbn [rev]. rewrite <- app_assoc. destruct (rev cur); discriminate.
Qed.

Lemma cut_app : forall p t, (forall c, In c p -> Ascii.eqb c HASH = false) -> cut_comment (p ++ t) = p ++ cut_comment t.
Proof.
  induction p as [|c p IH]; intros t H; [reflexivity|]. cbn [app cut_comment]. rewrite H by (left; auto).
  rewrite IH by (intros x X; apply H; right; auto). reflexivity.
Qed.

Lemma split_indent : forall b r, (forall c, In c b -> blank c = true) -> split_blanks (b ++ r) [] = split_blanks r [].
Proof.
  induction b as [|c b IH]; intros r H; [reflexivity|]. cbn [app split_blanks]. rewrite H by (left; auto).
  apply IH. intros x X. apply H. right. auto.
Qed.

Lemma split_words : forall ws e, spaced ws -> (forall c, In c e -> blank c = true) ->
  split_blanks (flat_map (fun wb => fst wb ++ snd wb) ws ++ e) [] = map fst ws.
Proof.
  induction ws as [|[w b] ws IH]; intros e S E.
  - cbn [flat_map app map]. rewrite <- (app_nil_r e). rewrite split_indent by auto. reflexivity.
  - destruct S as [W [B [N S]]]. cbn [flat_map fst snd map]. rewrite <- !app_assoc. rewrite split_word by apply W.
    assert (forall c, In c b -> blank c = true) as BB by (intros c C; rewrite Forall_forall in B; apply inner_tests; auto).
    destruct b as [|c b].
    + destruct N as [-> | N]; [|contradiction N; reflexivity]. cbn [flat_map app map].
      destruct e as [|c e].
      * cbn [split_blanks]. rewrite app_nil_r. destruct W as [W _]. destruct (rev w) eqn:R;
          [|rewrite <- R, rev_involutive; reflexivity]. exfalso. apply W. rewrite <- (rev_involutive w), R. reflexivity.
      * rewrite split_end; [|apply W|apply E; left; auto]. rewrite <- (app_nil_r e). rewrite split_indent by (intros x X; apply E; right; auto).
        reflexivity.
    + cbn [app]. rewrite split_end; [|apply W|apply BB; left; auto]. rewrite split_indent by (intros x X; apply BB; right; auto).
      rewrite IH by auto. reflexivity.
Qed.

Lemma split_line_text : forall l e, line_ok l -> e = [] \/ line_end e -> split_blanks (cut_comment (line_text l ++ e)) [] = map fst (l_words l).
Proof.
  intros l e [_ [FI [S C]]] E. unfold line_text. rewrite <- !app_assoc.
  rewrite Forall_forall in FI.
  rewrite cut_app by (intros c I; apply inner_tests; auto).
  rewrite split_indent by (intros c I; apply inner_tests; auto).
  rewrite cut_app by (intros c I; eapply words_chars; eauto).
  apply split_words; auto. destruct (l_comment l) as [t|].
  - intros c I. cbn [app cut_comment] in I. change (Ascii.eqb "#" HASH) with true in I. destruct I.
  - cbn [app]. intros c I. destruct E as [-> | [-> | [-> | ->]]]; [destruct I| | |]; vm_compute in I;
      repeat (destruct I as [<-|I]; [reflexivity|]); destruct I.
Qed.

(** ** Property *)

(** C133.  Every line is read as its words: comments, blanks and the kind of the line ends do not matter. *)
Theorem array_text_lines : forall ls last, (forall l, In l (all_lines ls last) -> line_ok l) -> (forall le, In le ls -> line_end (snd le)) ->
  array_fields (lines_text ls last) = strings (map (fun l => map fst (l_words l)) (all_lines ls last)).
Proof.
  intros ls last OK EN. unfold array_fields, lines_text, all_lines in *. unfold strings. f_equal.
  induction ls as [|[l e] ls IH].
  - cbn [flat_map map app] in *. destruct last as [l|]; [|reflexivity].
    assert (line_ok l) as L by (apply OK; left; auto). rewrite lines_last.
    + cbn [rev app map]. f_equal. rewrite <- (app_nil_r (line_text l)). apply split_line_text; auto.
    + intros c I. eapply line_no_end; eauto.
    + apply L.
  - cbn [flat_map map app fst snd] in *. rewrite <- !app_assoc.
    assert (line_ok l) as L by (apply OK; left; auto). assert (line_end e) as E by (apply (EN (l, e)); left; auto).
    assert (forall l', line_ok l' -> exists c t, line_text l' = c :: t /\ c <> LF) as HEAD.
    { intros l' L'. destruct (line_text l') as [|c t] eqn:Q; [destruct L'; contradiction|]. exists c, t. split; auto.
      apply (line_no_end l' c L'). rewrite Q. left. auto. }
    rewrite lines_end; auto.
    + cbn [rev app map]. f_equal; [apply split_line_text; auto|]. apply IH; intros x X; [apply OK|apply EN]; right; auto.
    + intros c I. eapply line_no_end; eauto.
    + intros _ t Q. destruct ls as [|[l' e'] ls]; cbn [flat_map app fst snd] in Q.
      * destruct last as [l'|]; [|discriminate]. destruct (HEAD l') as [c [t' [H1 H2]]]; [apply OK; right; left; auto|]. congruence.
      * destruct (HEAD l') as [c [t' [H1 H2]]]; [apply OK; right; left; auto|]. rewrite H1 in Q. cbn [app] in Q. congruence.
Qed.
Print Assumptions array_text_lines.

(** A comment, a line with blanks at both ends and CR as its end, a line with a comment and no end. *)
Example array_text_lines_meets :
  let s := list_ascii_of_string in
  let ls := [(mkLine [] [] (Some (s " saved")), [LF]); (mkLine (s " ") [(s "TWA", s "  "); (s "6", s " ")] None, [CR])]%string in
  let last := Some (mkLine [] [(s "2", s " "); (s "5", [])] (Some (s "slow")))%string in
  (forall l, In l (all_lines ls last) -> line_ok l) /\ (forall le, In le ls -> line_end (snd le)) /\
  string_of_list_ascii (lines_text ls last) = ("# saved" ++ String LF (" TWA  6 " ++ String CR "2 5#slow"))%string /\
  array_fields (lines_text ls last) = [[]; ["TWA"; "6"]; ["2"; "5"]]%string.
Proof.
  cbv zeta.
  assert (word (list_ascii_of_string "TWA") /\ word (list_ascii_of_string "6") /\ word (list_ascii_of_string "2") /\ word (list_ascii_of_string "5")) as W.
  { repeat split; try discriminate; cbn in H; repeat (destruct H as [<-|H]; [vm_compute; lia|]); destruct H. }
  assert (inner_blank " "%char) as SP by (unfold inner_blank; vm_compute; lia).
  split; [|split; [|split; [reflexivity|vm_compute; reflexivity]]].
  - destruct W as [W1 [W2 [W3 W4]]]. cbn in W1, W2, W3, W4. cbn in SP.
    assert (forall n, Forall inner_blank (repeat " "%char n)) as RP by (induction n; cbn [repeat]; constructor; auto).
    intros l I. cbn in I. destruct I as [<-|[<-|[<-|[]]]].
    + split; [discriminate|]. split; [exact (RP 0)|]. split; [exact I|].
      intros t c E J. injection E as <-. cbn in J. repeat (destruct J as [<-|J]; [split; discriminate|]). destruct J.
    + split; [discriminate|]. split; [exact (RP 1)|]. split; [|intros t c E; discriminate].
      split; [exact W1|]. split; [exact (RP 2)|]. split; [right; discriminate|]. split; [exact W2|]. split; [exact (RP 1)|]. split; [left; auto|exact I].
    + split; [discriminate|]. split; [exact (RP 0)|]. split.
      { split; [exact W3|]. split; [exact (RP 1)|]. split; [right; discriminate|]. split; [exact W4|]. split; [exact (RP 0)|]. split; [left; auto|exact I]. }
      intros t c E J. injection E as <-. cbn in J. repeat (destruct J as [<-|J]; [split; discriminate|]). destruct J.
  - intros le [<-|[<-|[]]]; unfold line_end; auto.
Qed.
