(** * C133: tables in the format "array" as texts *)

From Coq Require Import String Ascii.
From Coq Require Import List Bool Arith ZArith Reals Lra Lia.
From Verif Require Import Py Num TableModel TableSpec TableProofs CsvModel CsvSpec CsvProofs CsvProps CsvTextModel CsvTextProps ArrayTextModel.
Import List ListNotations.
Open Scope nat_scope.
Open Scope list_scope.

(** A word: not empty, no blanks, no number sign, no quotation mark. *)
Definition word_char (c : ascii) : Prop :=
  let n := nat_of_ascii c in ~ (9 <= n <= 13) /\ ~ (28 <= n <= 32) /\ n <> 35 /\ n <> 34.
Definition word (t : text) : Prop := t <> [] /\ forall c, In c t -> word_char c.

Lemma word_tests : forall c, word_char c -> blank c = false /\ Ascii.eqb c HASH = false /\ special TAB c = false.
Proof.
  intros c [H1 [H2 [H3 H4]]]. split; [|split].
  - unfold blank. destruct (Nat.leb_spec 9 (nat_of_ascii c)), (Nat.leb_spec (nat_of_ascii c) 13), (Nat.leb_spec 28 (nat_of_ascii c)),
      (Nat.leb_spec (nat_of_ascii c) 32); cbn; try reflexivity; exfalso; (apply H1; lia) || (apply H2; lia).
  - destruct (Ascii.eqb_spec c HASH) as [->|]; [|reflexivity]. exfalso. apply H3. reflexivity.
  - assert (forall x, (9 <= nat_of_ascii x <= 13 \/ nat_of_ascii x = 34) -> Ascii.eqb c x = false) as N.
    { intros x Hx. destruct (Ascii.eqb_spec c x) as [->|]; [|reflexivity]. exfalso. destruct Hx; auto. }
    unfold special, is_newline. rewrite !N; [reflexivity| | | |]; vm_compute; lia.
Qed.

Lemma word_plain : forall f, word f -> write_field TAB f = f.
Proof.
  intros f [_ H]. unfold write_field. destruct (existsb (special TAB) f) eqn:E; [|reflexivity].
  apply existsb_exists in E. destruct E as [c [I S]]. apply H in I. apply word_tests in I. destruct I as [_ [_ I]]. congruence.
Qed.

(** The fields of one line. *)
Lemma split_word : forall f r cur, (forall c, In c f -> word_char c) -> split_blanks (f ++ r) cur = split_blanks r (rev f ++ cur).
Proof.
  induction f as [|c f IH]; intros r cur H; [reflexivity|]. cbn [app split_blanks rev].
  destruct (word_tests c (H c (or_introl eq_refl))) as [-> _]. rewrite IH by (intros x Hx; apply H; right; exact Hx).
  rewrite <- app_assoc. reflexivity.
Qed.
Lemma split_end : forall f c r, f <> [] -> blank c = true -> split_blanks (c :: r) (rev f ++ []) = f :: split_blanks r [].
Proof.
  intros f c r NE B. cbn [split_blanks]. rewrite B. rewrite app_nil_r. destruct (rev f) eqn:E; [|rewrite <- E, rev_involutive; reflexivity].
  exfalso. apply NE. rewrite <- (rev_involutive f), E. reflexivity.
Qed.
Lemma split_line : forall row, row <> [] -> Forall word row -> split_blanks (join_fields TAB row ++ [CR; LF]) [] = row.
Proof.
  induction row as [|f row IH]; intros NE FW; [congruence|]. inversion FW as [|? ? W FW']; subst. destruct row as [|g row].
  - cbn [join_fields]. rewrite word_plain by auto. rewrite split_word by apply W. rewrite split_end by (apply W || reflexivity). reflexivity.
  - change (join_fields TAB (f :: g :: row)) with (write_field TAB f ++ TAB :: join_fields TAB (g :: row)).
    rewrite word_plain by auto. rewrite <- app_assoc. rewrite split_word by apply W. cbn [app]. rewrite split_end by (apply W || reflexivity).
    f_equal. apply IH; [discriminate|auto].
Qed.

Lemma line_chars : forall row, Forall word row -> forall c, In c (join_fields TAB row) -> word_char c \/ c = TAB.
Proof.
  induction row as [|f row IH]; intros FW c I; [destruct I|]. inversion FW as [|? ? W FW']; subst. destruct row as [|g row].
  - cbn [join_fields] in I. rewrite word_plain in I by auto. left. apply W. exact I.
  - change (join_fields TAB (f :: g :: row)) with (write_field TAB f ++ TAB :: join_fields TAB (g :: row)) in I.
    rewrite word_plain in I by auto. apply in_app_or in I. destruct I as [I|[<-|I]]; [left; apply W; exact I|auto|apply IH; auto].
Qed.

Lemma cut_none : forall t, (forall c, In c t -> Ascii.eqb c HASH = false) -> cut_comment t = t.
Proof.
  induction t as [|c t IH]; intros H; [reflexivity|]. cbn [cut_comment]. rewrite H by (left; reflexivity).
  rewrite IH by (intros x Hx; apply H; right; exact Hx). reflexivity.
Qed.

Lemma lines_line : forall l rest cur, (forall c, In c l -> Ascii.eqb c CR = false /\ Ascii.eqb c LF = false) ->
  file_lines (l ++ CR :: LF :: rest) cur = (rev cur ++ l ++ [CR; LF]) :: file_lines rest [].
Proof.
  induction l as [|c l IH]; intros rest cur H.
  - cbn [app file_lines]. change (ends_line CR (LF :: rest)) with false. change (ends_line LF rest) with true. cbv iota.
    cbn [rev]. rewrite <- !app_assoc. reflexivity.
  - cbn [app file_lines]. unfold ends_line. destruct (H c (or_introl eq_refl)) as [-> ->]. cbn [orb andb].
    rewrite IH by (intros x Hx; apply H; right; exact Hx). cbn [rev]. rewrite <- !app_assoc. reflexivity.
Qed.

(** C133: rows of words that are written with tabulators are the rows numpy reads. *)
Theorem array_fields_written : forall rows, Forall (fun r => r <> [] /\ Forall (fun s => word (list_ascii_of_string s)) r) rows ->
  array_fields (write_rows TAB (texts rows)) = rows.
Proof.
  intros rows. unfold array_fields. induction rows as [|r rows IH]; intros F; [reflexivity|].
  inversion F as [|? ? [NE FW] F']; subst. cbn [texts map]. unfold write_rows. cbn [flat_map]. fold (write_rows TAB (texts rows)).
  set (r' := map list_ascii_of_string r).
  assert (Forall word r') as FW' by (unfold r'; apply Forall_map; exact FW).
  assert (r' <> []) as NE' by (unfold r'; destruct r; [congruence|discriminate]).
  assert (write_row TAB r' = join_fields TAB r' ++ [CR; LF]) as ->.
  { unfold write_row. destruct r' as [|[|c f] [|g l]]; try reflexivity. inversion FW' as [|? ? [W _] _]; congruence. }
  rewrite <- app_assoc. cbn [app].
  assert (forall c, In c (join_fields TAB r') -> (Ascii.eqb c CR = false /\ Ascii.eqb c LF = false) /\ Ascii.eqb c HASH = false) as CH.
  { intros c I. apply line_chars in I; auto. destruct I as [W | ->]; [|repeat split; reflexivity].
    destruct (word_tests c W) as [_ [HH SP]]. split; [|exact HH]. unfold special, is_newline in SP.
    apply orb_false_iff in SP. destruct SP as [_ SP]. apply orb_false_iff in SP. exact SP. }
  rewrite lines_line by (intros c I; apply CH; exact I). cbn [rev app map strings]. f_equal.
  - rewrite cut_none.
    + rewrite split_line by auto. unfold r'. rewrite map_map. rewrite <- (map_id r) at 2. apply map_ext. intros s. apply string_of_list_ascii_of_string.
    + intros c I. apply in_app_or in I. destruct I as [I|[<-|[<-|[]]]]; [apply CH; exact I|reflexivity|reflexivity].
  - apply IH. exact F'.
Qed.
Print Assumptions array_fields_written.

(** C133: a table written in the format "array" is read back, if its numbers are printed as words
    that are read back. *)
Theorem table_array_text_round_trip : forall show lit tofloat (t : table R),
  table_ok t -> t_ws t <> [] -> t_wa t <> [] -> t = mkTable (t_ws t) (t_wa t) (t_bs t) false ->
  (forall v, in_table t v -> readable show lit tofloat v /\ word (list_ascii_of_string (show v))) ->
  table_of_array_text tofloat (array_text show t) = Ok t.
Proof.
  intros show lit tofloat t OK NS NA E RD. unfold table_of_array_text, array_text. rewrite array_fields_written.
  - change (table_from_array tofloat (table_to_csv show Array t)) with (table_from_extern lit tofloat Array (table_to_csv show Array t)).
    rewrite (table_extern_round_trip Array show lit tofloat t); auto; [f_equal; auto|discriminate|]. intros v Hv. apply RD. exact Hv.
  - cbn [table_to_csv]. constructor.
    + split; [discriminate|]. constructor.
      * split; [discriminate|]. intros c I. cbn in I. repeat (destruct I as [<-|I]; [unfold word_char; cbn; lia|]). destruct I.
      * apply Forall_map, Forall_forall. intros v Hv. apply RD. left. exact Hv.
    + unfold csv_rows. apply Forall_map, Forall_forall. intros [a r] I. split; [discriminate|]. cbn [fst snd map]. constructor.
      * apply RD. right. left. eapply in_combine_l. exact I.
      * apply Forall_map, Forall_forall. intros v Hv. apply RD. right. right. exists r. split; [eapply in_combine_r; exact I|exact Hv].
Qed.
Print Assumptions table_array_text_round_trip.

Example table_array_text_meets : exists t : table R, t = mkTable [6; 8]%R [2; 5]%R [[3; 4]; [5; 6]]%R false /\
  table_of_array_text ex_read (array_text ex_show t) = Ok t /\
  array_fields (list_ascii_of_string "# saved
  TWA  6
  2    5") = [[]; ["TWA"; "6"]; ["2"; "5"]]%string.
Proof.
  eexists. split; [reflexivity|]. split; [|vm_compute; reflexivity].
  apply (table_array_text_round_trip ex_show ex_lit ex_read); try discriminate; try reflexivity.
  - unfold table_ok. simpl. split; [repeat constructor; lra|]. split; [repeat constructor; lra|].
    split; [intros s H; repeat (destruct H as [<-|H]; [lra|]); destruct H|].
    split; [intros s H; repeat (destruct H as [<-|H]; [lra|]); destruct H|]. split; [reflexivity|].
    intros s H; repeat (destruct H as [<-|H]; [reflexivity|]); destruct H.
  - assert (forall z, (0 <= z < 10)%Z -> word (list_ascii_of_string (ex_show (IZR z)))) as W.
    { intros z H. unfold ex_show. assert (Int_part (IZR z) = z) as ->.
      { pose proof (Int_part_bounds (IZR z)) as [B1 B2].
        assert (Int_part (IZR z) <= z)%Z by (apply le_IZR; auto).
        assert (z < Int_part (IZR z) + 1)%Z by (apply lt_IZR; rewrite plus_IZR; lra). lia. }
      split; [discriminate|]. intros c [<-|[]]. unfold word_char.
      rewrite nat_ascii_embedding by lia. lia. }
    intros x H. assert (x = 6 \/ x = 8 \/ x = 2 \/ x = 5 \/ x = 3 \/ x = 4)%R as C.
    { unfold in_table in H. simpl in H. destruct H as [H|[H|[r [[<-|[<-|[]]] H]]]]; simpl in H; intuition auto. }
    destruct C as [-> | [-> | [-> | [-> | [-> | ->]]]]]; (split; [apply ex_readable; lia|apply W; lia]).
Qed.
