(** * C14: the standard key of a column; C09: the columns of a type *)

From Coq Require Import String Ascii.
From Coq Require Import List Bool Arith ZArith QArith Lia.
From Verif Require Import Py Dict DataModel DataSpec DataCheck DataProofs DataProofs2 DataProofs3 DataProofs4.
From Verif Require Import DataProps.
Import ListNotations.
Open Scope string_scope.
Open Scope list_scope.
Open Scope nat_scope.

(* ---- specification ---- *)

(** The separators: , ; _ - + & and the ends of lines and tabs. *)
Definition separator (a : ascii) : Prop := In (nat_of_ascii a) [44; 59; 95; 45; 43; 38; 10; 9].

(** Spaces, tabs, ends of lines and the other white space of ASCII. *)
Definition white (a : ascii) : Prop := 9 <= nat_of_ascii a <= 13 \/ 28 <= nat_of_ascii a <= 32.

(** A character of a key stands for a character of a word: the same one, the
    capital letter of it, or a separator in place of the space. *)
Definition letter (a c : ascii) : Prop :=
  a = c \/
  (65 <= nat_of_ascii a <= 90 /\ nat_of_ascii c = nat_of_ascii a + 32) \/
  (separator a /\ c = " "%char).

Fixpoint written (k w : string) : Prop :=
  match k, w with
  | EmptyString, EmptyString => True
  | String a k', String c w' => letter a c /\ written k' w'
  | _, _ => False
  end.

(** White space and separators only. *)
Fixpoint blank (s : string) : Prop :=
  match s with
  | EmptyString => True
  | String a r => (white a \/ separator a) /\ blank r
  end.

(** [k] is the word [w], whatever the capitals and the separators, with blanks
    around it. *)
Definition spells (k w : string) : Prop :=
  exists p b q, k = (p ++ b ++ q)%string /\ blank p /\ blank q /\ written b w.

(* ---- proofs ---- *)

Definition norm_char (a : ascii) : ascii := sep_to_space (lower_char a).
Definition norm (s : string) : string := smap norm_char s.

Lemma smap_smap : forall f g s, smap f (smap g s) = smap (fun c => f (g c)) s.
Proof. induction s; simpl; congruence. Qed.

Lemma smap_app : forall f s t, smap f (s ++ t)%string = (smap f s ++ smap f t)%string.
Proof. induction s; simpl; intros; congruence. Qed.

Definition all_ascii : list ascii := map ascii_of_nat (seq 0 256).

Lemma all_ascii_in : forall a, In a all_ascii.
Proof.
  intros a. unfold all_ascii. rewrite <- (ascii_nat_embedding a). apply in_map.
  apply in_seq. pose proof (nat_ascii_bounded a). lia.
Qed.

Lemma ascii_check : forall f : ascii -> bool, forallb f all_ascii = true -> forall a, f a = true.
Proof. intros f H a. rewrite forallb_forall in H. apply H. apply all_ascii_in. Qed.

Lemma sep_in : forall a, existsb (Ascii.eqb a) separators = true <-> separator a.
Proof.
  intros a. unfold separator.
  pose proof (ascii_check (fun a => Bool.eqb (existsb (Ascii.eqb a) separators)
    (existsb (Nat.eqb (nat_of_ascii a)) [44; 59; 95; 45; 43; 38; 10; 9])) ltac:(vm_compute; reflexivity) a) as H.
  cbv beta in H. apply Bool.eqb_prop in H. rewrite H. rewrite existsb_exists. split.
  - intros [x [I E]]. apply Nat.eqb_eq in E. subst. auto.
  - intros I. exists (nat_of_ascii a). split; auto. apply Nat.eqb_refl.
Qed.

Lemma white_iff : forall a, is_space a = true <-> white a.
Proof.
  intros a. unfold is_space, white. rewrite orb_true_iff, !andb_true_iff, !Nat.leb_le. tauto.
Qed.

Lemma letter_norm : forall a, letter a (norm_char a).
Proof.
  intros a.
  assert (((Ascii.eqb a (norm_char a)) ||
           ((65 <=? nat_of_ascii a) && (nat_of_ascii a <=? 90) &&
            (nat_of_ascii (norm_char a) =? nat_of_ascii a + 32)) ||
           (existsb (Ascii.eqb a) separators && Ascii.eqb (norm_char a) " "))%bool = true) as H.
  { exact (ascii_check (fun a => ((Ascii.eqb a (norm_char a)) ||
           ((65 <=? nat_of_ascii a) && (nat_of_ascii a <=? 90) &&
            (nat_of_ascii (norm_char a) =? nat_of_ascii a + 32)) ||
           (existsb (Ascii.eqb a) separators && Ascii.eqb (norm_char a) " "))%bool)
           ltac:(vm_compute; reflexivity) a). }
  apply orb_prop in H. destruct H as [H|H]; [apply orb_prop in H; destruct H as [H|H]|].
  - left. apply Ascii.eqb_eq. exact H.
  - right. left. apply andb_prop in H. destruct H as [H H2]. apply andb_prop in H. destruct H as [H0 H1].
    apply Nat.leb_le in H0, H1. apply Nat.eqb_eq in H2. lia.
  - right. right. apply andb_prop in H. destruct H as [H0 H1]. split.
    + apply sep_in. exact H0.
    + apply Ascii.eqb_eq. exact H1.
Qed.

(** A character of the words: neither a capital nor a separator. *)
Definition plain (c : ascii) : bool := Ascii.eqb (norm_char c) c.
Fixpoint splain (s : string) : bool :=
  match s with EmptyString => true | String c r => plain c && splain r end.

Lemma norm_letter : forall a c, plain c = true -> letter a c -> norm_char a = c.
Proof.
  intros a c P [->|[[R E]|[I ->]]].
  - apply Ascii.eqb_eq. exact P.
  - assert (c = ascii_of_nat (nat_of_ascii a + 32)) as ->.
    { rewrite <- E. symmetry. apply ascii_nat_embedding. }
    pose proof (ascii_check (fun a => (negb ((65 <=? nat_of_ascii a) && (nat_of_ascii a <=? 90)) ||
      Ascii.eqb (norm_char a) (ascii_of_nat (nat_of_ascii a + 32)))%bool)
      ltac:(vm_compute; reflexivity) a) as H.
    cbv beta in H. apply orb_prop in H. destruct H as [H|H].
    + exfalso. apply negb_true_iff in H. apply andb_false_iff in H.
      destruct H as [H|H]; apply Nat.leb_gt in H; lia.
    + apply Ascii.eqb_eq. exact H.
  - pose proof (ascii_check (fun a => (negb (existsb (Ascii.eqb a) separators) ||
      Ascii.eqb (norm_char a) " ")%bool) ltac:(vm_compute; reflexivity) a) as H.
    cbv beta in H. apply orb_prop in H. destruct H as [H|H].
    + exfalso. apply negb_true_iff in H. apply sep_in in I. congruence.
    + apply Ascii.eqb_eq. exact H.
Qed.

Lemma norm_written : forall b w, splain w = true -> written b w -> norm b = w.
Proof.
  induction b as [|a b IH]; intros [|c w] P W; simpl in *; try contradiction; auto.
  apply andb_prop in P. destruct P, W.
  change (String (norm_char a) (norm b) = String c w). f_equal; [apply norm_letter; auto|apply IH; auto].
Qed.

Lemma written_norm : forall b, written b (norm b).
Proof. induction b; simpl; auto. split; auto. apply letter_norm. Qed.

Lemma space_norm : forall a, is_space (norm_char a) = true <-> (white a \/ separator a).
Proof.
  intros a.
  pose proof (ascii_check (fun a => Bool.eqb (is_space (norm_char a))
    (is_space a || existsb (Ascii.eqb a) separators)) ltac:(vm_compute; reflexivity) a) as H.
  cbv beta in H. apply Bool.eqb_prop in H. rewrite H, orb_true_iff, sep_in, white_iff. reflexivity.
Qed.

Fixpoint spaces (s : string) : bool :=
  match s with EmptyString => true | String c r => is_space c && spaces r end.

Lemma blank_spaces : forall s, blank s <-> spaces (norm s) = true.
Proof.
  induction s; simpl; [tauto|]. rewrite andb_true_iff, space_norm, IHs. reflexivity.
Qed.

Lemma lstrip_spaces : forall p s, spaces p = true -> lstrip (p ++ s)%string = lstrip s.
Proof.
  induction p; simpl; intros s H; auto. apply andb_prop in H. destruct H as [H H0].
  rewrite H. auto.
Qed.

Lemma rstrip_all : forall q, spaces q = true -> rstrip q = EmptyString.
Proof.
  induction q; simpl; intros H; auto. apply andb_prop in H. destruct H as [H H0].
  rewrite (IHq H0), H. reflexivity.
Qed.

Lemma rstrip_spaces : forall s q, spaces q = true -> rstrip (s ++ q)%string = rstrip s.
Proof.
  induction s; simpl; intros q H; [apply rstrip_all; auto|]. rewrite (IHs q H). reflexivity.
Qed.

Definition first_solid (w : string) : bool :=
  match w with EmptyString => false | String c _ => negb (is_space c) end.

Lemma strip_spelled : forall p w q, spaces p = true -> spaces q = true ->
  first_solid w = true -> rstrip w = w -> strip (p ++ w ++ q)%string = w.
Proof.
  intros p w q P Q F W. unfold strip. rewrite lstrip_spaces by auto.
  destruct w as [|c w]; [discriminate|]. cbn [first_solid] in F. apply negb_true_iff in F.
  assert (lstrip (String c w ++ q)%string = (String c w ++ q)%string) as ->.
  { cbn. rewrite F. reflexivity. }
  rewrite rstrip_spaces by auto. exact W.
Qed.

Lemma lstrip_split : forall k, exists p s, k = (p ++ s)%string /\ blank p /\ lstrip (norm k) = norm s.
Proof.
  induction k as [|a k IH].
  - exists "", "". simpl. auto.
  - simpl. destruct (is_space (norm_char a)) eqn:E.
    + destruct IH as [p [s [-> [B L]]]]. exists (String a p), s. simpl. split; auto. split; auto.
      split; auto. apply space_norm. exact E.
    + exists "", (String a k). simpl. auto.
Qed.

Lemma append_nil_r : forall s, (s ++ "")%string = s.
Proof. induction s; simpl; congruence. Qed.

Lemma rstrip_split : forall k, exists b q, k = (b ++ q)%string /\ blank q /\ rstrip (norm k) = norm b.
Proof.
  induction k as [|a k IH].
  - exists "", "". simpl. auto.
  - destruct IH as [b [q [-> [B L]]]].
    destruct b as [|a' b].
    + destruct (is_space (norm_char a)) eqn:E.
      * exists "", (String a q). split; auto. split.
        -- split; auto. apply space_norm. exact E.
        -- change (norm (String a ("" ++ q))) with (String (norm_char a) (norm ("" ++ q))).
           cbn [rstrip]. rewrite L. cbn [norm smap]. rewrite E. reflexivity.
      * exists (String a ""), q. split; auto. split; auto.
        change (norm (String a ("" ++ q))) with (String (norm_char a) (norm ("" ++ q))).
        cbn [rstrip]. rewrite L. cbn [norm smap]. rewrite E. reflexivity.
    + exists (String a (String a' b)), q. split; auto. split; auto.
      change (norm (String a (String a' b ++ q))) with (String (norm_char a) (norm (String a' b ++ q))).
      cbn [rstrip]. rewrite L. reflexivity.
Qed.

Lemma strip_split : forall k, exists p b q, k = (p ++ b ++ q)%string /\ blank p /\ blank q /\
  strip (norm k) = norm b.
Proof.
  intros k. destruct (lstrip_split k) as [p [s [-> [P L]]]].
  destruct (rstrip_split s) as [b [q [-> [Q R]]]].
  exists p, b, q. repeat split; auto. unfold strip. rewrite L. exact R.
Qed.

Lemma spells_norm : forall k, spells k (strip (norm k)).
Proof.
  intros k. destruct (strip_split k) as [p [b [q [E [P [Q S]]]]]].
  exists p, b, q. rewrite S. repeat split; auto. apply written_norm.
Qed.

Definition word (w : string) : bool :=
  splain w && first_solid w && String.eqb (rstrip w) w.

Lemma spells_strip : forall k w, word w = true -> spells k w -> strip (norm k) = w.
Proof.
  intros k w W [p [b [q [-> [P [Q H]]]]]].
  unfold word in W. apply andb_prop in W. destruct W as [W W3].
  apply andb_prop in W. destruct W as [W1 W2]. apply String.eqb_eq in W3.
  unfold norm. rewrite !smap_app. fold (norm p) (norm b) (norm q).
  rewrite (norm_written b w) by auto.
  apply strip_spelled; auto; apply blank_spaces; auto.
Qed.

Lemma synonyms_words : forall w v, In (w, v) keysynonyms ->
  word w = true /\ word (w ++ "s")%string = true /\ dget w keysynonyms = Some v /\
  (dget (w ++ "s")%string keysynonyms = None \/ dget (w ++ "s")%string keysynonyms = Some v).
Proof.
  intros w v H.
  assert (forallb (fun kv : string * string => let (w, v) := kv in
    word w && word (w ++ "s")%string &&
    match dget w keysynonyms with Some v' => String.eqb v' v | None => false end &&
    match dget (w ++ "s")%string keysynonyms with Some v' => String.eqb v' v | None => true end)
    keysynonyms = true) as C by (vm_compute; reflexivity).
  rewrite forallb_forall in C. specialize (C _ H). cbn beta iota in C.
  apply andb_prop in C. destruct C as [C C4]. apply andb_prop in C. destruct C as [C C3].
  apply andb_prop in C. destruct C as [C1 C2]. split; auto. split; auto. split.
  - destruct (dget w keysynonyms); [|discriminate]. apply String.eqb_eq in C3. congruence.
  - destruct (dget (w ++ "s")%string keysynonyms); [|auto]. right. apply String.eqb_eq in C4. congruence.
Qed.

Lemma standard_key_unfold : forall k, get_standard_key k =
  (do c <- slast (strip (norm k));
   match dget (strip (norm k)) keysynonyms with
   | Some v => Ok v
   | None => match dget (if Ascii.eqb c "s"%char then sinit (strip (norm k)) else strip (norm k)) keysynonyms with
             | Some v => Ok v
             | None => Ok k
             end
   end).
Proof.
  intros k. unfold get_standard_key. rewrite smap_smap. reflexivity.
Qed.

Lemma slast_ok : forall c s, exists a, slast (String c s) = Ok a.
Proof. intros c s. revert c. induction s as [|a s IH]; intros c; simpl; eauto. Qed.

Lemma slast_app : forall s, slast (s ++ "s")%string = Ok "s"%char.
Proof. induction s as [|a s IH]; auto. simpl. rewrite IH. destruct s; reflexivity. Qed.

Lemma sinit_app : forall s, sinit (s ++ "s")%string = s.
Proof. induction s as [|a s IH]; auto. simpl. rewrite IH. destruct s; reflexivity. Qed.

Lemma sinit_last : forall s a, slast s = Ok a -> s = (sinit s ++ String a "")%string.
Proof.
  induction s as [|c s IH]; simpl; intros a H; [discriminate|].
  destruct s as [|c' s]; [inversion H; reflexivity|].
  rewrite (IH a H) at 1. reflexivity.
Qed.

Lemma solid_last : forall w, first_solid w = true -> exists a, slast w = Ok a.
Proof. intros [|c w] H; [discriminate|apply slast_ok]. Qed.

Lemma word_last : forall w, word w = true -> exists a, slast w = Ok a.
Proof.
  intros w H. unfold word in H. apply andb_prop in H. destruct H as [H _].
  apply andb_prop in H. destruct H. apply solid_last. auto.
Qed.

Lemma spaces_strip : forall s, spaces s = true -> strip s = "".
Proof.
  intros s H. unfold strip. rewrite <- (append_nil_r s), lstrip_spaces by auto. reflexivity.
Qed.

Lemma spells_empty : forall k, spells k "" -> blank k.
Proof.
  intros k [p [b [q [-> [P [Q W]]]]]]. destruct b; [|contradiction].
  simpl. clear W. induction p; simpl in *; auto. tauto.
Qed.

(* ================= the theorems ================= *)

(** The standard terms with their synonyms. *)
Definition terms : list (string * list string) := [
  ("TWS", ["ws"; "tws"; "wspd"; "wind"; "true"; "true wind"; "wind speed"; "true wind speed"]);
  ("AWS", ["aws"; "apparent"; "apparent wind"; "apparent wind speed"]);
  ("TWA", ["wa"; "twa"; "angle"; "wind angle"; "true angle"; "true wind angle"]);
  ("AWA", ["awa"; "apparent angle"; "apparent wind angle"]);
  ("BSP", ["sp"; "bsp"; "bsps"; "wsp"; "speed"; "boat speed"; "vessel speed"; "water speed";
           "boat speed knots"; "vessel speed knots"; "water speed knots"]);
  ("SOG", ["og"; "sog"; "spd over grnd"; "speed over ground"; "speed over ground knots"]);
  ("date", ["date"; "datestamp"; "date stamp"]);
  ("time", ["time"; "timestamp"; "time stamp"]);
  ("datetime", ["datetime"; "date time"]);
  ("lat", ["lat"; "latitude"]);
  ("lon", ["lon"; "long"; "longitude"]);
  ("temp", ["temp"; "temperature"]);
  ("dewpoint", ["dewpoint"; "dewpt"; "dwpt"; "dwpoint"]);
  ("humidity", ["hum"; "humidity"; "rhum"; "relhum"; "rel hum"; "relative hum"; "rel humidity";
                "relative humidity"]);
  ("WD", ["wd"; "wdir"; "winddir"]);
  ("gust", ["wpgt"]);
  ("air pressure", ["pres"]);
  ("total sunshine", ["tsun"])].

(** [w] is a synonym of the standard term [v]. *)
Definition synonym (w v : string) : Prop := exists ws, In (v, ws) terms /\ In w ws.

Lemma in_list_dec : forall (x : string * string) l,
  existsb (fun y => String.eqb (fst x) (fst y) && String.eqb (snd x) (snd y)) l = true <-> In x l.
Proof.
  intros [a b] l. rewrite existsb_exists. cbn [fst snd]. split.
  - intros [[c d] [I E]]. apply andb_prop in E. destruct E as [E1 E2].
    apply String.eqb_eq in E1, E2. cbn [fst snd] in *. subst. exact I.
  - intros I. exists (a, b). split; auto. cbn [fst snd]. rewrite !String.eqb_refl. reflexivity.
Qed.

Lemma synonym_iff : forall w v, In (w, v) keysynonyms <-> synonym w v.
Proof.
  set (pairs := flat_map (fun '(v, ws) => map (fun w => (w, v)) ws) terms).
  assert (P : forall w v, In (w, v) pairs <-> synonym w v).
  { intros w v. unfold pairs, synonym. rewrite in_flat_map. split.
    - intros [[v' ws] [I J]]. apply in_map_iff in J. destruct J as [w' [[= <- <-] J]]. eauto.
    - intros [ws [I J]]. exists (v, ws). split; auto. apply in_map_iff. eauto. }
  intros w v. rewrite <- P.
  assert (A : forallb (fun x => existsb (fun y => String.eqb (fst x) (fst y) && String.eqb (snd x) (snd y)) pairs)
                keysynonyms = true) by (vm_compute; reflexivity).
  assert (B : forallb (fun x => existsb (fun y => String.eqb (fst x) (fst y) && String.eqb (snd x) (snd y)) keysynonyms)
                pairs = true) by (vm_compute; reflexivity).
  rewrite forallb_forall in A, B. split; intros I; apply in_list_dec; auto.
Qed.

(** C14.  The standard key: a key that spells a known synonym, or its plural,
    is mapped to the standard term; any other key is left alone; a key of
    blanks only raises IndexError. *)
Theorem standard_key_meaning : forall k,
  (forall w v, synonym w v -> spells k w \/ spells k (w ++ "s")%string ->
     get_standard_key k = Ok v) /\
  (~ blank k ->
   (forall w v, synonym w v -> ~ spells k w /\ ~ spells k (w ++ "s")%string) ->
   get_standard_key k = Ok k) /\
  (blank k -> get_standard_key k = Raise IndexError).
Proof.
  intros k. split; [|split].
  - intros w v H S. apply synonym_iff in H. destruct (synonyms_words w v H) as [W1 [W2 [D1 D2]]].
    rewrite standard_key_unfold. destruct S as [S|S].
    + rewrite (spells_strip k w W1 S). destruct (word_last w W1) as [a ->]. cbn [rbind].
      rewrite D1. reflexivity.
    + rewrite (spells_strip k _ W2 S), slast_app. cbn [rbind].
      destruct D2 as [->|D2]; [|rewrite D2; reflexivity].
      change (Ascii.eqb "s" "s") with true. cbv iota. rewrite sinit_app, D1. reflexivity.
  - intros B N. rewrite standard_key_unfold. pose proof (spells_norm k) as S.
    destruct (strip (norm k)) as [|c r] eqn:E.
    { exfalso. apply B. apply spells_empty. exact S. }
    destruct (slast_ok c r) as [a A]. rewrite A. cbn [rbind].
    destruct (dget (String c r) keysynonyms) as [v|] eqn:D.
    { exfalso. apply dget_Some_In, synonym_iff in D. destruct (N _ _ D). auto. }
    destruct (Ascii.eqb a "s") eqn:Es.
    + apply Ascii.eqb_eq in Es. subst a. destruct (dget (sinit (String c r)) keysynonyms) as [v|] eqn:D'; auto.
      exfalso. apply dget_Some_In, synonym_iff in D'. destruct (N _ _ D') as [_ N2]. apply N2.
      rewrite <- (sinit_last _ _ A). exact S.
    + rewrite D. reflexivity.
  - intros B. apply blank_spaces in B. rewrite standard_key_unfold, (spaces_strip _ B). reflexivity.
Qed.
Print Assumptions standard_key_meaning.

Example standard_key_meaning_example :
  spells " Wind_Speeds" ("wind speed" ++ "s")%string /\ synonym "wind speed" "TWS" /\
  get_standard_key " Wind_Speeds" = Ok "TWS" /\
  ~ blank "heel" /\ get_standard_key "heel" = Ok "heel".
Proof.
  split.
  { exists " ", "Wind_Speeds", "". simpl.
    assert (letter "W" "w") by (right; left; vm_compute; split; [split; repeat constructor|reflexivity]).
    assert (letter "S" "s") by (right; left; vm_compute; split; [split; repeat constructor|reflexivity]).
    assert (white " ") by (apply white_iff; reflexivity). assert (separator "_") by (apply sep_in; reflexivity).
    repeat split; auto; try (left; reflexivity). right. right. auto. }
  split; [apply synonym_iff; simpl; tauto|]. split; [reflexivity|]. split; [|reflexivity].
  intros [[H|H] _]; [apply white_iff in H|apply sep_in in H]; discriminate.
Qed.

(** C09.  The columns of a type: exactly the columns of the table with that
    type, in the order of the table and with their entries. *)
Theorem get_by_type_exact : forall d t, typed d ->
  (forall k c, In (k, c) (get_by_type d t) <->
               get_col d k = Ok c /\ dget k (types d) = Some (Some t)) /\
  exists keep, map fst (get_by_type d t) = filter keep (data_keys d).
Proof.
  intros d t T. split.
  - intros k c. unfold get_by_type. rewrite filter_In. cbn [fst].
    destruct T as [N _]. unfold get_col. split.
    + intros [I F]. rewrite (NoDup_dget _ _ _ _ N I). split; auto.
      destruct (dget k (types d)) as [[t'|]|]; try discriminate. apply ptype_eqb_eq in F. congruence.
    + intros [G F]. destruct (dget k (cols d)) eqn:E; [|discriminate]. inversion G; subst.
      split; [apply dget_Some_In; auto|]. rewrite F. apply ptype_eqb_eq. reflexivity.
  - exists (fun k => match dget k (types d) with Some (Some t') => ptype_eqb t' t | _ => false end).
    unfold get_by_type, data_keys. induction (cols d) as [|[k c] r IH]; simpl; auto.
    destruct (dget k (types d)) as [[t'|]|]; simpl; auto. destruct (ptype_eqb t' t); simpl; congruence.
Qed.
Print Assumptions get_by_type_exact.

Example get_by_type_example :
  typed log_data /\
  get_by_type log_data TStr = [("ws", [Some (VStr "3"); Some (VStr "4")])].
Proof. split; [apply typedb_ok; reflexivity|reflexivity]. Qed.

(** C135.  Deleting columns: the listed columns go, the others stay in their order, with their
    entries and types; the number of rows stays.  A name that is no column (any more) raises
    KeyError; the columns named before it are gone then. *)
Theorem delete_columns : forall d n ks, well_formed d n -> NoDup ks ->
  (forall k, In k ks -> In k (data_keys d)) ->
  exists d', delete_cols d ks = (d', Ok tt) /\ well_formed d' n /\
    data_keys d' = filter (fun k => if in_dec string_dec k ks then false else true) (data_keys d) /\
    (forall k, ~ In k ks -> get_col d' k = get_col d k /\ dget k (types d') = dget k (types d)) /\
    (forall k r, In k ks \/ ~ In k (data_keys d) -> delete_cols d (ks ++ k :: r) = (d', Raise KeyError)).
Proof.
  intros d n ks. revert d. induction ks as [|k ks IH]; intros d W ND HK.
  - exists d. split; [reflexivity|]. split; [exact W|]. split; [|split].
    + clear. induction (data_keys d) as [|x l IHl]; [reflexivity|]. simpl. f_equal. exact IHl.
    + auto.
    + intros k r [[]|N]. cbn [app delete_cols]. unfold delete_col.
      destruct (dmem k (cols d)) eqn:E; [|reflexivity]. exfalso. apply N. apply dmem_In. exact E.
  - inversion ND as [|? ? Nk ND']; subst. destruct W as [T Rc].
    destruct (delete_col_ok d k T) as [d1 [E1 [K1 [M1 C1]]]]; [apply HK; left; reflexivity|].
    pose proof (typed_delete_col d k T) as T1. rewrite E1 in T1. cbn [fst] in T1.
    assert (Ik : forall k', In k' (data_keys d1) <-> k' <> k /\ In k' (data_keys d)).
    { intros k'. rewrite K1, filter_In, negb_true_iff, String.eqb_neq. tauto. }
    assert (W1 : well_formed d1 n).
    { split; [exact T1|]. destruct Rc as [R1 R2]. split; [congruence|].
      intros k' c G. destruct (string_dec k' k) as [->|N].
      - exfalso. assert (In k (data_keys d1)) as I by (apply dget_In_key; eauto).
        apply Ik in I. tauto.
      - rewrite (proj1 (C1 _ N)) in G. eauto. }
    destruct (IH d1 W1 ND') as [d' [E [W' [K [C Rz]]]]].
    { intros k' I. apply Ik. split; [congruence|]. apply HK. right. exact I. }
    exists d'. cbn [app delete_cols]. rewrite E1. cbn [ubind]. split; [exact E|]. split; [exact W'|].
    split; [|split].
    + rewrite K, K1. clear. induction (data_keys d) as [|x l IHl]; [reflexivity|]. cbn [filter].
      destruct (String.eqb_spec x k) as [->|N]; cbn [negb].
      * destruct (in_dec string_dec k (k :: ks)) as [_|F]; [exact IHl|exfalso; apply F; left; reflexivity].
      * cbn [filter]. destruct (in_dec string_dec x ks) as [I|I], (in_dec string_dec x (k :: ks)) as [J|J].
        -- exact IHl.
        -- exfalso. apply J. right. exact I.
        -- exfalso. destruct J as [J|J]; congruence.
        -- f_equal. exact IHl.
    + intros k' N. destruct (C k') as [C2 C3]; [intros I; apply N; right; exact I|].
      assert (k' <> k) as N' by (intros ->; apply N; left; reflexivity).
      destruct (C1 k' N') as [C4 C5]. split; [|congruence].
      rewrite C2. unfold get_col. rewrite C4. reflexivity.
    + intros k' r H. apply Rz. rewrite Ik. destruct H as [[->|H]|H]; tauto.
Qed.
Print Assumptions delete_columns.

Example delete_columns_example :
  well_formed log_data 2 /\
  exists d', delete_cols log_data ["ws"] = (d', Ok tt) /\ ~ In "ws" (data_keys d') /\
    delete_cols log_data ["ws"; "ws"] = (d', Raise KeyError) /\
    delete_cols log_data ["ws"; "heel"] = (d', Raise KeyError).
Proof.
  split; [split; [apply typedb_ok; reflexivity|]|].
  - split; [reflexivity|]. intros k c G. apply dget_Some_In in G. simpl in G.
    repeat (destruct G as [G|G]; [inversion G; reflexivity|]). destruct G.
  - eexists. split; [reflexivity|]. split; [intros I; simpl in I; intuition discriminate|].
    split; reflexivity.
Qed.
