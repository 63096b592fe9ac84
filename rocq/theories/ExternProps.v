(** * C142: tables of other programs *)

From Coq Require Import String Ascii.
From Coq Require Import List Bool Arith ZArith QArith Reals Lra Lia Sorted.
From Verif Require Import Py Num ListX TableModel TableSpec TableProofs TableProps CsvModel CsvSpec CsvProofs.
Import ListNotations.
Open Scope string_scope.
Open Scope list_scope.
Open Scope R_scope.

(** The degree sign as the two bytes of its UTF-8 form, and texts without it. *)
Definition degree_sign : string := String (ascii_of_nat 194) (String (ascii_of_nat 176) "").
Fixpoint seven_bit (s : string) : Prop :=
  match s with EmptyString => True | String c r => (nat_of_ascii c < 128)%nat /\ seven_bit r end.

(** The cell of a wind angle: a number, with or without a degree sign behind it. *)
Definition angle_cell (lit : string -> result R) (c : string) (a : R) : Prop :=
  exists d, seven_bit d /\ (c = d \/ c = (d ++ degree_sign)%string) /\ lit d = Ok a.

(** The cell of a boat speed: empty for 0, or a number. *)
Definition speed_cell (lit : string -> result R) (c : string) (b : R) : Prop :=
  c = "" /\ b = 0 \/ c <> "" /\ lit c = Ok b.

(** The rows of a file with these wind angles and boat speeds. *)
Definition file_rows (lit : string -> result R) (rows : list (list string)) (wa : list R) (bs : list (list R)) : Prop :=
  exists cells, rows = map (fun ac => fst ac :: snd ac) cells /\
    Forall2 (angle_cell lit) (map fst cells) wa /\ Forall2 (fun r l => Forall2 (speed_cell lit) r l) (map snd cells) bs.

Lemma Forall2_length : forall (A B : Type) (P : A -> B -> Prop) l l', Forall2 P l l' -> length l = length l'.
Proof. induction 1; cbn; congruence. Qed.

Lemma remove_degree_plain : forall d, seven_bit d -> remove_degree d = d /\ remove_degree (d ++ degree_sign) = d.
Proof.
  induction d as [|c d IH]; intros H; [split; reflexivity|]. destruct H as [Hc Hd]. destruct (IH Hd) as [E1 E2].
  assert (Nat.eqb (nat_of_ascii c) 194 = false) as NC by (apply Nat.eqb_neq; lia). split.
  - destruct d as [|c' d]; [reflexivity|]. change (remove_degree (String c (String c' d))) with
      (if (Nat.eqb (nat_of_ascii c) 194 && Nat.eqb (nat_of_ascii c') 176)%bool then remove_degree d else String c (remove_degree (String c' d))).
    rewrite NC. cbn [andb]. rewrite E1. reflexivity.
  - change ((String c d ++ degree_sign)%string) with (String c (d ++ degree_sign)). destruct (d ++ degree_sign)%string as [|c' r] eqn:E.
    + destruct d; discriminate.
    + change (remove_degree (String c (String c' r))) with
        (if (Nat.eqb (nat_of_ascii c) 194 && Nat.eqb (nat_of_ascii c') 176)%bool then remove_degree r else String c (remove_degree (String c' r))).
      rewrite NC. cbn [andb]. rewrite E2. reflexivity.
Qed.

Lemma read_rows_cells : forall lit rows wa bs, file_rows lit rows wa bs -> read_rows lit rows = Ok (wa, bs).
Proof.
  intros lit rows wa bs [cells [-> [FA FB]]]. unfold read_rows.
  match goal with |- context [mapM ?g _] => assert (mapM g (map (fun ac => fst ac :: snd ac) cells) = Ok (combine wa bs)) as -> end.
  { revert wa bs FA FB. induction cells as [|[a r] cells IH]; intros wa bs FA FB; cbn [map fst snd] in *.
    - inversion FA; subst. reflexivity.
    - inversion FA as [|? a' ? wa' HA FA']; subst. inversion FB as [|? r' ? bs' HB FB']; subst. cbn [mapM].
      destruct HA as [d [SB [HC L]]]. destruct (remove_degree_plain d SB) as [E1 E2].
      assert (remove_degree a = d) as -> by (destruct HC as [-> | ->]; assumption). rewrite L. cbn [rbind].
      match goal with |- context [mapM ?g r] => assert (mapM g r = Ok r') as -> end.
      { clear - HB. induction HB as [|c b r r' HC HB IH]; [reflexivity|]. cbn [mapM]. destruct HC as [[-> ->] | [N L]].
        - cbn [String.eqb rbind]. rewrite IH. reflexivity.
        - destruct (String.eqb_spec c ""); [contradiction|]. rewrite L. cbn [rbind]. rewrite IH. reflexivity. }
      cbn [rbind]. rewrite (IH wa' bs') by auto. reflexivity. }
  cbn [rbind]. assert (length wa = length bs) as LW by (apply Forall2_length in FA; apply Forall2_length in FB; rewrite map_length in *; congruence).
  rewrite ListX.map_fst_combine, ListX.map_snd_combine by auto. reflexivity.
Qed.

(** C142: every wind of the file is read with the boat speed in its row and column, 0 where the
    cell is empty; rows and columns may come in any order, degree signs behind the wind angles are
    ignored, and in the format orc the second line whatever it holds. *)
Theorem foreign_table : forall lit tofloat nhood interp f (corner : string) header (second : list string) rows ws wa bs,
  f = Orc \/ f = Opencpn -> mapM lit header = Ok ws -> file_rows lit rows wa bs ->
  ws <> [] -> wa <> [] -> (forall s, In s ws -> 0 <= s) -> NoDup ws -> distinct_mod_360 wa ->
  (forall r, In r bs -> length r = length ws) ->
  exists t, table_from_extern lit tofloat f ((corner :: header) :: match f with Orc => [second] | _ => [] end ++ rows) = Ok t /\
    (forall i j s a v, listed ws wa bs i j s a v ->
       getitem t [s] [a] = Ok v /\ table_call nhood interp t s a = Ok v) /\
    (forall s a, (~ In s ws \/ forall b k, In b wa -> a <> b + 360 * IZR k) -> getitem t [s] [a] = Raise ValueError).
Proof.
  intros lit tofloat nhood interp f corner header second rows ws wa bs HF EH FR NS NA PS ND DM SH.
  assert (length wa = length bs) as LW.
  { destruct FR as [cells [-> [FA FB]]]. apply Forall2_length in FA. apply Forall2_length in FB. rewrite map_length in *. congruence. }
  destruct (table_returns_entries nhood interp ws wa bs NS NA PS ND DM) as [t [ET [H1 H2]]]; [split; auto|].
  exists t. split; [|split; [|exact H2]].
  - assert (table_of_lists ws wa bs = Ok t) as TL.
    { unfold table_of_lists. destruct bs; [destruct wa; [contradiction|discriminate]|exact ET]. }
    destruct HF as [-> | ->]; unfold table_from_extern, read_wind_speeds; cbn [next_row rbind tl app]; rewrite EH; cbn [rbind next_row];
      rewrite (read_rows_cells lit rows wa bs FR); exact TL.
  - intros i j s a v L. specialize (H1 i j s a v 0%Z L). replace (a + 360 * IZR 0) with a in H1 by (cbn; lra). exact H1.
Qed.
Print Assumptions foreign_table.

(** A file in the format opencpn with a degree sign and an empty cell, its columns not in order. *)
Definition few (s : string) : result R :=
  if String.eqb s "8" then Ok 8 else if String.eqb s "6" then Ok 6 else if String.eqb s "60" then Ok 60
  else if String.eqb s "5" then Ok 5 else Raise ValueError.
Example foreign_table_meets : exists t,
  table_from_extern few (fun _ => None) Opencpn [["twa/tws"; "8"; "6"]; [("60" ++ degree_sign)%string; "5"; ""]] = Ok t /\
  getitem t [8] [60] = Ok 5 /\ getitem t [6] [60] = Ok 0.
Proof.
  destruct (foreign_table few (fun _ => None) (fun _ => Raise ValueError) (fun _ _ _ => Ok 0) Opencpn "twa/tws" ["8"; "6"] [] [[("60" ++ degree_sign)%string; "5"; ""]]
    [8; 6] [60] [[5; 0]]) as [t [E [H _]]]; auto; try discriminate.
  - exists [(("60" ++ degree_sign)%string, ["5"; ""])]. split; [reflexivity|]. split.
    + constructor; [|constructor]. exists "60". split; [|split; [auto|reflexivity]]. cbn. lia.
    + constructor; [|constructor]. constructor; [right; split; [discriminate|reflexivity]|]. constructor; [left; auto|constructor].
  - intros s [<-|[<-|[]]]; lra.
  - constructor; [intros [H|[]]; lra|constructor; [intros []|constructor]].
  - intros i j a b k Ha Hb _. destruct i as [|[|i]], j as [|[|j]]; try reflexivity; discriminate.
  - intros r [<-|[]]. reflexivity.
  - exists t. split; [exact E|]. split.
    + apply (H 0%nat 0%nat). repeat split. exists [5; 0]. split; reflexivity.
    + apply (H 0%nat 1%nat). repeat split. exists [5; 0]. split; reflexivity.
Qed.
