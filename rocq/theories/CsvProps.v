(** * Table files (C21) *)

From Coq Require Import String Ascii.
From Coq Require Import List Bool Arith ZArith QArith Reals Lra Lia Sorted.
From Verif Require Import Py Num PySort ListX TableModel TableSpec TableProofs TableProps CsvModel CsvSpec CsvProofs.
Import ListNotations.
Open Scope string_scope.
Open Scope list_scope.
Open Scope R_scope.

(** Writing a table and reading it in the same format gives the table back, if
    printing and reading its numbers does.  (The result never is the table with
    Python list resolutions, see C23.) *)
Theorem table_hro_round_trip : forall show lit tofloat (t : table R),
  table_ok t -> t_ws t <> [] -> t_wa t <> [] -> (forall x, in_table t x -> readable show lit tofloat x) ->
  exists rows, table_to_csv show Hro t = ["PolarDiagramTable"] :: rows /\
    table_from_hro lit rows = Ok (mkTable (t_ws t) (t_wa t) (t_bs t) false).
Proof.
  intros show lit tofloat t OK NS NA RD. eexists. split; [reflexivity|].
  unfold table_from_hro. cbn [next_row rbind].
  rewrite mapM_show by (intros x Hx; apply RD; left; auto). cbn [next_row rbind].
  rewrite mapM_show by (intros x Hx; apply RD; right; left; auto). cbn [next_row rbind].
  rewrite mapM_mapM_show by (intros r x Hr Hx; apply RD; right; right; eauto). cbn [rbind].
  apply of_lists_same; auto.
Qed.
Print Assumptions table_hro_round_trip.

Lemma readable_rows : forall show lit tofloat (t : table R), table_ok t ->
  (forall x, in_table t x -> readable show lit tofloat x) ->
  read_rows lit (csv_rows show t) = Ok (t_wa t, t_bs t).
Proof.
  intros show lit tofloat t OK RD. unfold csv_rows. rewrite read_rows_show.
  - destruct OK as [_ [_ [_ [_ [L _]]]]].
    rewrite ListX.map_fst_combine, ListX.map_snd_combine by auto. reflexivity.
  - intros a r H. apply in_combine_l in H. destruct (RD a) as [H1 [_ [_ H2]]]; auto. right. left. auto.
  - intros a r x H Hx. apply in_combine_r in H. destruct (RD x) as [H1 [_ [H2 _]]]; auto. right. right. eauto.
Qed.

Theorem table_extern_round_trip : forall f show lit tofloat (t : table R), f <> Hro ->
  table_ok t -> t_ws t <> [] -> t_wa t <> [] -> (forall x, in_table t x -> readable show lit tofloat x) ->
  table_from_extern lit tofloat f (table_to_csv show f t) = Ok (mkTable (t_ws t) (t_wa t) (t_bs t) false).
Proof.
  intros f show lit tofloat t NF OK NS NA RD.
  destruct f; [contradiction| | |]; unfold table_from_extern, table_to_csv, read_wind_speeds;
    cbn [next_row rbind tl].
  - rewrite mapM_show by (intros x Hx; apply RD; left; auto). cbn [next_row rbind].
    rewrite (readable_rows show lit tofloat t OK RD). cbn [rbind]. apply of_lists_same; auto.
  - rewrite mapM_show by (intros x Hx; apply RD; left; auto). cbn [next_row rbind].
    rewrite (readable_rows show lit tofloat t OK RD). cbn [rbind]. apply of_lists_same; auto.
  - unfold table_from_array, genfromtxt. cbn [filter].
    assert (filter (fun r => match r with [] => false | _ :: _ => true end) (csv_rows show t) = csv_rows show t) as ->.
    { apply filter_all. intros r Hr. unfold csv_rows in Hr. apply in_map_iff in Hr.
      destruct Hr as [[a b] [<- _]]. reflexivity. }
    destruct (csv_rows show t) as [|r0 rest] eqn:ER.
    { exfalso. unfold csv_rows in ER. apply map_eq_nil in ER. destruct OK as [_ [_ [_ [_ [L _]]]]].
      destruct (t_wa t); [contradiction|]. destruct (t_bs t); discriminate. }
    rewrite <- ER.
    assert (forallb (fun q => Nat.eqb (length q) (length ("TWA\TWS" :: map show (t_ws t)))) (csv_rows show t) = true) as ->.
    { apply forallb_forall. intros q Hq. unfold csv_rows in Hq. apply in_map_iff in Hq.
      destruct Hq as [[a r] [<- H]]. simpl. rewrite !map_length. apply Nat.eqb_eq.
      destruct OK as [_ [_ [_ [_ [_ L]]]]]. apply L. eapply in_combine_r; eauto. }
    assert (Nat.eqb (length ("TWA\TWS" :: map show (t_ws t))) 1 = false) as ->.
    { apply Nat.eqb_neq. cbn [length]. rewrite map_length. destruct (t_ws t); [contradiction|discriminate]. }
    cbn [rbind map tl]. rewrite chkfinite_show by (intros x Hx; apply RD; left; auto). cbn [rbind].
    unfold csv_rows. rewrite !map_map. cbn [map fst snd hd].
    assert (length (t_wa t) = length (t_bs t)) as L by (destruct OK as [_ [_ [_ [_ [L _]]]]]; auto).
    assert (map (fun x => tofloat (show (fst x))) (combine (t_wa t) (t_bs t)) =
            map tofloat (map show (t_wa t))) as ->.
    { rewrite map_map. rewrite <- (ListX.map_fst_combine _ _ (t_wa t) (t_bs t) L) at 2. rewrite map_map. auto. }
    rewrite chkfinite_show by (intros x Hx; apply RD; right; left; auto). cbn [rbind].
    match goal with |- (do bs <- ?m; _) = _ => assert (m = Ok (t_bs t)) as -> end;
      [|cbn [rbind]; apply of_lists_same; auto].
    assert (forall x r, In r (t_bs t) -> In x r -> tofloat (show x) = Some x) as RB.
    { intros x r H1 H2. apply RD. right. right. eauto. }
    clear - L RB. revert L RB. generalize (t_bs t) as bs. induction (t_wa t) as [|a wa IH]; intros [|r bs] L RB; simpl; auto; try discriminate.
    rewrite chkfinite_show by (intros x Hx; eapply RB; [left; eauto|auto]). cbn [rbind].
    rewrite IH; auto. intros; eapply RB; [right; eauto|auto].
Qed.
Print Assumptions table_extern_round_trip.

(** The hypotheses are met by a table of integers printed in decimal; shown here
    for single digits. *)
Definition digit (n : nat) : string := String (ascii_of_nat (48 + n)) EmptyString.
Definition ex_show (x : R) : string := digit (Z.to_nat (Int_part x)).
Definition ex_read (s : string) : option R :=
  match s with String a EmptyString => Some (IZR (Z.of_nat (nat_of_ascii a - 48))) | _ => None end.
Definition ex_lit (s : string) : result R :=
  match ex_read s with Some x => Ok x | None => Raise ValueError end.

Lemma ex_readable : forall z, (0 <= z < 10)%Z -> readable ex_show ex_lit ex_read (IZR z).
Proof.
  intros z H. unfold readable, ex_lit, ex_show.
  assert (Int_part (IZR z) = z) as ->.
  { pose proof (Int_part_bounds (IZR z)) as [B1 B2].
    assert (Int_part (IZR z) <= z)%Z by (apply le_IZR; auto).
    assert (z < Int_part (IZR z) + 1)%Z by (apply lt_IZR; rewrite plus_IZR; lra). lia. }
  assert (ex_read (digit (Z.to_nat z)) = Some (IZR z)) as ->.
  { assert (z = 0 \/ z = 1 \/ z = 2 \/ z = 3 \/ z = 4 \/ z = 5 \/ z = 6 \/ z = 7 \/ z = 8 \/ z = 9)%Z as C by lia.
    repeat destruct C as [->|C]; try (subst; reflexivity); reflexivity. }
  split; auto. split; auto. split; [discriminate|].
  assert (z = 0 \/ z = 1 \/ z = 2 \/ z = 3 \/ z = 4 \/ z = 5 \/ z = 6 \/ z = 7 \/ z = 8 \/ z = 9)%Z as C by lia.
  unfold digit. split; [|exact I].
  repeat (destruct C as [->|C]; [vm_compute; discriminate|]). subst. vm_compute. discriminate.
Qed.

Example table_csv_case : forall f, f <> Hro ->
  let t := mkTable [6; 8] [2; 5; 9] [[3; 4]; [5; 6]; [4; 5]] true in
  table_from_extern ex_lit ex_read f (table_to_csv ex_show f t) =
  Ok (mkTable [6; 8] [2; 5; 9] [[3; 4]; [5; 6]; [4; 5]] false).
Proof.
  intros f NF t. apply (table_extern_round_trip f ex_show ex_lit ex_read t NF).
  - unfold table_ok, t. simpl. split; [repeat constructor; lra|]. split; [repeat constructor; lra|].
    split; [rlist|]. split; [rlist|]. split; [reflexivity|rlist].
  - discriminate.
  - discriminate.
  - intros x H. unfold in_table, t in H. simpl in H.
    assert (x = 6 \/ x = 8 \/ x = 2 \/ x = 5 \/ x = 9 \/ x = 3 \/ x = 4) as C.
    { destruct H as [H|[H|[r [[<-|[<-|[<-|[]]]] H]]]]; simpl in H; intuition auto. }
    destruct C as [C|[C|[C|[C|[C|[C|C]]]]]]; rewrite C; clear.
    + apply (ex_readable 6). lia.
    + apply (ex_readable 8). lia.
    + apply (ex_readable 2). lia.
    + apply (ex_readable 5). lia.
    + apply (ex_readable 9). lia.
    + apply (ex_readable 3). lia.
    + apply (ex_readable 4). lia.
Qed.

(** A table without wind speeds can be created but not read back. *)
Theorem table_csv_empty_refuted : exists t : table Q,
  table_new (RStep 40%Q) (RStep 90%Q) None = Ok t /\
  forall show lit, exists rows, table_to_csv show Hro t = ["PolarDiagramTable"] :: rows /\
    forall t', table_from_hro lit rows <> Ok t'.
Proof.
  eexists. split; [vm_compute; reflexivity|]. intros show lit. eexists. split; [reflexivity|].
  intros t'. unfold table_from_hro. cbn [next_row rbind].
  cbn [map t_ws mapM rbind next_row].
  match goal with |- context [rbind (mapM lit ?l) _] => destruct (mapM lit l); cbn [rbind next_row]; [|discriminate] end.
  match goal with |- context [rbind (mapM (mapM lit) ?l) _] => destruct (mapM (mapM lit) l); cbn [rbind next_row]; [|discriminate] end.
  unfold table_of_lists, table_new. cbn [build_ws rbind]. discriminate.
Qed.
Print Assumptions table_csv_empty_refuted.
