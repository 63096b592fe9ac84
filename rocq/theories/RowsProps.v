(** * Iterating over rows (C138) *)

From Coq Require Import String List Bool Arith ZArith Lia QArith.
From Verif Require Import Py Dict ListX DataModel DataSpec DataProofs RowsModel.
Import List ListNotations.
Open Scope string_scope.
Open Scope list_scope.
Open Scope nat_scope.

(** ** The spec *)

(** The entry in column [k] and row [i]. *)
Definition entry (d : Data) (k : string) (i : nat) (c : cell) : Prop :=
  exists col, dget k (cols d) = Some col /\ nth_error col i = Some c.

(** The entries of row [i] in the order of the keys. *)
Definition entries (d : Data) (ks : list string) (i : nat) (l : list cell) : Prop :=
  Forall2 (fun k c => entry d k i c) ks l.

(** The item shows row [i] under the keys. *)
Definition shows (d : Data) (rt : ret) (ks : list string) (i : nat) (x : item) : Prop :=
  match rt, x with
  | RDict, IDict r => forall k, match dget k r with Some c => In k ks /\ entry d k i c | None => ~ In k ks end
  | RList, IList l => entries d ks i l
  | _, _ => False
  end.

(** ** Proofs *)

Section Proofs.
  Variables (d : Data) (n : nat) (ks : list string).
  Hypothesis W : rectangular d n.
  Hypothesis K : forall k, In k ks -> In k (data_keys d).

  Lemma pass_ok : forall i ks', i < n -> (forall k, In k ks' -> In k ks) ->
    exists l, pass d i ks' = (Ok (combine ks' l), []) /\ entries d ks' i l.
  Proof.
    intros i ks' Hi. induction ks' as [|k r IH]; intros S.
    - exists []. split; [reflexivity|constructor].
    - destruct IH as [l [E F]]; [intros; apply S; right; auto|].
      assert (exists col, dget k (cols d) = Some col) as [col C].
      { destruct (dget k (cols d)) eqn:D; eauto. apply dget_None in D. exfalso. apply D, K, S. left. auto. }
      assert (length col = n) as L. { eapply W. exact C. }
      destruct (nth_error col i) as [c|] eqn:Nc; [|apply nth_error_None in Nc; lia].
      exists (c :: l). cbn [pass]. unfold get_col. rewrite C. cbn [rbind]. unfold py_nth. rewrite Nc, E. cbn. split; auto.
      constructor; auto. exists col. auto.
  Qed.

  Lemma combine_snd : forall A B (R : A -> B -> Prop) l l', Forall2 R l l' -> map snd (combine l l') = l'.
  Proof. intros A B R l l' F. induction F; cbn; congruence. Qed.

  Lemma fold_dset : forall i (acc : dict cell) ks' l, entries d ks' i l -> (forall k c, dget k acc = Some c -> entry d k i c) ->
    forall k, match dget k (fold_left (fun x kv => dset (fst kv) (snd kv) x) (combine ks' l) acc) with
              | Some c => (In k ks' \/ In k (dkeys acc)) /\ entry d k i c
              | None => ~ In k ks' /\ ~ In k (dkeys acc)
              end.
  Proof.
    intros i acc ks' l F. revert acc. induction F as [|k0 c0 r l E F IH]; intros acc A k; cbn [combine fold_left].
    - destruct (dget k acc) as [c|] eqn:D; [|split; [tauto|apply dget_None; auto]]. split; auto. right. apply dget_Some_In in D.
      apply in_map_iff. exists (k, c). auto.
    - specialize (IH (dset k0 c0 acc)). cbn [fst snd] in *.
      assert (forall x, In x (dkeys (dset k0 c0 acc)) <-> x = k0 \/ In x (dkeys acc)) as DK.
      { intros x. destruct (String.eqb_spec x k0) as [->|NE].
        - split; auto. intros _. apply dget_In_key. rewrite dget_dset_same. eauto.
        - rewrite !dget_In_key, dget_dset_other by auto. split; [auto|]. intros [X|X]; [contradiction|auto]. }
      assert (forall x c, dget x (dset k0 c0 acc) = Some c -> entry d x i c) as A'.
      { intros x c D. destruct (String.eqb_spec x k0) as [->|NE].
        - rewrite dget_dset_same in D. injection D as <-. exact E.
        - rewrite dget_dset_other in D by auto. auto. }
      specialize (IH A' k). cbn [In].
      destruct (dget k _) as [c|].
      + destruct IH as [[I|I] Q]; split; auto. apply DK in I. destruct I; auto.
      + destruct IH as [I1 I2]. rewrite DK in I2. split; intros X; [destruct X; subst; tauto|tauto].
  Qed.

  Lemma next_row : forall once rt g, (rt = RDict \/ rt = RList) -> g_over g = false -> g_at g < n -> (forall k, In k (g_keys g) -> In k ks) ->
    exists x, rows_next d once rt g = (Ok (Some x), mkGen (S (g_at g)) false (keep once (g_keys g) []) (g_used g)) /\ shows d rt (g_keys g) (g_at g) x.
  Proof.
    intros once rt g R O L S. destruct (pass_ok (g_at g) (g_keys g) L S) as [l [E F]]. unfold rows_next. rewrite O.
    destruct W as [M _]. unfold n_rows in M. rewrite M. rewrite (proj2 (Z.ltb_lt _ _)) by lia. rewrite E.
    destruct R as [-> | ->]; eexists; (split; [reflexivity|]); cbn [shows].
    - intros k. pose proof (fold_dset (g_at g) [] _ _ F) as Q. specialize (Q ltac:(intros ? ? X; discriminate X) k). cbn [dkeys map In] in Q.
      destruct (dget k _); tauto.
    - rewrite (combine_snd _ _ _ _ _ F). exact F.
  Qed.

  Lemma next_end : forall once rt g, n <= g_at g -> exists g', rows_next d once rt g = (Ok None, g') /\ g_at g' = g_at g /\
    g_keys g' = g_keys g /\ g_used g' = g_used g /\ g_over g' = true.
  Proof.
    intros once rt g L. unfold rows_next. destruct (g_over g) eqn:O; [eauto 10|].
    destruct W as [M _]. unfold n_rows in M. rewrite M. rewrite (proj2 (Z.ltb_ge _ _)) by lia. eexists. split; [reflexivity|]. auto.
  Qed.
End Proofs.

Lemma trace_app : forall d once rt a b g, trace d once rt (a ++ b) g =
  (fst (trace d once rt a g) ++ fst (trace d once rt b (snd (trace d once rt a g))),
   snd (trace d once rt b (snd (trace d once rt a g)))).
Proof.
  intros d once rt a. induction a as [|x a IH]; intros b g; cbn [app trace].
  - cbn [fst snd app]. apply surjective_pairing.
  - destruct (match x with Next => _ | Read j => _ end) as [o g1]. rewrite IH.
    destruct (trace d once rt a g1) as [os g2]. reflexivity.
Qed.

(** The item drawn after [j] others. *)
Definition drawn (d : Data) (once : bool) (rt : ret) (ks : list string) (j : nat) : result (option item) :=
  fst (rows_next d once rt (snd (trace d once rt (repeat Next j) (rows_start ks)))).

Lemma repeat_last : forall A (x : A) j, repeat x (S j) = repeat x j ++ [x].
Proof. intros A x j. induction j; cbn in *; congruence. Qed.

Lemma trace_one : forall d once rt g, snd (trace d once rt [Next] g) = snd (rows_next d once rt g).
Proof. intros. cbn. destruct (rows_next d once rt g). reflexivity. Qed.

(** C138.  With return types dict and list, the rows are yielded one after the other: the item
    drawn after [j] others shows row [j] under the keys, and after the last row the iteration ends. *)
Theorem rows_in_order : forall d n ks rt j, rectangular d n -> (forall k, In k ks -> In k (data_keys d)) ->
  rt = RDict \/ rt = RList ->
  (j < n -> exists x, drawn d false rt ks j = Ok (Some x) /\ shows d rt ks j x) /\
  (n <= j -> drawn d false rt ks j = Ok None).
Proof.
  intros d n ks rt j W K R.
  assert (forall j, let g := snd (trace d false rt (repeat Next j) (rows_start ks)) in
    g_at g = Nat.min j n /\ g_keys g = ks /\ (j <= n -> g_over g = false)) as P.
  { clear j. intros j. induction j as [|j IH]; [cbn; auto|]. cbv zeta in *. rewrite repeat_last, trace_app. cbn [snd]. rewrite trace_one.
    set (g := snd (trace d false rt (repeat Next j) (rows_start ks))) in *. destruct IH as [A [B C]].
    destruct (Nat.lt_ge_cases j n) as [L|L].
    - destruct (next_row d n ks W K false rt g) as [x [E _]]; auto; [apply C; lia|lia|rewrite B; auto|].
      rewrite E. cbn [snd g_at g_keys g_over keep]. split; [lia|]. split; auto.
    - destruct (next_end d n W false rt g) as [g' [E [A' [B' _]]]]; [lia|]. rewrite E. cbn [snd]. rewrite A', B'. repeat split; auto; lia. }
  specialize (P j). cbv zeta in P. unfold drawn. set (g := snd _) in *. destruct P as [A [B C]]. split; intros L.
  - destruct (next_row d n ks W K false rt g) as [x [E S]]; auto; [apply C; lia|lia|rewrite B; auto|]. rewrite E. exists x. split; auto.
    rewrite B, A in S. rewrite Nat.min_l in S by lia. exact S.
  - destruct (next_end d n W false rt g) as [g' [E _]]; [lia|]. rewrite E. reflexivity.
Qed.
Print Assumptions rows_in_order.

(** C138.  With return type tuple, the items are no tuples but generators of entries, which look the
    row up when they are read: an item not read before yields the entries of the row drawn last,
    and nothing after that ([_partial]: the documented tuples, see below). *)
Theorem rows_tuple_partial : forall d n ks m j, rectangular d n -> (forall k, In k ks -> In k (data_keys d)) -> 0 < m ->
  (forall i, drawn d false RTuple ks i = Ok (if i <? n then Some (IGen i) else None)) /\
  (j < m -> j < n -> exists l g, trace d false RTuple (repeat Next m ++ [Read j; Read j]) (rows_start ks) =
     (fst (trace d false RTuple (repeat Next m) (rows_start ks)) ++ [Entries (Ok l); Entries (Ok [])], g) /\
     entries d ks (Nat.min m n - 1) l).
Proof.
  intros d n ks m j W K Hm.
  assert (forall m, let g := snd (trace d false RTuple (repeat Next m) (rows_start ks)) in
    g_at g = Nat.min m n /\ g_keys g = ks /\ g_used g = [] /\ (m <= n -> g_over g = false)) as P.
  { clear m Hm. intros m. induction m as [|m IH]; [cbn; auto|]. cbv zeta in *. rewrite repeat_last, trace_app. cbn [snd]. rewrite trace_one.
    set (g := snd (trace d false RTuple (repeat Next m) (rows_start ks))) in *. destruct IH as [A [B [U C]]].
    destruct (Nat.lt_ge_cases m n) as [L|L].
    - unfold rows_next. rewrite C by lia. destruct W as [M _]. unfold n_rows in M. rewrite M. rewrite (proj2 (Z.ltb_lt _ _)) by lia.
      cbn [snd g_at g_keys g_over g_used]. repeat split; auto; lia.
    - destruct (next_end d n W false RTuple g) as [g' [E [A' [B' [U' _]]]]]; [lia|]. rewrite E. cbn [snd]. rewrite A', B', U'. repeat split; auto; lia. }
  split.
  - intros i. specialize (P i). cbv zeta in P. unfold drawn. set (g := snd _) in *. destruct P as [A [B [U C]]].
    destruct (Nat.ltb_spec i n) as [L|L].
    + unfold rows_next. rewrite C by lia. destruct W as [M _]. unfold n_rows in M. rewrite M. rewrite (proj2 (Z.ltb_lt _ _)) by lia.
      cbn. rewrite A, Nat.min_l by lia. reflexivity.
    + destruct (next_end d n W false RTuple g) as [g' [E _]]; [lia|]. rewrite E. reflexivity.
  - intros L1 L2. specialize (P m). cbv zeta in P. rewrite trace_app. set (g := snd (trace _ _ _ (repeat Next m) _)) in *.
    destruct P as [A [B [U C]]].
    destruct (pass_ok d n ks W K (g_at g - 1) (g_keys g)) as [l [E F]]; [lia|rewrite B; auto|].
    exists l. eexists. cbn [trace]. unfold rows_read at 1. rewrite U. cbn [existsb]. rewrite E. unfold rows_read. cbn [g_used existsb].
    rewrite Nat.eqb_refl. cbn [orb fst snd rbind]. rewrite (combine_snd _ _ _ _ _ F). split; [reflexivity|].
    rewrite B, A in F. exact F.
Qed.
Print Assumptions rows_tuple_partial.

(** Items read at once, as in [for a, b in data.rows(keys, tuple)], show the rows. *)
Theorem rows_tuple_loop : forall d n ks, rectangular d n -> (forall k, In k ks -> In k (data_keys d)) ->
  exists ls, Forall2 (fun i l => entries d ks i l) (seq 0 n) ls /\
    fst (trace d false RTuple (concat (map (fun i => [Next; Read i]) (seq 0 n)) ++ [Next]) (rows_start ks)) =
    concat (map (fun il => [Yielded (Ok (Some (IGen (fst il)))); Entries (Ok (snd il))]) (combine (seq 0 n) ls)) ++ [Yielded (Ok None)].
Proof.
  intros d n ks W K.
  assert (forall k i g, i + k = n -> g_at g = i -> g_keys g = ks -> g_over g = false -> (forall j, In j (g_used g) -> j < i) ->
    exists ls g', Forall2 (fun i l => entries d ks i l) (seq i k) ls /\
    trace d false RTuple (concat (map (fun i => [Next; Read i]) (seq i k))) g =
    (concat (map (fun il => [Yielded (Ok (Some (IGen (fst il)))); Entries (Ok (snd il))]) (combine (seq i k) ls)), g') /\
    g_at g' = n) as P.
  { induction k as [|k IH]; intros i g E A B O U.
    - exists [], g. split; [constructor|]. split; [reflexivity|lia].
    - destruct (pass_ok d n ks W K i ks) as [l [Ep F]]; [lia|auto|].
      assert (existsb (Nat.eqb i) (g_used g) = false) as NU.
      { destruct (existsb _ _) eqn:X; auto. apply existsb_exists in X. destruct X as [y [I Y]]. apply Nat.eqb_eq in Y. subst y. specialize (U _ I). lia. }
      destruct (IH (S i) (mkGen (S i) false ks (i :: g_used g))) as [ls [g' [F' [T A']]]]; auto; [lia|cbn; intros j [<-|J]; [lia|specialize (U _ J); lia]|].
      exists (l :: ls), g'. split; [cbn; constructor; auto|]. split; auto. cbn [seq map concat app trace combine fst snd].
      unfold rows_next at 1. rewrite O, A. destruct W as [M _]. unfold n_rows in M. rewrite M. rewrite (proj2 (Z.ltb_lt _ _)) by lia.
      unfold rows_read at 1. cbn [g_used g_at g_keys g_over]. rewrite NU, B. replace (S i - 1) with i by lia. rewrite Ep.
      cbn [rbind keep]. rewrite (combine_snd _ _ _ _ _ F). rewrite T. reflexivity. }
  destruct (P n 0 (rows_start ks)) as [ls [g' [F [T A]]]]; auto; [intros j []|].
  exists ls. split; auto. rewrite trace_app, T. cbn [fst snd]. f_equal.
  destruct (next_end d n W false RTuple g') as [g2 [E _]]; [lia|]. cbn [trace]. rewrite E. reflexivity.
Qed.
Print Assumptions rows_tuple_loop.

(** C138 refuted for tuples: [list(data.rows(keys, tuple))] holds, twice, what reads as the second row. *)
Definition rows_sample : Data :=
  mkData [("a", [Some (VInt 1); Some (VInt 2)]); ("b", [Some (VStr "x"); Some (VStr "y")])] [("a", Some TInt); ("b", Some TStr)] 2.

Theorem rows_tuple_refuted : rectangular rows_sample 2 /\
  fst (trace rows_sample false RTuple [Next; Next; Next; Read 0; Read 1] (rows_start ["b"; "a"])) =
  [Yielded (Ok (Some (IGen 0))); Yielded (Ok (Some (IGen 1))); Yielded (Ok None);
   Entries (Ok [Some (VStr "y"); Some (VInt 2)]); Entries (Ok [Some (VStr "y"); Some (VInt 2)])] /\
  ~ entries rows_sample ["b"; "a"] 0 [Some (VStr "y"); Some (VInt 2)].
Proof.
  split; [split; [reflexivity|]|split; [reflexivity|]].
  - intros k col H. apply dget_Some_In in H. destruct H as [H|[H|[]]]; injection H as _ <-; reflexivity.
  - intros H. inversion H as [|? ? ? ? [col [C N]]]; subst. cbn in C. injection C as <-. discriminate.
Qed.
Print Assumptions rows_tuple_refuted.

(** C138 refuted for iterators: with an iterator as [keys], which the documentation allows, all rows
    but the first are empty. *)
Theorem rows_iterator_refuted : forall d n ks j, rectangular d n -> (forall k, In k ks -> In k (data_keys d)) -> 0 < j < n ->
  (exists l, drawn d true RList ks 0 = Ok (Some (IList l)) /\ entries d ks 0 l) /\
  drawn d true RList ks j = Ok (Some (IList [])).
Proof.
  intros d n ks j W K H. split.
  - destruct (next_row d n ks W K true RList (rows_start ks)) as [x [E S]]; auto; [cbn; lia|].
    unfold drawn. cbn [repeat trace snd]. rewrite E. destruct x; try contradiction S. exists l. auto.
  - assert (forall j, 0 < j <= n -> let g := snd (trace d true RList (repeat Next j) (rows_start ks)) in
      g_at g = j /\ g_keys g = [] /\ g_over g = false) as P.
    { clear j H. intros j. induction j as [|j IH]; intros H; [lia|]. cbv zeta. rewrite repeat_last, trace_app. cbn [snd]. rewrite trace_one.
      destruct j as [|j].
      - destruct (next_row d n ks W K true RList (rows_start ks)) as [x [E _]]; auto; [cbn; lia|]. cbn [repeat trace snd]. rewrite E. cbn. auto.
      - destruct IH as [A [B C]]; [lia|]. set (g := snd (trace d true RList (repeat Next (S j)) (rows_start ks))) in *.
        destruct (next_row d n ks W K true RList g) as [x [E _]]; auto; [lia|rewrite B; intros ? []|]. rewrite E. cbn. rewrite A. auto. }
    destruct (P j) as [A [B C]]; [lia|]. unfold drawn. set (g := snd (trace d true RList (repeat Next j) (rows_start ks))) in *.
    destruct (next_row d n ks W K true RList g) as [x [E S]]; auto; [lia|rewrite B; intros ? []|]. rewrite E. cbn [fst].
    destruct x; try contradiction S. cbn [shows] in S. rewrite B in S. inversion S. reflexivity.
Qed.
Print Assumptions rows_iterator_refuted.

(** Any other return type raises at the first row. *)
Theorem rows_other_type : forall d once ks, (0 < n_rows d)%Z -> drawn d once ROther ks 0 = Raise ValueError.
Proof. intros d once ks H. unfold drawn, n_rows in *. cbn. unfold rows_next. cbn. rewrite (proj2 (Z.ltb_lt _ _)) by lia. reflexivity. Qed.
Print Assumptions rows_other_type.

Example rows_meets : drawn rows_sample false RDict ["b"; "a"] 1 = Ok (Some (IDict [("b", Some (VStr "y")); ("a", Some (VInt 2))])) /\
  drawn rows_sample false RList ["b"; "a"] 1 = Ok (Some (IList [Some (VStr "y"); Some (VInt 2)])) /\
  drawn rows_sample true RList ["b"; "a"] 1 = Ok (Some (IList [])) /\
  fst (trace rows_sample false RTuple [Next; Read 0; Next; Read 1; Read 1] (rows_start ["b"])) =
  [Yielded (Ok (Some (IGen 0))); Entries (Ok [Some (VStr "x")]); Yielded (Ok (Some (IGen 1))); Entries (Ok [Some (VStr "y")]); Entries (Ok [])].
Proof. repeat split; reflexivity. Qed.
