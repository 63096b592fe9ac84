(** * Proofs about [Data] with list objects *)

From Coq Require Import String.
From Coq Require Import List Bool Arith ZArith QArith Lia.
From Verif Require Import Py Dict ListX DataModel SharedModel SharedSpec.
Import ListNotations.
Open Scope string_scope.
Open Scope list_scope.
Open Scope nat_scope.

(* ---- the store ---- *)

Lemma write_length : forall h a v, length (write h a v) = length h.
Proof. induction h as [|x h IH]; intros [|a] v; cbn; auto. Qed.
Lemma read_write_same : forall h a v, a < length h -> read (write h a v) a = v.
Proof. unfold read. induction h as [|x h IH]; intros [|a] v H; cbn in *; try lia; auto. apply IH. lia. Qed.
Lemma read_write_other : forall h a b v, a <> b -> read (write h a v) b = read h b.
Proof. unfold read. induction h as [|x h IH]; intros [|a] [|b] v N; cbn; auto; try congruence. Qed.
Lemma read_old : forall h x a, a < length h -> read (h ++ x) a = read h a.
Proof. intros. unfold read. apply app_nth1. auto. Qed.
Lemma read_new : forall h v, read (h ++ [v]) (length h) = v.
Proof. intros. unfold read. rewrite app_nth2, Nat.sub_diag by lia. reflexivity. Qed.
Lemma write_new : forall h x v, write (h ++ [x]) (length h) v = h ++ [v].
Proof. induction h as [|y h IH]; intros x v; cbn; [reflexivity|]. rewrite IH. reflexivity. Qed.

(* ---- invariants ---- *)

Definition addrs (o : obj) : list nat := dvals (ocols o).

Definition ok (h : heap) (o : obj) : Prop :=
  NoDup (dkeys (ocols o)) /\ NoDup (addrs o) /\ (forall a, In a (addrs o) -> a < length h) /\
  (forall k, In k (dkeys (ocols o)) -> dget k (otypes o) <> None).

(** Only the lists of the object have changed, and new lists are new. *)
Definition good (h : heap) (o : obj) (h' : heap) (o' : obj) : Prop :=
  ok h' o' /\ length h <= length h' /\
  (forall a, In a (addrs o') -> In a (addrs o) \/ length h <= a) /\
  (forall a, a < length h -> ~ In a (addrs o) -> read h' a = read h a).
Definition keeps (o o' : obj) : Prop := forall k, In k (dkeys (ocols o)) -> In k (dkeys (ocols o')).

Definition sim (h : heap) (o : obj) (p : hupd) (q : upd unit) : Prop :=
  match p with (h', o', r) => good h o h' o' /\ q = (seen h' o', r) end.
Definition simk (h : heap) (o : obj) (p : hupd) (q : upd unit) : Prop :=
  match p with (h', o', r) => good h o h' o' /\ keeps o o' /\ q = (seen h' o', r) end.

Lemma good_refl : forall h o, ok h o -> good h o h o.
Proof. intros h o H. split; auto. Qed.
Lemma good_trans : forall h o h1 o1 h2 o2, good h o h1 o1 -> good h1 o1 h2 o2 -> good h o h2 o2.
Proof.
  intros h o h1 o1 h2 o2 [K1 [L1 [N1 R1]]] [K2 [L2 [N2 R2]]]. split; auto. split; [lia|]. split.
  - intros a I. destruct (N2 a I) as [I1|G]; [apply N1; auto|right; lia].
  - intros a B NI. rewrite R2; [apply R1; auto|lia|]. intros I. destruct (N1 a I); [auto|lia].
Qed.
Lemma simk_sim : forall h o p q, simk h o p q -> sim h o p q.
Proof. intros h o [[h' o'] r] q [A [_ B]]. split; auto. Qed.
Lemma sim_bind : forall h o p q f g, sim h o p q ->
  (forall h' o', good h o h' o' -> sim h' o' (f h' o') (g (seen h' o') tt)) ->
  sim h o (hbind p f) (ubind q g).
Proof.
  intros h o [[h1 o1] r] q f g [G ->] H. destruct r as [[]|e]; cbn; [|split; auto].
  specialize (H h1 o1 G). destruct (f h1 o1) as [[h2 o2] r2]. destruct H as [G2 E]. split; [eapply good_trans; eauto|exact E].
Qed.
Lemma simk_bind : forall h o p q f g, simk h o p q ->
  (forall h' o', good h o h' o' -> keeps o o' -> simk h' o' (f h' o') (g (seen h' o') tt)) ->
  simk h o (hbind p f) (ubind q g).
Proof.
  intros h o [[h1 o1] r] q f g [G [K ->]] H. destruct r as [[]|e]; cbn; [|split; auto].
  specialize (H h1 o1 G K). destruct (f h1 o1) as [[h2 o2] r2]. destruct H as [G2 [K2 E]].
  split; [eapply good_trans; eauto|]. split; [intros k I; auto|exact E].
Qed.

(* ---- dictionaries of addresses ---- *)

Lemma dvals_in : forall (cs : dict nat) k a, dget k cs = Some a -> In a (dvals cs).
Proof. intros cs k a H. apply dget_Some_In in H. apply in_map_iff. exists (k, a). auto. Qed.
Lemma dmap_ext : forall (f g : nat -> list cell) (cs : dict nat), (forall a, In a (dvals cs) -> f a = g a) -> dmap f cs = dmap g cs.
Proof.
  intros f g cs. induction cs as [|[k a] cs IH]; intros H; [reflexivity|]. cbn in *. rewrite H by auto. f_equal. apply IH. auto.
Qed.
Lemma seen_ext : forall h h' o, (forall a, In a (addrs o) -> read h' a = read h a) -> seen h' o = seen h o.
Proof. intros h h' o H. unfold seen. f_equal. apply dmap_ext. auto. Qed.
Lemma write_column : forall h v (cs : dict nat) k a, NoDup (dvals cs) -> (forall x, In x (dvals cs) -> x < length h) -> dget k cs = Some a ->
  dmap (read (write h a v)) cs = dset k v (dmap (read h) cs).
Proof.
  intros h v. induction cs as [|[k0 a0] cs IH]; intros k a ND B G; [discriminate|]. cbn in *. inversion ND as [|? ? NI ND']; subst.
  destruct (String.eqb_spec k0 k) as [->|NK].
  - injection G as ->. rewrite read_write_same by (apply B; auto). f_equal.
    apply dmap_ext. intros x I. apply read_write_other. intros ->. contradiction.
  - rewrite read_write_other.
    + f_equal. apply IH; auto.
    + intros ->. apply NI. eapply dvals_in; eauto.
Qed.
Lemma new_column : forall h v (cs : dict nat) k, (forall x, In x (dvals cs) -> x < length h) ->
  dmap (read (h ++ [v])) (dset k (length h) cs) = dset k v (dmap (read h) cs).
Proof.
  intros h v. induction cs as [|[k0 a0] cs IH]; intros k B; cbn in *.
  - rewrite read_new. reflexivity.
  - assert (dmap (read (h ++ [v])) cs = dmap (read h) cs) as E by (apply dmap_ext; intros x I; apply read_old; auto).
    destruct (String.eqb_spec k0 k) as [->|NK]; cbn.
    + rewrite read_new. f_equal. exact E.
    + rewrite read_old by auto. f_equal. apply IH. auto.
Qed.
Lemma dset_vals : forall V k (v : V) cs x, In x (dvals (dset k v cs)) -> x = v \/ In x (dvals cs).
Proof.
  intros V k v cs x. induction cs as [|[k0 v0] cs IH]; cbn; [intros [->|[]]; auto|].
  destruct (String.eqb k0 k); cbn; intros [->|I]; auto. destruct (IH I); auto.
Qed.
Lemma dset_vals_NoDup : forall k (v : nat) cs, NoDup (dvals cs) -> ~ In v (dvals cs) -> NoDup (dvals (dset k v cs)).
Proof.
  intros k v cs. induction cs as [|[k0 v0] cs IH]; cbn; intros ND NI; [constructor; auto|]. inversion ND as [|? ? N0 ND']; subst.
  destruct (String.eqb k0 k); cbn; constructor; auto. intros I. apply dset_vals in I. destruct I as [->|I]; auto.
Qed.
Lemma dset_dset : forall V k (v w : V) cs, dset k w (dset k v cs) = dset k w cs.
Proof.
  intros V k v w cs. induction cs as [|[k0 v0] cs IH]; cbn; [rewrite String.eqb_refl; reflexivity|].
  destruct (String.eqb_spec k0 k) as [->|N]; cbn; [rewrite String.eqb_refl; reflexivity|].
  destruct (String.eqb_spec k0 k); [contradiction|]. rewrite IH. reflexivity.
Qed.
Lemma dset_same : forall V k (v : V) cs, dget k cs = Some v -> dset k v cs = cs.
Proof.
  intros V k v cs. induction cs as [|[k0 v0] cs IH]; cbn; [discriminate|].
  destruct (String.eqb_spec k0 k) as [->|N]; intros H; [injection H as ->; reflexivity|]. rewrite IH; auto.
Qed.
Lemma ddel_vals : forall k (cs : dict nat) x, In x (dvals (ddel k cs)) -> In x (dvals cs).
Proof. intros k cs x. induction cs as [|[k0 v0] cs IH]; cbn; auto. destruct (String.eqb k0 k); cbn; intros H; [auto|]. destruct H; auto. Qed.
Lemma ddel_vals_NoDup : forall k (cs : dict nat), NoDup (dvals cs) -> NoDup (dvals (ddel k cs)).
Proof.
  intros k cs. induction cs as [|[k0 v0] cs IH]; cbn; auto. intros ND. inversion ND as [|? ? NI ND']; subst.
  destruct (String.eqb k0 k); cbn; auto. constructor; auto. intros I. apply NI. eapply ddel_vals; eauto.
Qed.
Lemma dmap_ddel : forall V W (f : V -> W) k cs, dmap f (ddel k cs) = ddel k (dmap f cs).
Proof. intros V W f k cs. induction cs as [|[k0 v0] cs IH]; cbn; auto. destruct (String.eqb k0 k); cbn; auto. f_equal. exact IH. Qed.
Lemma dmap_dset : forall V W (f : V -> W) k v cs, dmap f (dset k v cs) = dset k (f v) (dmap f cs).
Proof. intros V W f k v cs. induction cs as [|[k0 v0] cs IH]; cbn; auto. destruct (String.eqb k0 k); cbn; auto. f_equal. exact IH. Qed.
Lemma dset_typed : forall k k' t (ts : dict (option ptype)), dget k' ts <> None \/ k' = k -> dget k' (dset k t ts) <> None.
Proof.
  intros k k' t ts H. destruct (String.eqb_spec k k') as [->|N]; [rewrite dget_dset_same; discriminate|].
  rewrite dget_dset_other by auto. destruct H; [auto|congruence].
Qed.

Lemma seen_keys : forall h o, data_keys (seen h o) = dkeys (ocols o).
Proof. intros. unfold data_keys, seen. cbn [cols]. apply dmap_keys. Qed.
Lemma seen_col : forall h o k, dget k (cols (seen h o)) = option_map (read h) (dget k (ocols o)).
Proof. intros. unfold seen. cbn [cols]. apply dget_dmap. Qed.
Lemma seen_mem : forall h o k, dmem k (cols (seen h o)) = dmem k (ocols o).
Proof. intros. unfold dmem. rewrite seen_col. destruct (dget k (ocols o)); reflexivity. Qed.

(** A new list somewhere. *)
Lemma good_alloc : forall h o x, ok h o -> good h o (h ++ x) o.
Proof.
  intros h o x [K1 [K2 [K3 K4]]]. split; [|split; [rewrite app_length; lia|split; [auto|]]].
  - split; auto. split; auto. split; auto. intros a I. rewrite app_length. specialize (K3 a I). lia.
  - intros a B _. apply read_old. auto.
Qed.
Lemma seen_alloc : forall h o x, ok h o -> seen (h ++ x) o = seen h o.
Proof. intros h o x [_ [_ [K3 _]]]. apply seen_ext. intros a I. apply read_old. apply K3. auto. Qed.

(* ---- extend and append ---- *)

Lemma hextend_sim : forall h o key a, ok h o -> In key (dkeys (ocols o)) ->
  simk h o (hextend h o key a) (extend (seen h o) key (read h a)).
Proof.
  intros h o key a K I. unfold hextend, extend. destruct (get_type (read h a)) as [dt|e].
  2:{ split; [apply good_refl; auto|]. split; [intros k; auto|reflexivity]. }
  rewrite seen_col. apply dget_In_key in I. destruct I as [c EC]. rewrite EC. cbn [option_map].
  cbn [seen types cols max_len]. destruct (dget key (otypes o)) as [t0|] eqn:ET.
  2:{ split; [apply good_refl; auto|]. split; [intros k; auto|reflexivity]. }
  destruct K as [K1 [K2 [K3 K4]]].
  set (types1 := match t0 with None => dset key dt (otypes o) | Some _ => otypes o end).
  assert (forall k, In k (dkeys (ocols o)) -> dget k types1 <> None) as TY.
  { intros k Ik. unfold types1. destruct t0; [auto|]. apply dset_typed. auto. }
  set (clash := match dt with None => false | Some a => _ end).
  destruct clash.
  - split; [|split; [intros k; auto|reflexivity]]. split; [split; auto|]. split; [lia|]. split; auto.
  - pose proof (dvals_in _ _ _ EC) as IC. split; [|split; [intros k; auto|]].
    + split; [|split; [rewrite write_length; lia|split; [auto|]]].
      * split; auto. split; auto. split; auto. intros x Ix. rewrite write_length. auto.
      * intros x B NI. apply read_write_other. intros ->. contradiction.
    + unfold seen. cbn [ocols otypes olen]. rewrite (write_column h _ (ocols o) key c) by auto. reflexivity.
Qed.

Lemma happend_sim : forall h o key v, ok h o -> simk h o (happend h o key v) (append (seen h o) key v).
Proof.
  intros h o key v K. unfold happend, append. pose proof (good_alloc h o [[v]] K) as GA.
  destruct (in_dec String.string_dec key (dkeys (ocols o))) as [I|NI].
  - pose proof (hextend_sim (h ++ [[v]]) o key (length h) (proj1 GA) I) as S. rewrite read_new, seen_alloc in S by auto.
    destruct (hextend (h ++ [[v]]) o key (length h)) as [[h' o'] r]. destruct S as [G [KE E]]. split; [eapply good_trans; eauto|]. auto.
  - unfold hextend, extend. rewrite read_new. destruct (get_type [v]) as [dt|e] eqn:EG.
    2:{ split; auto. split; [intros k; auto|]. rewrite seen_alloc by auto. reflexivity. }
    rewrite seen_col. apply dget_None in NI. rewrite NI. cbn [option_map].
    destruct K as [K1 [K2 [K3 K4]]]. assert (~ In (length h) (dvals (ocols o))) as FR by (intros I; apply K3 in I; lia).
    split; [|split].
    + split; [|split; [rewrite app_length; lia|split]].
      * split; [apply dset_NoDup; auto|]. split; [apply dset_vals_NoDup; auto|]. split.
        -- intros x I. apply dset_vals in I. rewrite app_length. cbn. destruct I as [->|I]; [lia|apply K3 in I; lia].
        -- intros k I. cbn [ocols otypes] in *. apply dset_In_keys in I. apply dset_typed. destruct I; auto.
      * intros x I. cbn [addrs ocols] in I. apply dset_vals in I. destruct I as [->|I]; auto.
      * intros x B _. apply read_old. auto.
    + intros k I. cbn [ocols]. apply dset_In_keys. auto.
    + unfold seen. cbn [ocols otypes olen]. rewrite new_column by auto. reflexivity.
Qed.

(* ---- fill ---- *)

Lemma get_type_nones : forall n, get_type (repeat None n) = Ok None.
Proof. induction n; cbn; auto. Qed.

Lemma hfill1_sim : forall h o len_ key, ok h o ->
  simk h o (hfill1 h o len_ key) (fill1 (seen h o) len_ key) /\
  (snd (hfill1 h o len_ key) = Ok tt -> In key (dkeys (ocols (snd (fst (hfill1 h o len_ key)))))).
Proof.
  intros h o len_ key K. pose proof K as [K1 [K2 [K3 K4]]]. unfold hfill1, fill1. rewrite seen_mem. destruct (dmem key (ocols o)) eqn:EM.
  - apply dmem_In in EM. pose proof EM as EI. apply dget_In_key in EM. destruct EM as [a EA]. rewrite EA, seen_col, EA. cbn [option_map].
    set (col' := read h a ++ _). pose proof (dvals_in _ _ _ EA) as IA.
    assert (forall ts, (forall k, In k (dkeys (ocols o)) -> dget k ts <> None) -> good h o (write h a col') (mkObj (ocols o) ts (olen o))) as G.
    { intros ts TS. split; [|split; [rewrite write_length; lia|split; [auto|]]].
      - split; auto. split; auto. split; auto. intros x Ix. rewrite write_length. auto.
      - intros x B NI. apply read_write_other. intros ->. contradiction. }
    destruct (get_type col') as [t|e]; (split; [split; [apply G|split; [intros k; auto|]]|]).
    + intros k I. apply dset_typed. auto.
    + unfold seen. cbn [ocols otypes olen cols types max_len]. rewrite (write_column h _ (ocols o) key a) by auto. reflexivity.
    + intros _. exact EI.
    + auto.
    + unfold seen. cbn [ocols otypes olen cols types max_len]. rewrite (write_column h _ (ocols o) key a) by auto. reflexivity.
    + intros H. discriminate.
  - apply dmem_false in EM. assert (~ In (length h) (dvals (ocols o))) as FR by (intros I; apply K3 in I; lia).
    rewrite !dget_dset_same. rewrite read_new. cbn [List.app length]. rewrite get_type_nones, write_new. rewrite dset_dset.
    set (col' := repeat None _). split; [split; [|split]|].
    + split; [|split; [rewrite app_length; lia|split]].
      * split; [apply dset_NoDup; auto|]. split; [apply dset_vals_NoDup; auto|]. split.
        -- intros x I. apply dset_vals in I. rewrite app_length. cbn. destruct I as [->|I]; [lia|apply K3 in I; lia].
        -- intros k I. cbn [ocols otypes] in *. apply dset_In_keys in I. apply dset_typed. destruct I; auto.
      * intros x I. cbn [addrs ocols] in I. apply dset_vals in I. destruct I as [->|I]; auto.
      * intros x B _. apply read_old. auto.
    + intros k I. cbn [ocols]. apply dset_In_keys. auto.
    + unfold seen. cbn [ocols otypes olen cols types max_len]. rewrite new_column by auto. reflexivity.
    + intros _. cbn [fst snd ocols]. apply dset_In_keys. auto.
Qed.

Lemma hfill_keys_sim : forall keys h o len_, ok h o ->
  simk h o (hfill_keys h o len_ keys) (fill_keys (seen h o) len_ keys) /\
  (snd (hfill_keys h o len_ keys) = Ok tt -> forall k, In k keys -> In k (dkeys (ocols (snd (fst (hfill_keys h o len_ keys)))))).
Proof.
  induction keys as [|k keys IH]; intros h o len_ K.
  - split; [split; [apply good_refl; auto|split; [intros x; auto|reflexivity]]|]. intros _ x [].
  - cbn [hfill_keys fill_keys]. destruct (hfill1_sim h o len_ k K) as [S IK].
    destruct (hfill1 h o len_ k) as [[h1 o1] r1]. destruct S as [G [KE ->]]. destruct r1 as [[]|e]; cbn [hbind ubind].
    2:{ split; [split; auto|]. discriminate. }
    destruct (IH h1 o1 len_ (proj1 G)) as [S2 IK2]. destruct (hfill_keys h1 o1 len_ keys) as [[h2 o2] r2]. destruct S2 as [G2 [KE2 ->]].
    split; [split; [eapply good_trans; eauto|split; [intros x I; auto|reflexivity]]|].
    cbn [fst snd] in *. intros E x [->|I]; auto.
Qed.

Lemma hfill_sim : forall h o len_ keys, ok h o -> simk h o (hfill h o len_ keys) (fill (seen h o) len_ keys).
Proof.
  intros h o len_ keys K. unfold hfill, fill. rewrite seen_keys. change (max_len (seen h o)) with (olen o). apply hfill_keys_sim. exact K.
Qed.

(* ---- update ---- *)

Definition contents (h : heap) (v : hval) : uval := match v with HList a => UList (read h a) | HOne c => UOne c end.
(** The lists of the dictionary exist and are not those of the object. *)
Definition foreign (h : heap) (o : obj) (items : dict hval) : Prop :=
  forall k a, In (k, HList a) items -> a < length h /\ ~ In a (addrs o).

Lemma foreign_step : forall h o h' o' items, good h o h' o' -> foreign h o items ->
  foreign h' o' items /\ dmap (contents h') items = dmap (contents h) items.
Proof.
  intros h o h' o' items [K [L [N R]]] F. split.
  - intros k a I. destruct (F k a I) as [B NI]. split; [lia|]. intros I'. destruct (N a I'); [contradiction|lia].
  - unfold dmap. apply map_ext_in. intros [k [a|c]] I; cbn; [|reflexivity]. destruct (F k a I). rewrite R by auto. reflexivity.
Qed.

Lemma hextend_all_sim : forall items h o, ok h o -> foreign h o items -> (forall k, In k (dkeys items) -> In k (dkeys (ocols o))) ->
  simk h o (hextend_all h o items) (extend_all (seen h o) (dmap (contents h) items)).
Proof.
  induction items as [|[k v] items IH]; intros h o K F HK.
  - split; [apply good_refl; auto|]. split; [intros x; auto|reflexivity].
  - assert (foreign h o items) as F' by (intros k' a I; apply (F k' a); right; auto).
    assert (forall h' o', good h o h' o' -> keeps o o' -> simk h' o' (hextend_all h' o' items) (extend_all (seen h' o') (dmap (contents h) items))) as ST.
    { intros h' o' G KE. destruct (foreign_step _ _ _ _ _ G F') as [F2 E2]. rewrite <- E2. apply IH; [apply G|auto|].
      intros x I. apply KE, HK. right. auto. }
    destruct v as [a|c]; cbn [hextend_all dmap map fst snd contents extend_all].
    + apply (simk_bind h o _ _ _ (fun d' _ => extend_all d' (dmap (contents h) items))); [|exact ST].
      apply hextend_sim; auto. apply HK. left. reflexivity.
    + apply (simk_bind h o _ _ _ (fun d' _ => extend_all d' (dmap (contents h) items))); [|exact ST]. apply happend_sim. auto.
Qed.

Lemma hunsafe_update_sim : forall items h o, ok h o -> foreign h o items -> (forall k, In k (dkeys items) -> In k (dkeys (ocols o))) ->
  simk h o (hunsafe_update h o items) (unsafe_update (seen h o) (dmap (contents h) items)).
Proof.
  intros items h o K F HK. unfold hunsafe_update, unsafe_update.
  apply (simk_bind h o _ _ _ (fun d' _ => fill d' None None)); [apply hextend_all_sim; auto|].
  intros h' o' G _. apply hfill_sim. apply G.
Qed.

Lemma hdrop_lasts_sim : forall keys h o, ok h o -> (forall k, In k keys -> In k (dkeys (ocols o))) ->
  let (h', o') := hdrop_lasts h o keys in good h o h' o' /\ keeps o o' /\ seen h' o' = drop_lasts (seen h o) keys.
Proof.
  induction keys as [|k keys IH]; intros h o K HK.
  - split; [apply good_refl; auto|]. split; [intros x; auto|reflexivity].
  - cbn [hdrop_lasts drop_lasts]. pose proof K as [K1 [K2 [K3 K4]]].
    assert (~ In (length h) (dvals (ocols o))) as FR by (intros I; apply K3 in I; lia).
    set (c := match dget k (ocols o) with Some a => read h a | None => [] end).
    set (o1 := mkObj (dset k (length h) (ocols o)) (otypes o) (olen o)). set (h1 := h ++ [removelast c]).
    assert (good h o h1 o1) as G.
    { split; [|split; [unfold h1; rewrite app_length; lia|split]].
      - split; [apply dset_NoDup; auto|]. split; [apply dset_vals_NoDup; auto|]. split.
        + intros x I. apply dset_vals in I. unfold h1. rewrite app_length. cbn. destruct I as [->|I]; [lia|apply K3 in I; lia].
        + intros x I. cbn [ocols otypes o1] in *. apply dset_In_keys in I. apply K4. destruct I as [->|I]; auto. apply HK. left. auto.
      - intros x I. cbn [addrs ocols o1] in I. apply dset_vals in I. destruct I as [->|I]; auto.
      - intros x B _. apply read_old. auto. }
    assert (keeps o o1) as KE by (intros x I; cbn [ocols o1]; apply dset_In_keys; auto).
    assert (seen h1 o1 = mkData (dset k (removelast c) (cols (seen h o))) (types (seen h o)) (max_len (seen h o))) as E.
    { unfold seen, h1, o1. cbn [ocols otypes olen cols types max_len]. rewrite new_column by auto. reflexivity. }
    specialize (IH h1 o1 (proj1 G)). destruct (hdrop_lasts h1 o1 keys) as [h2 o2].
    destruct IH as [G2 [KE2 E2]]; [intros x I; apply KE, HK; right; auto|].
    split; [eapply good_trans; eauto|]. split; [intros x I; auto|]. rewrite E2, E. rewrite seen_col. unfold c.
    destruct (dget k (ocols o)); reflexivity.
Qed.

Lemma hupdate_sim : forall items h o compress, ok h o -> foreign h o items ->
  simk h o (hupdate h o items compress) (update (seen h o) (dmap (contents h) items) compress).
Proof.
  intros items h o compress K F. unfold hupdate, update. rewrite dmap_keys, seen_keys. change (max_len (seen h o)) with (olen o).
  destruct (hfill_keys_sim (dkeys items ++ dkeys (ocols o)) h o (olen o) K) as [S IK].
  destruct (hfill_keys h o (olen o) (dkeys items ++ dkeys (ocols o))) as [[h1 o1] r1]. destruct S as [G [KE ->]].
  destruct r1 as [[]|e]; cbn [hbind ubind]; [|split; auto].
  destruct (foreign_step _ _ _ _ _ G F) as [F1 E1]. rewrite <- E1. cbn [fst snd] in IK.
  assert (forall k, In k (dkeys items) -> In k (dkeys (ocols o1))) as HK by (intros k I; apply IK; auto; apply in_or_app; auto).
  assert (forall p q, simk h1 o1 p q -> simk h o p q) as UP.
  { intros [[h2 o2] r2] q [G2 [KE2 E2]]. split; [eapply good_trans; eauto|]. split; [intros x I; auto|auto]. }
  change (max_len (seen h1 o1)) with (olen o1). destruct (negb compress || (olen o1 =? 0)%Z).
  - apply UP. apply hunsafe_update_sim; auto. apply G.
  - destruct (all_last_none (seen h1 o1) (dkeys items)) as [[]|e].
    + pose proof (hdrop_lasts_sim (dkeys items) h1 o1 (proj1 G) HK) as SD. destruct (hdrop_lasts h1 o1 (dkeys items)) as [h2 o2].
      destruct SD as [G2 [KE2 E2]]. destruct (foreign_step _ _ _ _ _ G2 F1) as [F2 E3]. rewrite <- E2, <- E3. apply UP.
      pose proof (hunsafe_update_sim items h2 o2 (proj1 G2) F2 (fun k I => KE2 k (HK k I))) as S3.
      destruct (hunsafe_update h2 o2 items) as [[h3 o3] r3]. destruct S3 as [G3 [KE3 E4]].
      split; [eapply good_trans; eauto|]. split; [intros x I; auto|auto].
    + apply UP. apply hunsafe_update_sim; auto. apply G.
    + apply UP. split; [apply good_refl; apply G|]. split; [intros x; auto|reflexivity].
Qed.

Definition apart (o o' : obj) : Prop := forall a, In a (addrs o) -> ~ In a (addrs o').

Lemma hupdate_data_sim : forall h o other, ok h o -> ok h other -> apart other o ->
  simk h o (hupdate_data h o other) (update_data (seen h o) (seen h other)).
Proof.
  intros h o other K K' A. unfold hupdate_data, update_data.
  assert (dmap UList (cols (seen h other)) = dmap (contents h) (dmap HList (ocols other))) as ->.
  { unfold seen. cbn [cols]. unfold dmap. rewrite !map_map. reflexivity. }
  apply hupdate_sim; auto. intros k a I. unfold dmap in I. apply in_map_iff in I. destruct I as [[k0 a0] [E I]]. injection E as -> ->.
  assert (In a (addrs other)) as IA by (apply in_map_iff; exists (k, a); auto). split; [apply K'; auto|apply A; auto].
Qed.

(* ---- an object updated with itself ---- *)

Lemma hextend_existing : forall h o key a c h' o' r, dget key (ocols o) = Some c -> hextend h o key a = (h', o', r) ->
  ocols o' = ocols o /\ forall b, b <> c -> read h' b = read h b.
Proof.
  intros h o key a c h' o' r E H. unfold hextend in H. destruct (get_type (read h a)) as [t|e]; [|injection H as <- <- _; auto].
  rewrite E in H. destruct (dget key (otypes o)) as [t0|]; [|injection H as <- <- _; auto].
  match type of H with (if ?x then _ else _) = _ => destruct x; injection H as <- <- _; cbn [ocols]; [auto|] end.
  split; auto. intros b N. apply read_write_other. auto.
Qed.

Lemma dvals_inj : forall (cs : dict nat) k k' a, NoDup (dvals cs) -> dget k cs = Some a -> dget k' cs = Some a -> k = k'.
Proof.
  induction cs as [|[k0 a0] cs IH]; intros k k' a N E E'; [discriminate|]. cbn [dget] in E, E'. unfold dvals in N. cbn [map snd] in N.
  inversion N as [|x l NI NN]; subst. destruct (String.eqb_spec k0 k) as [D|D], (String.eqb_spec k0 k') as [D'|D']; [congruence| | |].
  - injection E as ->. exfalso. apply NI. eapply dvals_in; eauto.
  - injection E' as ->. exfalso. apply NI. eapply dvals_in; eauto.
  - eapply IH; eauto.
Qed.

Lemma hextend_all_self : forall items h o, ok h o -> NoDup (dkeys items) ->
  (forall k v, In (k, v) items -> exists a, v = HList a /\ dget k (ocols o) = Some a) ->
  simk h o (hextend_all h o items) (extend_all (seen h o) (dmap (contents h) items)).
Proof.
  induction items as [|[k v] items IH]; intros h o K ND OWN.
  - split; [apply good_refl; auto|]. split; [intros x; auto|reflexivity].
  - destruct (OWN k v (or_introl eq_refl)) as [a [-> EA]]. cbn [hextend_all dmap map fst snd contents extend_all].
    unfold dkeys in ND. cbn [map fst] in ND. inversion ND as [|x l NI NN]; subst.
    assert (simk h o (hextend h o k a) (extend (seen h o) k (read h a))) as S.
    { apply hextend_sim; auto. apply dget_In_key. eauto. }
    destruct (hextend h o k a) as [[h1 o1] r1] eqn:EH. destruct (hextend_existing _ _ _ _ _ _ _ _ EA EH) as [EO RO].
    destruct S as [G [KE ->]]. destruct r1 as [[]|e]; cbn [hbind ubind]; [|split; auto].
    assert (dmap (contents h) items = dmap (contents h1) items) as EC.
    { unfold dmap. apply map_ext_in. intros [k' v'] I. destruct (OWN k' v' (or_intror I)) as [a' [-> EA']]. cbn. rewrite RO; auto.
      intros ->. apply NI. assert (k = k') as -> by (eapply dvals_inj; [apply K|exact EA|exact EA']).
      apply in_map_iff. exists (k', HList a). auto. }
    fold (dmap (contents h) items). rewrite EC.
    assert (simk h1 o1 (hextend_all h1 o1 items) (extend_all (seen h1 o1) (dmap (contents h1) items))) as S.
    { apply IH; [apply G|auto|]. intros k' v' I. rewrite EO. apply (OWN k' v'). right. auto. }
    destruct (hextend_all h1 o1 items) as [[h2 o2] r2]. destruct S as [G2 [KE2 E2]].
    split; [eapply good_trans; eauto|]. split; [intros x I; auto|auto].
Qed.

Lemma hfill_level : forall keys h o, ok h o -> level (seen h o) -> (forall k, In k keys -> In k (dkeys (ocols o))) ->
  forall h' o' r, hfill_keys h o (olen o) keys = (h', o', r) ->
  ocols o' = ocols o /\ olen o' = olen o /\ (forall b, read h' b = read h b) /\ length h' = length h.
Proof.
  induction keys as [|k keys IH]; intros h o K L HK h' o' r E; [injection E as <- <- _; auto|].
  cbn [hfill_keys] in E. pose proof (HK k (or_introl eq_refl)) as IK. apply dget_In_key in IK. destruct IK as [a EA].
  destruct (hfill1_sim h o (olen o) k K) as [S _].
  unfold hfill1 in E, S. assert (dmem k (ocols o) = true) as EM by (apply dmem_In, HK; left; auto). rewrite EM, EA in E, S.
  assert (Z.of_nat (length (read h a)) = olen o) as LA.
  { apply (L k). rewrite seen_col, EA. reflexivity. }
  rewrite LA, Z.sub_diag in E, S. change (Z.to_nat (Z.max 0 0)) with 0 in E, S. cbn [repeat] in E, S. rewrite app_nil_r in E, S.
  assert (forall b, read (write h a (read h a)) b = read h b) as RW.
  { intros b. destruct (Nat.eq_dec a b) as [<-|N]; [|apply read_write_other; auto]. apply read_write_same. apply K. eapply dvals_in; eauto. }
  destruct (get_type (read h a)) as [t|e]; cbn [hbind] in E.
  - destruct S as [G _]. destruct (IH (write h a (read h a)) (mkObj (ocols o) (dset k t (otypes o)) (olen o)) (proj1 G)) with (3 := E) as [E1 [E2 [E3 E4]]].
    + intros k' col H. apply (L k' col). rewrite seen_col in H |- *. cbn [ocols] in H. destruct (dget k' (ocols o)); [|discriminate].
      cbn [option_map] in *. rewrite RW in H. exact H.
    + intros k' I. apply HK. right. auto.
    + cbn [ocols olen] in *. split; auto. split; auto. split; [intros b; rewrite E3; apply RW|]. rewrite E4. apply write_length.
  - injection E as <- <- _. cbn [ocols olen]. split; auto. split; auto. split; auto. apply write_length.
Qed.

Lemma hupdate_self_sim : forall h o, ok h o -> level (seen h o) ->
  simk h o (hupdate_data h o o) (update_data (seen h o) (seen h o)).
Proof.
  intros h o K L. unfold hupdate_data, update_data. set (items := dmap HList (ocols o)).
  assert (dmap UList (cols (seen h o)) = dmap (contents h) items) as ->.
  { unfold seen, items. cbn [cols]. unfold dmap. rewrite !map_map. reflexivity. }
  assert (dkeys items = dkeys (ocols o)) as EK by apply dmap_keys.
  unfold hupdate, update. rewrite dmap_keys, seen_keys, EK. change (max_len (seen h o)) with (olen o).
  destruct (hfill_keys_sim (dkeys (ocols o) ++ dkeys (ocols o)) h o (olen o) K) as [S IK].
  destruct (hfill_keys h o (olen o) (dkeys (ocols o) ++ dkeys (ocols o))) as [[h1 o1] r1] eqn:EF. destruct S as [G [KE ->]].
  assert (forall k, In k (dkeys (ocols o) ++ dkeys (ocols o)) -> In k (dkeys (ocols o))) as HK by (intros k I; apply in_app_or in I; tauto).
  destruct (hfill_level _ h o K L HK _ _ _ EF) as [E1 [E2 [E3 E4]]].
  destruct r1 as [[]|e]; cbn [hbind ubind negb orb]; [|split; auto].
  assert (dmap (contents h) items = dmap (contents h1) items) as ->.
  { unfold dmap. apply map_ext. intros [k [a|c]]; cbn; [rewrite E3|]; reflexivity. }
  assert (simk h1 o1 (hunsafe_update h1 o1 items) (unsafe_update (seen h1 o1) (dmap (contents h1) items))) as S.
  { unfold hunsafe_update, unsafe_update. apply (simk_bind h1 o1 _ _ _ (fun d' _ => fill d' None None)).
    - apply hextend_all_self; [apply G|rewrite EK; apply K|]. intros k v I. unfold items, dmap in I. apply in_map_iff in I.
      destruct I as [[k0 a] [Ev I]]. injection Ev as <- <-. exists a. split; auto. rewrite E1. apply NoDup_dget; [apply K|auto].
    - intros h' o' G' _. apply hfill_sim. apply G'. }
  destruct (hunsafe_update h1 o1 items) as [[h2 o2] r2]. destruct S as [G2 [KE2 EQ]].
  split; [eapply good_trans; eauto|]. split; [intros x I; auto|auto].
Qed.

Lemma hconcat_sim : forall l h o, ok h o -> Forall (fun x => ok h x /\ apart x o) l ->
  simk h o (hconcat_onto h o l) (concat_onto (seen h o) (map (seen h) l)).
Proof.
  induction l as [|x l IH]; intros h o K F.
  - split; [apply good_refl; auto|]. split; [intros y; auto|reflexivity].
  - inversion F as [|? ? [KX AX] F']; subst. cbn [hconcat_onto map concat_onto].
    apply (simk_bind h o _ _ _ (fun d' _ => concat_onto d' (map (seen h) l))); [apply hupdate_data_sim; auto|].
    intros h' o' G _. assert (Forall (fun y => ok h' y /\ apart y o' /\ seen h' y = seen h y) l) as F2.
    { eapply Forall_impl; [|exact F']. intros y [KY AY]. destruct G as [KG [L [N R]]]. destruct KY as [Y1 [Y2 [Y3 Y4]]]. split; [|split].
      - split; auto. split; auto. split; auto. intros a I. specialize (Y3 a I). lia.
      - intros a I I'. destruct (N a I') as [I2|B]; [apply (AY a I I2)|specialize (Y3 a I); lia].
      - apply seen_ext. intros a I. apply R; [apply Y3; auto|apply AY; auto]. }
    assert (map (seen h) l = map (seen h') l) as ->.
    { apply map_ext_in. intros y I. rewrite Forall_forall in F2. symmetry. apply F2. auto. }
    apply IH; [apply G|]. eapply Forall_impl; [|exact F2]. intros y [A [B _]]. auto.
Qed.

(* ---- new lists for all columns ---- *)

Lemma remap_spec : forall f cs h h' cs', remap f h cs = (h', cs') -> (forall a, In a (dvals cs) -> a < length h) ->
  (exists x, h' = h ++ x /\ length x = length cs) /\ dkeys cs' = dkeys cs /\ dvals cs' = seq (length h) (length cs) /\
  dmap (read h') cs' = dmap (fun a => f (read h a)) cs.
Proof.
  intros f. induction cs as [|[k a] cs IH]; intros h h' cs' E B; cbn in E.
  - injection E as <- <-. split; [exists []; rewrite app_nil_r; auto|]. auto.
  - destruct (remap f (h ++ [f (read h a)]) cs) as [h1 cs1] eqn:E1. injection E as <- <-.
    destruct (IH _ _ _ E1) as [[x [-> LX]] [KK [VV MM]]].
    { intros b I. rewrite app_length. cbn. assert (b < length h) by (apply B; cbn; auto). lia. }
    rewrite app_length in VV. cbn in VV. rewrite Nat.add_1_r in VV. split; [|split; [|split]].
    + exists (f (read h a) :: x). rewrite <- app_assoc. cbn. auto.
    + cbn. f_equal. exact KK.
    + cbn. f_equal. exact VV.
    + change (dmap (read ((h ++ [f (read h a)]) ++ x)) ((k, length h) :: cs1)) with
        ((k, read ((h ++ [f (read h a)]) ++ x) (length h)) :: dmap (read ((h ++ [f (read h a)]) ++ x)) cs1).
      rewrite MM. cbn. f_equal.
      * rewrite read_old by (rewrite app_length; cbn; lia). rewrite read_new. reflexivity.
      * apply (dmap_ext (fun b => f (read (h ++ [f (read h a)]) b)) (fun b => f (read h b))). intros b I. rewrite read_old; auto. apply B. cbn. auto.
Qed.

Lemma remap_good : forall f h o o0 h' cs' n, ok h o -> remap f h (ocols o) = (h', cs') ->
  good h o0 h' (mkObj cs' (otypes o) n) /\ dmap (read h') cs' = dmap f (dmap (read h) (ocols o)).
Proof.
  intros f h o o0 h' cs' n [K1 [K2 [K3 K4]]] E. destruct (remap_spec _ _ _ _ _ E K3) as [[x [-> LX]] [KK [VV MM]]]. split.
  - split; [|split; [rewrite app_length; lia|split]].
    + split; [cbn [ocols]; rewrite KK; auto|]. split; [unfold addrs; cbn [ocols]; rewrite VV; apply seq_NoDup|]. split.
      * intros a I. unfold addrs in I. cbn [ocols] in I. rewrite VV in I. apply in_seq in I. rewrite app_length. lia.
      * intros k I. cbn [ocols otypes] in *. rewrite KK in I. auto.
    + intros a I. unfold addrs in I. cbn [ocols] in I. rewrite VV in I. apply in_seq in I. right. lia.
    + intros a B _. apply read_old. auto.
  - rewrite MM. unfold dmap. rewrite map_map. reflexivity.
Qed.

Lemma hdelete_rows_sim : forall h o idx, ok h o -> sim h o (hdelete_rows h o idx, Ok tt) (delete_rows (seen h o) idx, Ok tt).
Proof.
  intros h o idx K. unfold hdelete_rows, delete_rows. destruct idx as [|i idx].
  - split; [apply good_refl; auto|reflexivity].
  - destruct (remap (drop_rows (i :: idx)) h (ocols o)) as [h' cs'] eqn:E.
    destruct (remap_good _ h o o h' cs' (olen o - Z.of_nat (length (i :: idx))) K E) as [G M]. split; auto.
    unfold seen. cbn [ocols otypes olen cols types max_len]. rewrite M. reflexivity.
Qed.
Lemma hmask_sim : forall h o m, ok h o -> sim h new_obj (hmask h o m, Ok tt) (mask_rows (seen h o) m, Ok tt).
Proof.
  intros h o m K. unfold hmask, mask_rows. destruct (remap (fun col => mask_list col m) h (ocols o)) as [h' cs'] eqn:E.
  destruct (remap_good _ h o new_obj h' cs' (max_col_len (dmap (read h') cs')) K E) as [G M]. split; auto.
  unfold seen. cbn [ocols otypes olen cols types]. rewrite M. reflexivity.
Qed.
Lemma hstrip_rows_sim : forall fuel h o, ok h o -> sim h o (hstrip_rows fuel h o) (strip_rows fuel (seen h o)).
Proof.
  intros fuel h o K. unfold hstrip_rows, strip_rows. change (max_len (seen h o)) with (olen o).
  destruct (skip_none_rows fuel (cols (seen h o)) 0 1) as [a|e]; [|split; [apply good_refl; auto|reflexivity]].
  destruct (skip_none_rows fuel (cols (seen h o)) (olen o - 1) (-1)) as [b|e]; [|split; [apply good_refl; auto|reflexivity]].
  destruct (remap (fun col => py_slice col a (b + 1)) h (ocols o)) as [h' cs'] eqn:E.
  destruct (remap_good _ h o o h' cs' (olen o) K E) as [G M]. split; auto.
  unfold seen. cbn [ocols otypes olen cols types max_len]. rewrite M. reflexivity.
Qed.

Lemma hstrip_cols_sim : forall h o, ok h o -> sim h o (h, hstrip_cols h o, Ok tt) (strip_cols (seen h o), Ok tt).
Proof.
  intros h o [K1 [K2 [K3 K4]]]. unfold hstrip_cols, strip_cols.
  set (f := fun kv : string * nat => negb (forallb is_none (read h (snd kv)))).
  assert (forall (cs : dict nat) x, In x (dvals (filter f cs)) -> In x (dvals cs)) as IV.
  { intros cs x I. apply in_map_iff in I. destruct I as [kv [E I]]. apply filter_In in I. apply in_map_iff. exists kv. tauto. }
  assert (forall (cs : dict nat) x, In x (dkeys (filter f cs)) -> In x (dkeys cs)) as IK.
  { intros cs x I. apply in_map_iff in I. destruct I as [kv [E I]]. apply filter_In in I. apply in_map_iff. exists kv. tauto. }
  split.
  - split; [|split; [lia|split]].
    + split; [|split; [|split]].
      * cbn [ocols]. clear - K1 IK. induction (ocols o) as [|[k a] cs IH]; [constructor|]. cbn [filter]. inversion K1 as [|? ? NI ND]; subst.
        destruct (f (k, a)); [|auto]. constructor; [|auto]. intros I. apply NI. apply IK. exact I.
      * unfold addrs. cbn [ocols]. unfold addrs in K2. clear - K2 IV. induction (ocols o) as [|[k a] cs IH]; [constructor|]. cbn [filter]. inversion K2 as [|? ? NI ND]; subst.
        destruct (f (k, a)); [|auto]. constructor; [|auto]. intros I. apply NI. apply IV. exact I.
      * intros a I. apply K3. apply IV. exact I.
      * intros k I. cbn [ocols otypes] in *. apply K4. apply IK. exact I.
    + intros a I. left. apply IV. exact I.
    + auto.
  - f_equal. unfold seen. cbn [ocols otypes olen cols types max_len]. f_equal. unfold dmap. clear.
    induction (ocols o) as [|[k a] cs IH]; cbn; auto. unfold f at 1. cbn [snd]. destruct (negb (forallb is_none (read h a))); cbn; rewrite IH; auto.
Qed.

(* ---- columns ---- *)

Lemma hdelete_col_sim : forall h o key, ok h o -> sim h o (hdelete_col h o key) (delete_col (seen h o) key).
Proof.
  intros h o key K. unfold hdelete_col, delete_col. rewrite seen_mem. change (types (seen h o)) with (otypes o). change (max_len (seen h o)) with (olen o).
  destruct (dmem key (ocols o)) eqn:EM; [|split; [apply good_refl; auto|reflexivity]].
  destruct K as [K1 [K2 [K3 K4]]]. apply dmem_In in EM. pose proof (K4 key EM) as TY.
  destruct (dmem key (otypes o)) eqn:ET.
  2:{ apply dmem_false in ET. apply dget_None in ET. contradiction. }
  split.
  - split; [|split; [lia|split; [|auto]]].
    + split; [apply ddel_NoDup; auto|]. split; [apply ddel_vals_NoDup; auto|]. split; [intros a I; apply K3; eapply ddel_vals; eauto|].
      intros k I. cbn [ocols otypes] in *. apply ddel_In_keys in I; auto. destruct I as [NE I]. rewrite dget_ddel_other by auto. auto.
    + intros a I. left. eapply ddel_vals; eauto.
  - unfold seen. cbn [ocols otypes olen cols types max_len]. rewrite dmap_ddel. reflexivity.
Qed.

Lemma ddel_dset_perm : forall (cs : dict nat) old new a, NoDup (dkeys cs) -> dget old cs = Some a -> ~ In new (dkeys cs) ->
  dvals (ddel old (dset new a cs)) = dvals (ddel old cs) ++ [a] /\ ~ (In a (dvals (ddel old cs)) /\ NoDup (dvals cs)).
Proof.
  intros cs old new a ND G NI. rewrite dset_keys_notin by auto. split.
  - induction cs as [|[k v] cs IH]; cbn in *; [discriminate|]. destruct (String.eqb_spec k old) as [->|N].
    + unfold dvals. rewrite map_app. reflexivity.
    + cbn. f_equal. inversion ND; subst. apply IH; auto.
  - intros [I NV]. revert G I NV. clear. induction cs as [|[k v] cs IH]; cbn; intros G I NV; [contradiction|]. inversion NV as [|? ? NIV NV']; subst.
    destruct (String.eqb_spec k old) as [->|N].
    + injection G as ->. contradiction.
    + cbn in I. destruct I as [->|I]; [apply NIV; eapply dvals_in; eauto|auto].
Qed.

Lemma hrename_sim : forall h o old new, ok h o -> sim h o (hrename h o old new) (rename (seen h o) old new).
Proof.
  intros h o old new K. pose proof K as [K1 [K2 [K3 K4]]]. unfold hrename, rename. rewrite seen_keys, seen_col. cbn [seen types cols max_len].
  destruct (String.eqb_spec old new) as [|NE]; [split; [apply good_refl; auto|reflexivity]|].
  destruct (smem new (dkeys (ocols o))) eqn:EM; [split; [apply good_refl; auto|reflexivity]|]. apply smem_false in EM.
  destruct (dget old (ocols o)) as [a|] eqn:EA; cbn [option_map]; [|split; [apply good_refl; auto|reflexivity]].
  assert (In old (dkeys (ocols o))) as IO by (apply dget_In_key; eauto).
  destruct (dget old (otypes o)) as [t|] eqn:ET; [|exfalso; apply (K4 old IO ET)].
  unfold hdelete_col, delete_col. cbn [ocols otypes olen cols types max_len].
  assert (dmem old (dset new a (ocols o)) = true) as -> by (apply dmem_In, dset_In_keys; auto).
  assert (dmem old (dset new (read h a) (dmap (read h) (ocols o))) = true) as -> by (apply dmem_In, dset_In_keys; rewrite dmap_keys; auto).
  assert (dmem old (dset new t (otypes o)) = true) as ->.
  { apply dmem_In, dset_In_keys. right. apply dget_In_key. eauto. }
  destruct (ddel_dset_perm (ocols o) old new a K1 EA EM) as [EV NV].
  split.
  - split; [|split; [lia|split; [|auto]]].
    + split; [cbn [ocols]; apply ddel_NoDup, dset_NoDup; auto|]. split; [|split].
      * unfold addrs. cbn [ocols]. rewrite EV. apply NoDup_app_single; [apply ddel_vals_NoDup; auto|]. intros I. apply NV. auto.
      * intros x I. apply K3. unfold addrs in I. cbn [ocols] in I. apply ddel_vals in I. apply dset_vals in I. destruct I as [->|I]; auto. eapply dvals_in; eauto.
      * intros k I. cbn [ocols otypes] in *. apply ddel_In_keys in I; [|apply dset_NoDup; auto]. destruct I as [NK I]. apply dset_In_keys in I.
        rewrite dget_ddel_other by auto. apply dset_typed. destruct I; auto.
    + intros x I. left. unfold addrs in *. cbn [ocols] in I. apply ddel_vals in I. apply dset_vals in I. destruct I as [->|I]; auto. eapply dvals_in; eauto.
  - unfold seen. cbn [ocols otypes olen]. rewrite dmap_ddel, dmap_dset. reflexivity.
Qed.

(* ---- programs ---- *)

Record inv (s : hstate) : Prop := mkInv {
  inv_ok : forall i o, nth_error (hobjs s) i = Some o -> ok (hheap s) o;
  inv_apart : forall i j o o', i <> j -> nth_error (hobjs s) i = Some o -> nth_error (hobjs s) j = Some o' -> apart o o';
  inv_lists : forall a, In a (hlists s) -> a < length (hheap s);
  inv_once : NoDup (hlists s);
  inv_away : forall i o a, nth_error (hobjs s) i = Some o -> In a (addrs o) -> ~ In a (hlists s)
}.
Definition view (s : hstate) : vstate := mkV (map (seen (hheap s)) (hobjs s)) (map (read (hheap s)) (hlists s)).

Lemma put_same : forall A (l : list A) i x, i < length l -> nth_error (put l i x) i = Some x.
Proof. intros A l. induction l as [|y l IH]; intros [|i] x H; cbn in *; try lia; auto. apply IH. lia. Qed.
Lemma put_other : forall A (l : list A) i j x, i <> j -> nth_error (put l i x) j = nth_error l j.
Proof. intros A l. induction l as [|y l IH]; intros [|i] [|j] x H; cbn; auto; try congruence. Qed.
Lemma put_map : forall A B (f g : A -> B) l i x, (forall j y, j <> i -> nth_error l j = Some y -> f y = g y) ->
  map f (put l i x) = put (map g l) i (f x).
Proof.
  intros A B f g l. induction l as [|y l IH]; intros [|i] x H; cbn; auto.
  - f_equal. apply map_ext_in. intros z I. apply In_nth_error in I. destruct I as [j E]. apply (H (S j) z); auto.
  - f_equal; [apply (H 0 y); auto|]. apply IH. intros j z N E. apply (H (S j) z); auto.
Qed.

Lemma on_sim : forall s i o h' o', inv s -> nth_error (hobjs s) i = Some o -> good (hheap s) o h' o' ->
  inv (mkH h' (put (hobjs s) i o') (hlists s)) /\
  view (mkH h' (put (hobjs s) i o') (hlists s)) = mkV (put (vdata (view s)) i (seen h' o')) (vlists (view s)).
Proof.
  intros s i o h' o' [I1 I2 I3 I4 I5] E [K [L [N R]]].
  assert (i < length (hobjs s)) as BI by (apply nth_error_Some; rewrite E; discriminate).
  assert (forall j x, j <> i -> nth_error (hobjs s) j = Some x -> forall a, In a (addrs x) -> a < length (hheap s) /\ ~ In a (addrs o)) as SEP.
  { intros j x NJ EJ a I. split; [apply (I1 j x EJ); auto|]. apply (I2 j i x o NJ EJ E a I). }
  split.
  - constructor; cbn [hheap hobjs hlists].
    + intros j x EJ. destruct (Nat.eq_dec i j) as [->|NJ].
      * rewrite put_same in EJ by auto. injection EJ as <-. exact K.
      * rewrite put_other in EJ by auto. destruct (I1 j x EJ) as [A [B [C D]]]. split; auto. split; auto. split; auto.
        intros a I. specialize (C a I). lia.
    + intros j1 j2 x1 x2 NJ E1 E2. destruct (Nat.eq_dec i j1) as [->|N1]; [|destruct (Nat.eq_dec i j2) as [->|N2]].
      * rewrite put_same in E1 by auto. injection E1 as <-. rewrite put_other in E2 by auto. intros a IA IB.
        assert (j2 <> j1) as NN by congruence. destruct (SEP j2 x2 NN E2 a IB) as [B NI]. destruct (N a IA); [contradiction|lia].
      * rewrite put_same in E2 by auto. injection E2 as <-. rewrite put_other in E1 by auto. intros a IA IB.
        destruct (SEP j1 x1 NJ E1 a IA) as [B NI]. destruct (N a IB); [contradiction|lia].
      * rewrite put_other in E1 by auto. rewrite put_other in E2 by auto. apply (I2 j1 j2 x1 x2 NJ E1 E2).
    + intros a I. specialize (I3 a I). lia.
    + auto.
    + intros j x a EJ IA. destruct (Nat.eq_dec i j) as [->|NJ].
      * rewrite put_same in EJ by auto. injection EJ as <-. destruct (N a IA) as [I|B]; [eapply I5; eauto|]. intros I. specialize (I3 a I). lia.
      * rewrite put_other in EJ by auto. eapply I5; eauto.
  - unfold view. cbn [hheap hobjs hlists vdata vlists]. f_equal.
    + apply put_map. intros j x NJ EJ. apply seen_ext. intros a IA. destruct (SEP j x NJ EJ a IA). apply R; auto.
    + apply map_ext_in. intros a I. apply R; auto. intros IA. eapply I5; eauto.
Qed.

Lemma hon_sim : forall s i f g, inv s -> (forall o, nth_error (hobjs s) i = Some o -> sim (hheap s) o (f (hheap s) o) (g (seen (hheap s) o))) ->
  let (s', r) := hon s i f in inv s' /\ von (view s) i g = (view s', r).
Proof.
  intros s i f g I H. unfold hon, von. cbn [view vdata]. rewrite nth_error_map. destruct (nth_error (hobjs s) i) as [o|] eqn:E; cbn [option_map]; [|auto].
  specialize (H o eq_refl). destruct (f (hheap s) o) as [[h' o'] r]. destruct H as [G ->].
  destruct (on_sim s i o h' o' I E G) as [I' V]. split; [exact I'|]. rewrite V. reflexivity.
Qed.

Lemma new_ok : forall h, ok h new_obj.
Proof. intros h. split; [constructor|]. split; [constructor|]. split; intros a []. Qed.

Lemma hnew_sim : forall s p q, inv s -> sim (hheap s) new_obj p q ->
  let (s', r) := hnew s p in inv s' /\ vnew (view s) q = (view s', r).
Proof.
  intros s [[h' o'] r] q I [[K [L [N R]]] ->]. destruct I as [I1 I2 I3 I4 I5].
  assert (forall a, In a (addrs o') -> length (hheap s) <= a) as N' by (intros a IA; destruct (N a IA) as [[]|]; auto).
  assert (forall a, a < length (hheap s) -> read h' a = read (hheap s) a) as R' by (intros a B; apply R; auto; intros []).
  assert (forall i x, nth_error (hobjs s) i = Some x -> ok h' x /\ seen h' x = seen (hheap s) x) as OLD.
  { intros i x E. destruct (I1 i x E) as [A [B [C D]]]. split; [split; auto; split; auto; split; auto; intros a Ia; specialize (C a Ia); lia|].
    apply seen_ext. intros a Ia. apply R'. auto. }
  assert (map (seen h') (hobjs s) = map (seen (hheap s)) (hobjs s)) as EO.
  { apply map_ext_in. intros x Ix. apply In_nth_error in Ix. destruct Ix as [i E]. apply (OLD i x E). }
  assert (map (read h') (hlists s) = map (read (hheap s)) (hlists s)) as EL by (apply map_ext_in; intros a Ia; apply R'; auto).
  destruct r as [[]|e]; cbn [hnew vnew].
  - split.
    + constructor; cbn [hheap hobjs hlists].
      * intros i x E. destruct (Nat.lt_ge_cases i (length (hobjs s))) as [B|B].
        -- rewrite nth_error_app1 in E by auto. apply (OLD i x E).
        -- rewrite nth_error_app2 in E by auto. destruct (i - length (hobjs s)) as [|[|]]; cbn in E; try discriminate. injection E as <-. exact K.
      * assert (forall i x, nth_error (hobjs s ++ [o']) i = Some x -> (i < length (hobjs s) /\ nth_error (hobjs s) i = Some x) \/ (i = length (hobjs s) /\ x = o')) as CASES.
        { intros i x E. destruct (Nat.lt_ge_cases i (length (hobjs s))) as [B|B].
          - rewrite nth_error_app1 in E by auto. auto.
          - rewrite nth_error_app2 in E by auto. destruct (i - length (hobjs s)) as [|[|]] eqn:ED; cbn in E; try discriminate. injection E as <-. right. split; [lia|auto]. }
        intros i j x y NE E1 E2. destruct (CASES i x E1) as [[B1 F1]|[-> ->]]; destruct (CASES j y E2) as [[B2 F2]|[-> ->]].
        -- apply (I2 i j x y NE F1 F2).
        -- intros a Ia Ib. apply N' in Ib. destruct (I1 i x F1) as [_ [_ [C _]]]. specialize (C a Ia). lia.
        -- intros a Ia Ib. apply N' in Ia. destruct (I1 j y F2) as [_ [_ [C _]]]. specialize (C a Ib). lia.
        -- contradiction.
      * intros a Ia. specialize (I3 a Ia). lia.
      * auto.
      * intros i x a E Ia. destruct (Nat.lt_ge_cases i (length (hobjs s))) as [B|B].
        -- rewrite nth_error_app1 in E by auto. eapply I5; eauto.
        -- rewrite nth_error_app2 in E by auto. destruct (i - length (hobjs s)) as [|[|]]; cbn in E; try discriminate. injection E as <-.
           intros Il. apply N' in Ia. specialize (I3 a Il). lia.
    + unfold view. cbn [hheap hobjs hlists vdata vlists]. rewrite map_app, EO, EL. reflexivity.
  - split.
    + constructor; cbn [hheap hobjs hlists]; auto.
      * intros i x E. apply (OLD i x E).
      * intros a Ia. specialize (I3 a Ia). lia.
    + unfold view. cbn [hheap hobjs hlists]. rewrite EO, EL. reflexivity.
Qed.

Lemma args_spec : forall s items, inv s -> lists_exist (view s) items ->
  dmap (contents (hheap s)) (dmap (harg (hlists s)) items) = dmap (varg (vlists (view s))) items /\
  (forall k a, In (k, HList a) (dmap (harg (hlists s)) items) -> In a (hlists s)).
Proof.
  intros s items I H. split.
  - unfold dmap. rewrite map_map. apply map_ext_in. intros [k [c|v]] Ik; cbn; [|reflexivity]. f_equal. f_equal.
    change (@nil cell) with (read (hheap s) (length (hheap s))) || idtac. unfold view. cbn [vlists].
    assert (c < length (hlists s)) as B. { specialize (H k c Ik). unfold view in H. cbn [vlists] in H. rewrite map_length in H. exact H. }
    rewrite (nth_indep _ _ (read (hheap s) 0)) by (rewrite map_length; exact B). rewrite map_nth. reflexivity.
  - intros k a Ik. unfold dmap in Ik. apply in_map_iff in Ik. destruct Ik as [[k0 [c|v]] [E Ik]]; cbn in E; [|discriminate].
    injection E as <- <-. apply nth_In. specialize (H k0 c Ik). unfold view in H. cbn [vlists] in H. rewrite map_length in H. exact H.
Qed.

Lemma all_of_in : forall A (l : list A) js x, In x (all_of l js) -> exists i, nth_error l i = Some x.
Proof.
  intros A l js x I. unfold all_of in I. apply in_flat_map in I. destruct I as [i [_ I]]. exists i.
  destruct (nth_error l i); [destruct I as [->|[]]; reflexivity|destruct I].
Qed.
Lemma all_of_map : forall A B (f : A -> B) l js, all_of (map f l) js = map f (all_of l js).
Proof.
  intros A B f l js. induction js as [|j js IH]; [reflexivity|]. cbn. rewrite map_app. unfold all_of in IH. rewrite IH. f_equal.
  rewrite nth_error_map. destruct (nth_error l j); reflexivity.
Qed.

Lemma step_sim : forall fuel s c, inv s -> private (view s) c ->
  let (s', r) := hstep fuel s c in inv s' /\ vstep fuel (view s) c = (view s', r).
Proof.
  intros fuel s c I P. destruct c; cbn [hstep vstep private] in *.
  - apply hnew_sim; auto. split; [apply good_refl, new_ok|reflexivity].
  - destruct I as [I1 I2 I3 I4 I5]. split.
    + constructor; cbn [hheap hobjs hlists].
      * intros i o E. apply (good_alloc (hheap s) o [l] (I1 i o E)).
      * exact I2.
      * intros a Ia. rewrite app_length. cbn. apply in_app_or in Ia. destruct Ia as [Ia|[<-|[]]]; [specialize (I3 a Ia)|]; lia.
      * apply NoDup_app_single; auto. intros Ia. specialize (I3 _ Ia). lia.
      * intros i o a E Ia Il. apply in_app_or in Il. destruct Il as [Il|[<-|[]]]; [eapply I5; eauto|].
        destruct (I1 i o E) as [_ [_ [C _]]]. specialize (C _ Ia). lia.
    + unfold view. cbn [hheap hobjs hlists vdata vlists]. rewrite map_app. cbn [map]. rewrite read_new. f_equal. f_equal.
      * apply map_ext_in. intros o Io. apply In_nth_error in Io. destruct Io as [i E]. symmetry. apply seen_alloc. eauto.
      * f_equal. apply map_ext_in. intros a Ia. symmetry. apply read_old. auto.
  - destruct (nth_error (hlists s) c) as [a|] eqn:E.
    + destruct I as [I1 I2 I3 I4 I5]. assert (In a (hlists s)) as Ia by (eapply nth_error_In; eauto).
      assert (forall i o, nth_error (hobjs s) i = Some o -> seen (write (hheap s) a (read (hheap s) a ++ [v])) o = seen (hheap s) o) as SO.
      { intros i o Eo. apply seen_ext. intros b Ib. apply read_write_other. intros <-. eapply I5; eauto. }
      split.
      * constructor; cbn [hheap hobjs hlists]; auto.
        -- intros i o Eo. destruct (I1 i o Eo) as [A [B [C D]]]. split; auto. split; auto. split; auto. intros b Ib. rewrite write_length. auto.
        -- intros b Ib. rewrite write_length. auto.
      * unfold view. cbn [hheap hobjs hlists vdata vlists]. f_equal. f_equal.
        -- apply map_ext_in. intros o Io. apply In_nth_error in Io. destruct Io as [i Eo]. symmetry. eauto.
        -- assert (nth c (map (read (hheap s)) (hlists s)) [] = read (hheap s) a) as ->.
           { apply nth_error_nth. rewrite nth_error_map, E. reflexivity. }
           assert (forall (l : list nat) k, NoDup l -> nth_error l k = Some a ->
             put (map (read (hheap s)) l) k (read (hheap s) a ++ [v]) = map (read (write (hheap s) a (read (hheap s) a ++ [v]))) l) as PM.
           { intros l. induction l as [|b l IH]; intros [|k] ND Ek; cbn in *; try discriminate; inversion ND as [|? ? NI ND']; subst.
             - injection Ek as ->. rewrite read_write_same by auto. f_equal. apply map_ext_in. intros b Ib. symmetry. apply read_write_other. intros <-. contradiction.
             - rewrite read_write_other; [f_equal; auto|]. intros <-. apply NI. eapply nth_error_In; eauto. }
           apply PM; auto.
    + split; auto. unfold view. cbn [vdata vlists]. f_equal. f_equal.
      apply nth_error_None in E. rewrite <- (map_length (read (hheap s))) in E. revert E. generalize (map (read (hheap s)) (hlists s)). clear.
      intros l. generalize (nth c l [] ++ [v]). revert c. induction l as [|y l IH]; intros [|c] w E; cbn in *; auto; try lia. f_equal. apply IH. lia.
  - destruct P as [BC KEY]. destruct (nth_error (hlists s) c) as [a|] eqn:E.
    2:{ apply nth_error_None in E. unfold view in BC. cbn [vlists] in BC. rewrite map_length in BC. lia. }
    assert (nth c (vlists (view s)) [] = read (hheap s) a) as ->.
    { apply nth_error_nth. unfold view. cbn [vlists]. rewrite nth_error_map, E. reflexivity. }
    apply (hon_sim s i (fun h o => hextend h o key a) (fun d => extend d key (read (hheap s) a))); auto.
    intros o Eo. apply simk_sim, hextend_sim; [eapply inv_ok; eauto|]. rewrite <- (seen_keys (hheap s)). apply KEY.
    unfold view. cbn [vdata]. rewrite nth_error_map, Eo. reflexivity.
  - apply (hon_sim s i (fun h o => happend h o key v) (fun d => append d key v)); auto.
    intros o Eo. apply simk_sim, happend_sim. eapply inv_ok; eauto.
  - destruct (args_spec s items I P) as [EA IA]. rewrite <- EA.
    apply (hon_sim s i (fun h o => hupdate h o (dmap (harg (hlists s)) items) compress)
                       (fun d => update d (dmap (contents (hheap s)) (dmap (harg (hlists s)) items)) compress)); auto.
    intros o Eo. apply simk_sim, hupdate_sim; [eapply inv_ok; eauto|]. intros k a Ik. specialize (IA k a Ik).
    split; [apply (inv_lists _ I); auto|]. intros Ia. eapply (inv_away _ I); eauto.
  - change (vdata (view s)) with (map (seen (hheap s)) (hobjs s)). rewrite nth_error_map. destruct (nth_error (hobjs s) j) as [o'|] eqn:E; cbn [option_map]; [|auto].
    apply (hon_sim s i (fun h o => hupdate_data h o o') (fun d => update_data d (seen (hheap s) o'))); auto.
    intros o Eo. apply simk_sim. destruct (Nat.eq_dec i j) as [EIJ|NIJ].
    + rewrite EIJ in Eo. assert (o' = o) as -> by congruence. apply hupdate_self_sim; [eapply inv_ok; eauto|].
      cbn [private] in P. destruct P as [P|P]; [contradiction|]. apply P.
      change (vdata (view s)) with (map (seen (hheap s)) (hobjs s)). rewrite EIJ, nth_error_map, E. reflexivity.
    + apply hupdate_data_sim; [eapply inv_ok; eauto|eapply inv_ok; eauto|]. eapply (inv_apart _ I); [|exact E|exact Eo]. auto.
  - change empty_data with (seen (hheap s) new_obj). change (vdata (view s)) with (map (seen (hheap s)) (hobjs s)). rewrite all_of_map.
    apply hnew_sim; auto. apply simk_sim, hconcat_sim; [apply new_ok|]. rewrite Forall_forall. intros x Ix. apply all_of_in in Ix. destruct Ix as [k E].
    split; [eapply inv_ok; eauto|]. intros a _ [].
  - destruct (args_spec s items I P) as [EA IA]. rewrite <- EA. change empty_data with (seen (hheap s) new_obj).
    apply hnew_sim; auto. apply simk_sim, hupdate_sim; [apply new_ok|]. intros k a Ik. specialize (IA k a Ik).
    split; [apply (inv_lists _ I); auto|]. intros [].
  - change (vdata (view s)) with (map (seen (hheap s)) (hobjs s)). rewrite nth_error_map. destruct (nth_error (hobjs s) i) as [o|] eqn:E; cbn [option_map]; [|auto].
    apply hnew_sim; auto. apply hmask_sim. eapply inv_ok; eauto.
  - contradiction.
  - apply (hon_sim s i (fun h o => hfill h o len_ keys) (fun d => fill d len_ keys)); auto. intros o Eo. apply simk_sim, hfill_sim. eapply inv_ok; eauto.
  - apply (hon_sim s i (fun h o => (hdelete_rows h o idx, Ok tt)) (fun d => (delete_rows d idx, Ok tt))); auto. intros o Eo. apply hdelete_rows_sim. eapply inv_ok; eauto.
  - apply (hon_sim s i (fun h o => hdelete_col h o key) (fun d => delete_col d key)); auto. intros o Eo. apply hdelete_col_sim. eapply inv_ok; eauto.
  - apply (hon_sim s i (fun h o => hrename h o old_key new_key) (fun d => rename d old_key new_key)); auto. intros o Eo. apply hrename_sim. eapply inv_ok; eauto.
  - apply (hon_sim s i (fun h o => (h, hstrip_cols h o, Ok tt)) (fun d => (strip_cols d, Ok tt))); auto. intros o Eo. apply hstrip_cols_sim. eapply inv_ok; eauto.
  - apply (hon_sim s i (fun h o => hstrip_rows fuel h o) (fun d => strip_rows fuel d)); auto. intros o Eo. apply hstrip_rows_sim. eapply inv_ok; eauto.
Qed.

Lemma run_sim : forall fuel p s, inv s -> private_program fuel (view s) p ->
  let (s', r) := hrun fuel s p in inv s' /\ vrun fuel (view s) p = (view s', r).
Proof.
  intros fuel p. induction p as [|c p IH]; intros s I P; [cbn; auto|]. cbn [hrun vrun private_program] in *. destruct P as [P1 P2].
  pose proof (step_sim fuel s c I P1) as S. destruct (hstep fuel s c) as [s1 r1]. destruct S as [I1 E1]. rewrite E1 in *. cbn [fst] in P2.
  specialize (IH s1 I1 P2). destruct (hrun fuel s1 p) as [s2 rs]. destruct IH as [I2 E2]. rewrite E2. auto.
Qed.
