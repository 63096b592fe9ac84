(** * Properties of multi-sail diagrams (C29-C31) *)

From Coq Require Import String Ascii DecimalString.
From Coq Require Import List Bool Arith ZArith Reals Lra Lia.
From Verif Require Import Py Num WPointsModel InterpModel DataModel DataProofs4 TableModel TableSpec TableProps CsvModel CsvSpec CsvProps MultiModel.
Import ListNotations.
Open Scope string_scope.
Open Scope list_scope.
Open Scope nat_scope.

(* ------------------------------------------------------------------ *)
(** ** C29 *)

(** The call returns the largest of the values of the diagrams. *)
Theorem multi_call_best : forall D d_call (m : multi D) s a (value : D -> R),
  m_diagrams m <> [] ->
  (forall d, In d (m_diagrams m) -> d_call d s a = Ok (value d)) ->
  exists v, multi_call d_call m s a = Ok v /\
    (exists d, In d (m_diagrams m) /\ v = value d) /\
    forall d, In d (m_diagrams m) -> (value d <= v)%R.
Proof.
  intros D d_call m s a value NE V. unfold multi_call. rewrite (mapM_Ok_map _ _ _ value) by auto.
  destruct (m_diagrams m) as [|d0 l]; [contradiction|]. clear V NE. cbn [rbind py_max map]. eexists. split; [reflexivity|].
  assert (forall l b, let v := fold_left (fun b y => if nltb b y then y else b) (map value l) b in
    (v = b \/ exists d, In d l /\ v = value d) /\ (b <= v)%R /\ forall d, In d l -> (value d <= v)%R) as G.
  { clear. induction l as [|d l IH]; intros b; simpl.
    - split; auto. split; [lra|tauto].
    - rnum. destruct (Rltb_spec b (value d)) as [L|L].
      + destruct (IH (value d)) as [A [B C]]. split; [|split].
        * destruct A as [A|[e [I A]]]; right; [exists d|exists e]; auto.
        * eapply Rle_trans; [|apply B]. lra.
        * intros e [<-|I]; auto.
      + destruct (IH b) as [A [B C]]. split; [|split].
        * destruct A as [A|[e [I A]]]; auto. right. exists e. auto.
        * auto.
        * intros e [<-|I]; auto. eapply Rle_trans; [|apply B]. lra. }
  destruct (G l (value d0)) as [A [B C]]. split.
  - destruct A as [A|[d [I A]]]; [exists d0|exists d]; simpl; auto.
  - intros d [<-|I]; auto.
Qed.
Print Assumptions multi_call_best.

(** Without diagrams there is no best one; a diagram that raises makes the call raise. *)
Theorem multi_call_raises : forall D d_call (m : multi D) s a,
  (m_diagrams m = [] -> multi_call d_call m s a = Raise ValueError) /\
  (forall d e, In d (m_diagrams m) -> d_call d s a = Raise e -> exists e', multi_call d_call m s a = Raise e').
Proof.
  intros D d_call m s a. unfold multi_call. split.
  - intros ->. reflexivity.
  - intros d e I E. destruct (mapM (fun d => d_call d s a) (m_diagrams m)) as [vs|e'] eqn:EM; [|simpl; eauto].
    exfalso. apply In_nth_error in I. destruct I as [i I].
    destruct (mapM_nth _ _ _ _ _ EM i d I) as [y [_ H]]. congruence.
Qed.
Print Assumptions multi_call_raises.

Definition sail (i : nat) : string := ("Sail " ++ string_of_nat i)%string.

(** Every diagram gets a name: the given one if there is one, [Sail i] otherwise. *)
Theorem multi_names : forall D (pds : list D) sails,
  m_diagrams (multi_new pds sails) = pds /\
  length (m_sails (multi_new pds sails)) = length pds /\
  forall i, (i < length pds)%nat ->
    nth_error (m_sails (multi_new pds sails)) i =
      Some (match sails with
            | Some l => match nth_error l i with Some n => n | None => sail i end
            | None => sail i end).
Proof.
  intros D pds sails. split; [reflexivity|]. unfold multi_new. simpl.
  assert (forall a n i, (i < n)%nat -> nth_error (map sail_name (seq a n)) i = Some (sail (a + i))) as N.
  { intros a n i I. rewrite nth_error_map.
    assert (nth_error (seq a n) i = Some (a + i)) as ->; auto.
    rewrite nth_error_nth' with (d := 0%nat) by (rewrite seq_length; auto). rewrite seq_nth; auto. }
  destruct sails as [l|].
  - destruct (Nat.ltb_spec (length l) (length pds)) as [L|L].
    + split; [rewrite app_length, map_length, seq_length; lia|]. intros i I.
      destruct (Nat.ltb_spec i (length l)) as [J|J].
      * rewrite nth_error_app1 by auto. destruct (nth_error l i) eqn:E; auto. apply nth_error_None in E. lia.
      * rewrite nth_error_app2 by auto. rewrite N by lia.
        rewrite (proj2 (nth_error_None l i)) by auto. repeat f_equal. lia.
    + destruct (Nat.ltb_spec (length pds) (length l)) as [K|K].
      * split; [rewrite firstn_length; lia|]. intros i I.
        assert (nth_error l i <> None) as NN by (apply nth_error_Some; lia).
        rewrite <- (firstn_skipn (length pds) l) at 2. rewrite nth_error_app1 by (rewrite firstn_length; lia).
        destruct (nth_error (firstn (length pds) l) i) eqn:E; auto.
        apply nth_error_None in E. rewrite firstn_length in E. lia.
      * split; [lia|]. intros i I. destruct (nth_error l i) eqn:E; auto. apply nth_error_None in E. lia.
  - split; [rewrite map_length, seq_length; auto|]. intros i I. rewrite N by auto. reflexivity.
Qed.
Print Assumptions multi_names.

Example multi_names_case :
  m_sails (multi_new [1; 2; 3]%Z None) = ["Sail 0"; "Sail 1"; "Sail 2"] /\
  m_sails (multi_new [1; 2; 3]%Z (Some ["jib"])) = ["jib"; "Sail 1"; "Sail 2"] /\
  m_sails (multi_new [1]%Z (Some ["jib"; "genoa"])) = ["jib"].
Proof. repeat split; reflexivity. Qed.

(** Access by name gives the first diagram of that name. *)
Theorem multi_getitem_first : forall D (pds : list D) sails,
  let m := multi_new pds sails in
  (forall name i d, nth_error (m_sails m) i = Some name -> nth_error pds i = Some d ->
     (forall j, (j < i)%nat -> nth_error (m_sails m) j <> Some name) -> multi_getitem m name = Ok d) /\
  (forall name, ~ In name (m_sails m) -> multi_getitem m name = Raise ValueError).
Proof.
  intros D pds sails m. unfold multi_getitem. change (m_diagrams m) with pds. generalize (m_sails m). intros l.
  assert (forall name l k, match index_of name l k with
    | None => ~ In name l
    | Some i => exists j, i = k + j /\ nth_error l j = Some name /\ forall h, (h < j)%nat -> nth_error l h <> Some name
    end) as G.
  { intros name. clear. induction l as [|n l IH]; intros k; simpl; auto.
    destruct (String.eqb_spec n name) as [->|N].
    - exists 0. repeat split; auto. intros h H. lia.
    - specialize (IH (S k)). destruct (index_of name l (S k)) as [i|].
      + destruct IH as [j [-> [E F]]]. exists (S j). split; [lia|]. split; auto.
        intros [|h] H; simpl; [congruence|]. apply F. lia.
      + intros [H|H]; auto. }
  split.
  - intros name i d E1 E2 F. specialize (G name l 0). destruct (index_of name l 0) as [i'|].
    + destruct G as [j [-> [E F']]]. simpl. assert (j = i) as ->; [|rewrite E2; auto].
      destruct (Nat.lt_trichotomy j i) as [L|[L|L]]; auto; exfalso; [apply (F j L)|apply (F' i L)]; auto.
    + exfalso. apply G. eapply nth_error_In; eauto.
  - intros name NI. specialize (G name l 0). destruct (index_of name l 0) as [i'|]; auto.
    destruct G as [j [_ [E _]]]. exfalso. apply NI. eapply nth_error_In; eauto.
Qed.
Print Assumptions multi_getitem_first.

Example multi_getitem_case :
  multi_getitem (multi_new [10; 20; 30]%Z (Some ["a"; "b"; "b"])) "b" = Ok 20%Z /\
  multi_getitem (multi_new [10; 20; 30]%Z (Some ["a"; "b"; "b"])) "c" = Raise ValueError.
Proof. split; reflexivity. Qed.

Lemma multi_new_same : forall D (pds : list D) names, length names = length pds ->
  multi_new pds (Some names) = mkMulti names pds.
Proof. intros. unfold multi_new. rewrite H, Nat.ltb_irrefl. reflexivity. Qed.

(** Symmetrising symmetrises every diagram and keeps the names. *)
Theorem multi_symmetrize_all : forall D d_symmetrize (pds : list D) sails m',
  let m := multi_new pds sails in multi_symmetrize d_symmetrize m = Ok m' ->
  m_sails m' = m_sails m /\ Forall2 (fun d d' => d_symmetrize d = Ok d') (m_diagrams m) (m_diagrams m').
Proof.
  intros D ds pds sails m' m H. unfold multi_symmetrize in H.
  destruct (mapM ds (m_diagrams m)) as [l|] eqn:E; simpl in H; [|discriminate]. injection H as <-.
  assert (length (m_sails m) = length l) as L.
  { rewrite (mapM_length _ _ _ _ _ E). apply multi_names. }
  rewrite multi_new_same by auto. split; auto. simpl m_diagrams at 2.
  clear L. revert l E. induction (m_diagrams m) as [|d r IH]; simpl; intros l E.
  - injection E as <-. constructor.
  - destruct (ds d) eqn:Ed; simpl in E; [|discriminate]. destruct (mapM ds r) eqn:Er; simpl in E; [|discriminate].
    injection E as <-. constructor; auto.
Qed.
Print Assumptions multi_symmetrize_all.

(* ------------------------------------------------------------------ *)
(** ** C30 *)

Lemma Forall2_length : forall A B (P : A -> B -> Prop) l l', Forall2 P l l' -> length l = length l'.
Proof. induction 1; simpl; auto. Qed.

Lemma py_zip_nth : forall A n (ls : list (list A)), (forall l, In l ls -> length l = n) ->
  length (zip_all n ls) = n /\
  forall i, (i < n)%nat -> exists coll, nth_error (zip_all n ls) i = Some coll /\
    Forall2 (fun l x => nth_error l i = Some x) ls coll.
Proof.
  induction n as [|n IH]; intros ls L; simpl.
  - split; auto. intros. lia.
  - assert (forallb (fun l : list A => match l with [] => false | _ => true end) ls = true) as ->.
    { apply forallb_forall. intros l H. apply L in H. destruct l; auto. discriminate. }
    destruct (IH (map (@tl A) ls)) as [L1 N].
    { intros l H. apply in_map_iff in H. destruct H as [l' [<- H]]. apply L in H. destruct l'; simpl in *; lia. }
    split; [simpl; auto|]. intros [|i] I.
    + eexists. split; [reflexivity|]. clear IH N L1. induction ls as [|l r IHl]; simpl; [constructor|].
      assert (length l = S n) as E by (apply L; left; auto). destruct l as [|x l]; [discriminate|]. simpl.
      constructor; auto. apply IHl. intros; apply L; right; auto.
    + simpl. destruct (N i) as [coll [E F]]; [lia|]. exists coll. split; auto.
      clear - L F. revert coll F. induction ls as [|l r IHl]; simpl; intros coll F; inversion F; subst; constructor.
      * assert (length l = S n) as E by (apply L; left; auto). destruct l; [discriminate|]. auto.
      * apply IHl; auto. intros; apply L; right; auto.
Qed.

Lemma tagged_concat : forall A (names : list string) (coll : list (list A)), length names = length coll ->
  let tagged := flat_map (fun ns => map (pair (fst ns)) (snd ns)) (combine names coll) in
  List.concat coll = map snd tagged /\
  flat_map (fun ns => map (fun _ => fst ns) (snd ns)) (combine names coll) = map fst tagged /\
  forall n p, In (n, p) tagged <-> exists k cols, nth_error names k = Some n /\ nth_error coll k = Some cols /\ In p cols.
Proof.
  induction names as [|n names IH]; intros [|c coll] L; simpl in *; try discriminate.
  - split; auto. split; auto. intros n p. split; [tauto|]. intros [[|k] [cols [H _]]]; discriminate.
  - destruct (IH coll) as [A1 [A2 A3]]; [lia|]. rewrite !map_app, <- A1, <- A2, !map_map. simpl.
    rewrite map_id. split; auto. split; auto. intros n0 p. rewrite in_app_iff, A3, in_map_iff. split.
    + intros [[x [E I]]|[k [cols [E1 [E2 I]]]]].
      * injection E as <- <-. exists 0, c. auto.
      * exists (S k), cols. auto.
    + intros [[|k] [cols [E1 [E2 I]]]]; simpl in *.
      * injection E1 as <-. injection E2 as <-. eauto.
      * right. eauto.
Qed.

Theorem slice_info_names : forall D d_slices (pds : list D) sails ws slices,
  let m := multi_new pds sails in
  pds <> [] ->
  (forall d sl, In d pds -> d_slices d ws = Ok sl -> length sl = length ws) ->
  multi_slices d_slices m ws = Ok slices ->
  exists infos, multi_slice_info d_slices m ws = Ok infos /\
    length slices = length ws /\ length infos = length ws /\
    forall i slice info, nth_error slices i = Some slice -> nth_error infos i = Some info ->
      length info = length slice /\
      (forall j p name, nth_error slice j = Some p -> nth_error info j = Some name ->
         exists k d sl cols, nth_error (m_sails m) k = Some name /\ nth_error pds k = Some d /\
           d_slices d ws = Ok sl /\ nth_error sl i = Some cols /\ In p cols) /\
      (forall k d name sl cols p, nth_error pds k = Some d -> nth_error (m_sails m) k = Some name ->
         d_slices d ws = Ok sl -> nth_error sl i = Some cols -> In p cols ->
         exists j, nth_error slice j = Some p /\ nth_error info j = Some name).
Proof.
  intros D d_slices pds sails ws slices m NE LEN E. unfold multi_slices, multi_slice_info in *.
  change (m_diagrams m) with pds in *.
  assert (length (m_sails m) = length pds) as LN by apply multi_names.
  generalize dependent (m_sails m). intros names LN. clear m.
  destruct (mapM (fun d => d_slices d ws) pds) as [all|] eqn:EM; simpl in E; [|discriminate]. injection E as <-.
  cbn [rbind]. eexists. split; [reflexivity|].
  assert (length all = length pds) as LA by (eapply mapM_length; eauto).
  assert (forall l, In l all -> length l = length ws) as L.
  { intros l I. apply In_nth_error in I. destruct I as [k K].
    destruct (nth_error pds k) as [d|] eqn:Ed.
    - destruct (mapM_nth _ _ _ _ _ EM k d Ed) as [y [E1 E2]]. rewrite K in E1. injection E1 as <-.
      eapply LEN; eauto. eapply nth_error_In; eauto.
    - apply nth_error_None in Ed. assert (k < length all)%nat by (apply nth_error_Some; congruence). lia. }
  assert (py_zip all = zip_all (length ws) all) as EZ.
  { destruct all as [|l r] eqn:EA; [destruct pds; [contradiction|discriminate]|]. simpl py_zip.
    rewrite (L l) by (left; auto). auto. }
  rewrite EZ. destruct (py_zip_nth _ (length ws) all L) as [LZ NZ].
  split; [rewrite map_length; auto|]. split; [rewrite map_length; auto|].
  intros i slice info H1 H2. rewrite nth_error_map in H1, H2.
  assert (i < length ws)%nat as I.
  { rewrite <- LZ. apply nth_error_Some. destruct (nth_error (zip_all (length ws) all) i); [discriminate|discriminate]. }
  destruct (NZ i I) as [coll [EC F]]. rewrite EC in H1, H2. cbn [option_map] in H1, H2. injection H1 as <-. injection H2 as <-.
  assert (length names = length coll) as LS.
  { rewrite <- (Forall2_length _ _ _ _ _ F), LA. exact LN. }
  destruct (tagged_concat _ names coll LS) as [-> [-> TAG]].
  assert (forall k cols, nth_error coll k = Some cols <->
            exists d sl, nth_error pds k = Some d /\ d_slices d ws = Ok sl /\ nth_error sl i = Some cols) as COLL.
  { assert (forall k l, nth_error all k = Some l -> exists x, nth_error coll k = Some x /\ nth_error l i = Some x) as FN.
    { clear - F. induction F as [|l0 x0 r xs H F IH]; intros [|k] l E; simpl in *; try discriminate; eauto.
      injection E as <-. eauto. }
    intros k cols. split.
    - intros Ek. destruct (nth_error pds k) as [d|] eqn:Ed.
      + destruct (mapM_nth _ _ _ _ _ EM k d Ed) as [y [E1 E2]]. exists d, y.
        destruct (FN k y E1) as [x [X1 X2]]. repeat split; auto. congruence.
      + apply nth_error_None in Ed. assert (k < length coll)%nat by (apply nth_error_Some; congruence).
        rewrite <- (Forall2_length _ _ _ _ _ F) in H. lia.
    - intros [d [sl [Ed [Es Ec]]]]. destruct (mapM_nth _ _ _ _ _ EM k d Ed) as [y [E1 E2]].
      destruct (FN k y E1) as [x [X1 X2]]. congruence. }
  split; [rewrite !map_length; auto|]. set (tagged := flat_map _ _) in *. split.
  - intros j p name J1 J2. rewrite nth_error_map in J1, J2.
    destruct (nth_error tagged j) as [[n q]|] eqn:EJ; [|discriminate]. simpl in J1, J2.
    injection J1 as ->. injection J2 as ->. apply nth_error_In in EJ. apply TAG in EJ.
    destruct EJ as [k [cols [K1 [K2 K3]]]]. apply COLL in K2. destruct K2 as [d [sl [D1 [D2 D3]]]].
    exists k, d, sl, cols. auto.
  - intros k d name sl cols p Ed En Es Ec Ip.
    assert (In (name, p) tagged) as T.
    { apply TAG. exists k, cols. split; auto. split; auto. apply COLL. eauto. }
    apply In_nth_error in T. destruct T as [j J]. exists j. rewrite !nth_error_map, J. auto.
Qed.
Print Assumptions slice_info_names.

Example slice_info_case :
  let d_slices := fun (d : R) (ws : list R) => Ok (map (fun s => [(s, 90%R, d); (s, 120%R, d)]) ws) in
  let m := multi_new [1; 2]%R (Some ["jib"; "genoa"]) in
  multi_slices d_slices m [6; 8]%R =
    Ok [[(6, 90, 1); (6, 120, 1); (6, 90, 2); (6, 120, 2)]; [(8, 90, 1); (8, 120, 1); (8, 90, 2); (8, 120, 2)]]%R /\
  multi_slice_info d_slices m [6; 8]%R =
    Ok [["jib"; "jib"; "genoa"; "genoa"]; ["jib"; "jib"; "genoa"; "genoa"]].
Proof. split; reflexivity. Qed.

(* ------------------------------------------------------------------ *)
(** ** C31 *)

Fixpoint has_char (c : ascii) (s : string) : Prop :=
  match s with EmptyString => False | String d r => d = c \/ has_char c r end.

Lemma has_char_app : forall c a b, has_char c (a ++ b)%string <-> has_char c a \/ has_char c b.
Proof. induction a as [|d a IH]; intros b; simpl; [tauto|]. rewrite IH. tauto. Qed.

Lemma digits_no_underscore : forall d, ~ has_char "_" (NilEmpty.string_of_uint d).
Proof. induction d; simpl; auto; intros [H|H]; auto; discriminate. Qed.

Lemma split_at_underscore : forall a b d1 d2,
  ~ has_char "_" d1 -> ~ has_char "_" d2 -> (a ++ "_" ++ d1 = b ++ "_" ++ d2)%string -> a = b /\ d1 = d2.
Proof.
  induction a as [|x a IH]; intros [|y b] d1 d2 N1 N2 H; simpl in *.
  - injection H as <-. auto.
  - exfalso. injection H as _ ->. apply N1. apply has_char_app. right. simpl. auto.
  - exfalso. injection H as _ <-. apply N2. apply has_char_app. right. simpl. auto.
  - injection H as -> H. destruct (IH b d1 d2 N1 N2 H) as [-> ->]. auto.
Qed.

Lemma sapp_assoc : forall a b c : string, ((a ++ b) ++ c = a ++ (b ++ c))%string.
Proof. induction a; simpl; intros; f_equal; auto. Qed.

(** The names of the sub-files determine the stem and the number. *)
Lemma sub_csv_path_inj : forall p q i j, sub_csv_path p i = sub_csv_path q j -> before_dot p = before_dot q /\ i = j.
Proof.
  intros p q i j H. unfold sub_csv_path in H.
  rewrite <- !sapp_assoc in H. apply sappend_inj_r in H.
  change "_sail_"%string with ("_sail" ++ "_")%string in H. rewrite <- !sapp_assoc in H.
  rewrite (sapp_assoc (before_dot p ++ "_sail")), (sapp_assoc (before_dot q ++ "_sail")) in H.
  apply split_at_underscore in H; try apply digits_no_underscore. destruct H as [H1 H2].
  apply sappend_inj_r in H1. apply string_of_nat_inj in H2. auto.
Qed.

Lemma before_dot_rest : forall p, exists r, p = (before_dot p ++ r)%string /\ forall c s, r = String c s -> c = "."%char.
Proof.
  induction p as [|c p [r [E F]]]; simpl.
  - exists ""%string. split; auto. discriminate.
  - destruct (Ascii.eqb_spec c ".") as [->|N].
    + exists (String "." p). split; auto. intros c s H. injection H; auto.
    + exists r. split; auto. simpl. f_equal. auto.
Qed.

Lemma sub_not_main : forall p i, sub_csv_path p i <> p.
Proof.
  intros p i H. destruct (before_dot_rest p) as [r [E F]]. rewrite E in H at 2.
  unfold sub_csv_path in H. apply sappend_inj_l in H. simpl in H. symmetry in H. apply F in H. discriminate.
Qed.

Lemma write_subs_other : forall D d_rows path (l : list D) fs i q,
  (forall j, (i <= j < i + length l)%nat -> q <> sub_csv_path path j) -> write_subs d_rows fs path i l q = fs q.
Proof.
  induction l as [|d l IH]; intros fs i q H; simpl; auto. rewrite IH.
  - unfold write_file. destruct (String.eqb_spec q (sub_csv_path path i)) as [E|N]; auto.
    exfalso. apply (H i); simpl; auto. lia.
  - intros j J. apply H. simpl. lia.
Qed.

Lemma write_subs_nth : forall D d_rows path (l : list D) fs i k d, nth_error l k = Some d ->
  write_subs d_rows fs path i l (sub_csv_path path (i + k)) = Some (d_rows d).
Proof.
  induction l as [|d0 l IH]; intros fs i k d H; [destruct k; discriminate|]. destruct k as [|k]; simpl in *.
  - injection H as ->. rewrite write_subs_other.
    + unfold write_file. rewrite Nat.add_0_r, String.eqb_refl. auto.
    + intros j J E. apply sub_csv_path_inj in E. lia.
  - replace (i + S k) with (S i + k) by lia. apply IH. auto.
Qed.

(** Reading works whenever the files written for the diagram are still there. *)
Lemma multi_read_frame : forall D d_rows d_read (pds : list D) sails path fs fs',
  let m := multi_new pds sails in
  (forall d, In d pds -> d_read (d_rows d) = Ok d) ->
  fs' path = multi_to_csv d_rows fs path m path ->
  (forall i, (i < length pds)%nat -> fs' (sub_csv_path path i) = multi_to_csv d_rows fs path m (sub_csv_path path i)) ->
  multi_from_csv d_read fs' path = Ok m.
Proof.
  intros D d_rows d_read pds sails path fs fs' m RD EP ES.
  assert (length (m_sails m) = length pds) as LS by apply multi_names.
  unfold multi_from_csv. rewrite EP. unfold multi_to_csv. rewrite write_subs_other.
  2:{ intros j _ E. symmetry in E. apply sub_not_main in E. auto. }
  unfold write_file. rewrite String.eqb_refl. simpl String.eqb. cbn [next_row rbind tl]. rewrite LS.
  assert (mapM (fun i => read_file d_read fs' (sub_csv_path path i)) (seq 0 (length pds)) = Ok pds) as ->.
  - assert (forall k, (k <= length pds)%nat ->
      mapM (fun i => read_file d_read fs' (sub_csv_path path i)) (seq (length pds - k) k) = Ok (skipn (length pds - k) pds)) as G.
    { induction k as [|k IH]; intros K.
      - rewrite Nat.sub_0_r, skipn_all. reflexivity.
      - cbn [seq mapM]. unfold read_file at 1. rewrite ES by lia. unfold multi_to_csv.
        destruct (nth_error pds (length pds - S k)) as [d|] eqn:Ed; [|apply nth_error_None in Ed; lia].
        assert (W := write_subs_nth _ d_rows path pds (write_file fs path [["PolarDiagramMultiSails"]; "Sails" :: m_sails m])
                       0 (length pds - S k) d Ed). rewrite Nat.add_0_l in W. change (m_diagrams m) with pds. rewrite W.
        rewrite RD by (eapply nth_error_In; eauto). cbn [rbind].
        replace (S (length pds - S k)) with (length pds - k) by lia. rewrite IH by lia. cbn [rbind]. f_equal.
        clear - Ed K. replace (length pds - k) with (S (length pds - S k)) by lia.
        revert Ed. generalize (length pds - S k). intros n. revert pds K. intros pds _. revert n.
        induction pds as [|x r IH]; intros [|n] H; simpl in *; try discriminate.
        + injection H as ->. reflexivity.
        + rewrite <- IH; auto. }
    specialize (G (length pds) (le_n _)). rewrite Nat.sub_diag in G. exact G.
  - cbn [rbind]. rewrite multi_new_same by auto. reflexivity.
Qed.

(** Reading directly after writing gives the diagram back with the same sails. *)
Theorem multi_csv_round_trip : forall D d_rows d_read (pds : list D) sails path fs,
  let m := multi_new pds sails in
  (forall d, In d pds -> d_read (d_rows d) = Ok d) ->
  multi_from_csv d_read (multi_to_csv d_rows fs path m) path = Ok m.
Proof. intros. eapply multi_read_frame; eauto. Qed.
Print Assumptions multi_csv_round_trip.

Example multi_csv_case :
  let d_rows := fun z : nat => [["nat"]; [string_of_nat z]] in
  let d_read := fun rows => match rows with [_; ["4"]] => Ok 4 | [_; ["7"]] => Ok 7 | _ => Raise ValueError end in
  let fs := multi_to_csv d_rows (fun _ => None) "boats/x.csv" (multi_new [4; 7] (Some ["jib"])) in
  fs "boats/x.csv" = Some [["PolarDiagramMultiSails"]; ["Sails"; "jib"; "Sail 1"]] /\
  fs "boats/x_sail_1.csv" = Some [["nat"]; ["7"]] /\
  multi_from_csv d_read fs "boats/x.csv" = Ok (mkMulti ["jib"; "Sail 1"] [4; 7]).
Proof. repeat split; reflexivity. Qed.

(** Writes that may follow. *)
Inductive write_op (D : Type) :=
| WFile (path : string) (rows : list (list string))
| WMulti (path : string) (m : multi D).
Arguments WFile {D}.
Arguments WMulti {D}.

Definition run_write {D} (d_rows : D -> list (list string)) (fs : files) (w : write_op D) : files :=
  match w with
  | WFile p rows => write_file fs p rows
  | WMulti p m => multi_to_csv d_rows fs p m
  end.

(** The paths named by the user keep away from the files of the diagram at [path]:
    other paths, that are no sub-files of it, and do not have it as a sub-file. *)
Definition away {D} (path : string) (w : write_op D) : Prop :=
  match w with
  | WFile p _ => p <> path /\ forall i, p <> sub_csv_path path i
  | WMulti p _ => p <> path /\ (forall i, p <> sub_csv_path path i) /\ (forall i, path <> sub_csv_path p i) /\
      before_dot p <> before_dot path
  end.

(** Partial: the later paths have a different part before their first dot. *)
Theorem multi_csv_history_partial : forall D d_rows d_read (pds : list D) sails path fs ops,
  let m := multi_new pds sails in
  (forall d, In d pds -> d_read (d_rows d) = Ok d) ->
  (forall w, In w ops -> away path w) ->
  multi_from_csv d_read (fold_left (run_write d_rows) ops (multi_to_csv d_rows fs path m)) path = Ok m.
Proof.
  intros D d_rows d_read pds sails path fs ops m RD AW.
  assert (forall ops fs0, (forall w, In w ops -> away path w) ->
    forall q, q = path \/ (exists i, q = sub_csv_path path i) ->
      fold_left (run_write d_rows) ops fs0 q = fs0 q) as FR.
  { clear. induction ops as [|w ops IH]; intros fs0 AW q Q; simpl; auto.
    rewrite IH; auto. 2:{ intros; apply AW; right; auto. }
    specialize (AW w (or_introl eq_refl)). destruct w as [p rows|p m2]; simpl in AW |- *.
    - unfold write_file. destruct AW as [A1 A2]. destruct (String.eqb_spec q p) as [->|]; auto.
      exfalso. destruct Q as [Q|[i Q]]; [auto|]. apply (A2 i); auto.
    - destruct AW as [A1 [A2 [A3 A4]]]. unfold multi_to_csv. rewrite write_subs_other.
      + unfold write_file. destruct (String.eqb_spec q p) as [->|]; auto.
        exfalso. destruct Q as [Q|[i Q]]; [auto|]. apply (A2 i); auto.
      + intros j _ E. destruct Q as [->|[i ->]]; [apply (A3 j); auto|].
        apply sub_csv_path_inj in E. destruct E as [E _]. auto. }
  apply (multi_read_frame _ d_rows d_read pds sails path fs); auto.
  intros i _. apply FR; eauto.
Qed.
Print Assumptions multi_csv_history_partial.

Example multi_csv_history_case : forall m : multi nat,
  away "boats/x.csv" (WMulti "boats/y.csv" m) /\ away (D := nat) "boats/x.csv" (WFile "boats/z.csv" []).
Proof.
  intros m. simpl. repeat split; try discriminate.
Qed.

(** Two diagrams written to different paths with the same part before the first dot
    (all paths starting with "./") share their sub-files: the first one is read back
    with the sails of the second one. *)
Theorem multi_csv_overwritten_refuted : exists p1 p2, p1 <> p2 /\
  forall D d_rows d_read fs (d1 d2 : D), d_read (d_rows d1) = Ok d1 -> d_read (d_rows d2) = Ok d2 -> d1 <> d2 ->
    let m1 := multi_new [d1] None in let m2 := multi_new [d2] None in
    exists m, multi_from_csv d_read (multi_to_csv d_rows (multi_to_csv d_rows fs p1 m1) p2 m2) p1 = Ok m /\
      m_diagrams m = [d2] /\ m <> m1.
Proof.
  exists "./spring.csv"%string, "./summer.csv"%string. split; [discriminate|].
  intros D d_rows d_read fs d1 d2 R1 R2 N m1 m2.
  exists (mkMulti ["Sail 0"] [d2]). split; [|split; [reflexivity|]].
  - unfold multi_from_csv, multi_to_csv, m1, m2, multi_new. simpl.
    unfold write_file. simpl. unfold read_file. simpl. rewrite R2. reflexivity.
  - intros E. apply N. injection E. auto.
Qed.
Print Assumptions multi_csv_overwritten_refuted.

(* ------------------------------------------------------------------ *)
(** ** The same for tables *)

(** [from_csv] for a table written in the format of this library. *)
Definition read_table (lit : string -> result R) (rows : list (list string)) : result (table R) :=
  match rows with
  | ["PolarDiagramTable"] :: rest => table_from_hro lit rest
  | _ => Raise FileReadingException
  end.

Theorem multi_tables_round_trip : forall show lit tofloat (pds : list (table R)) sails path fs,
  (forall t, In t pds -> table_ok t /\ t_ws t <> [] /\ t_wa t <> [] /\
     t = mkTable (t_ws t) (t_wa t) (t_bs t) false /\
     forall x, in_table t x -> readable show lit tofloat x) ->
  multi_from_csv (read_table lit) (multi_to_csv (table_to_csv show Hro) fs path (multi_new pds sails)) path =
    Ok (multi_new pds sails).
Proof.
  intros show lit tofloat pds sails path fs H. apply multi_csv_round_trip. intros t I.
  destruct (H t I) as [H1 [H2 [H3 [H4 H5]]]].
  destruct (table_hro_round_trip show lit tofloat t H1 H2 H3 H5) as [rows [-> E]].
  simpl. rewrite E. f_equal. auto.
Qed.
Print Assumptions multi_tables_round_trip.

Theorem multi_tables_slice_info : forall nhood interp pyscalar (pds : list (table R)) sails ws slices,
  pds <> [] -> let m := multi_new pds sails in
  let d_slices := fun t ws => ws_to_slices nhood interp t pyscalar ws in
  multi_slices d_slices m ws = Ok slices ->
  exists infos, multi_slice_info d_slices m ws = Ok infos /\ length infos = length ws /\
    forall i slice info, nth_error slices i = Some slice -> nth_error infos i = Some info ->
      length info = length slice /\
     forall j p name, nth_error slice j = Some p -> nth_error info j = Some name ->
        exists k t sl cols, nth_error (m_sails m) k = Some name /\ nth_error pds k = Some t /\
     d_slices t ws = Ok sl /\ nth_error sl i = Some cols /\ In p cols.
Proof.
  intros nhood interp py pds sails ws slices NE m d_slices E.
  destruct (slice_info_names _ d_slices pds sails ws slices NE) as [infos [E1 [E2 [E3 F]]]]; auto.
  - intros d sl _ H. eapply table_slices_order; eauto.
  - exists infos. split; auto. split; auto. intros i slice info H1 H2.
    destruct (F i slice info H1 H2) as [F1 [F2 _]]. auto.
Qed.
Print Assumptions multi_tables_slice_info.

Example multi_tables_case :
  let t := mkTable [6; 8]%R [2; 5]%R [[3; 4]; [5; 6]]%R false in
  let m := multi_new [t; t] (Some ["jib"]) in
  multi_from_csv (read_table ex_lit) (multi_to_csv (table_to_csv ex_show Hro) (fun _ => None) "x.csv" m) "x.csv" = Ok m.
Proof.
  intros t m. apply (multi_tables_round_trip ex_show ex_lit ex_read). intros t0 I.
  assert (t0 = t) as -> by (destruct I as [<-|[<-|[]]]; auto).
  split; [|split; [discriminate|split; [discriminate|split; [reflexivity|]]]].
  - unfold table_ok, t. simpl. split; [repeat constructor; lra|]. split; [repeat constructor; lra|].
    split; [rlist|]. split; [rlist|]. split; [reflexivity|rlist].
  - intros x H. unfold in_table, t in H. simpl in H.
    assert (x = 6 \/ x = 8 \/ x = 2 \/ x = 5 \/ x = 3 \/ x = 4)%R as C.
    { destruct H as [H|[H|[r [[<-|[<-|[]]] H]]]]; simpl in H; intuition auto. }
    destruct C as [C|[C|[C|[C|[C|C]]]]]; rewrite C; clear.
    + apply (ex_readable 6). lia.
    + apply (ex_readable 8). lia.
    + apply (ex_readable 2). lia.
    + apply (ex_readable 5). lia.
    + apply (ex_readable 3). lia.
    + apply (ex_readable 4). lia.
Qed.
