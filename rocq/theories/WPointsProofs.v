(** * Proofs about [WeightedPoints] *)

From Coq Require Import String.
From Coq Require Import List Bool Arith ZArith Lia.
From Verif Require Import Py Dict DataModel DataSpec DataProofs DataProofs2 DataProofs3 WPointsModel WPointsSpec.
Import ListNotations.
Open Scope list_scope.
Open Scope nat_scope.

Lemma np_mask_ok : forall X (l : list X) m, length l = length m -> np_mask l m = Ok (keep m l).
Proof.
  intros. unfold np_mask. rewrite H, Nat.eqb_refl. unfold keep. rewrite mask_list_combine. reflexivity.
Qed.

Lemma keep_length : forall X (l : list X) m, length l = length m -> length (keep m l) = count_true m.
Proof. intros. unfold keep. rewrite <- mask_list_combine. apply mask_list_length; auto. Qed.

Lemma wp_mask_ok : forall A V W (p : wpoints A V W) n m, aligned p n -> length m = n ->
  (forall d, wdata p = PData d -> cols d <> []) ->
  exists q, wp_mask p m = Ok q /\ selected p m q /\ aligned q (count_true m).
Proof.
  intros A V W [[r|d|d] w] n m [HP HW] HM HD; simpl in *.
  - exists (mkWP (PArr (keep m r)) (keep m w)). unfold wp_mask. simpl.
    rewrite !np_mask_ok by congruence. simpl. repeat split; simpl; auto; apply keep_length; congruence.
  - destruct HP as [ND HL]. exists (mkWP (PDict (dmap (keep m) d)) (keep m w)). unfold wp_mask. simpl.
    assert (mapM (fun kv : string * list V => do v <- np_mask (snd kv) m; Ok (fst kv, v)) d =
            Ok (dmap (keep m) d)) as ->.
    { unfold dmap. apply mapM_Ok_map. intros [k v] H. simpl. rewrite np_mask_ok; [reflexivity|].
      rewrite (HL k v); auto. apply NoDup_dget; auto. }
    simpl. rewrite np_mask_ok by congruence. simpl. split; auto. split; [split|split]; simpl.
    + reflexivity.
    + rewrite dmap_keys. split; auto. intros k v H. rewrite dget_dmap, H. reflexivity.
    + rewrite dmap_keys. split; auto. intros k v H. rewrite dget_dmap in H.
      destruct (dget k d) as [v0|] eqn:E; simpl in H; [|discriminate]. inversion H; subst.
      apply keep_length. rewrite (HL _ _ E). congruence.
    + apply keep_length; congruence.
  - destruct HP as [HWf _]. pose proof (HD d eq_refl) as HC.
    destruct (mask_rows_ok d n m HWf HM HC) as [W1 [K1 C1]].
    exists (mkWP (PData (mask_rows d m)) (keep m w)). unfold wp_mask. simpl.
    rewrite np_mask_ok by congruence. simpl. split; auto. split; [split|split]; simpl.
    + reflexivity.
    + split; auto.
    + split; auto. left. unfold mask_rows. simpl. unfold dmap. destruct (cols d); [contradiction|discriminate].
    + apply keep_length; congruence.
Qed.

Lemma wp_mask_wrong_length : forall A V W (p : wpoints A V W) n m, aligned p n -> length m <> n ->
  wp_mask p m = Raise IndexError.
Proof.
  intros A V W [[r|d|d] w] n m [HP HW] HM; simpl in *; unfold wp_mask; simpl.
  - unfold np_mask at 1. destruct (Nat.eqb_spec (length r) (length m)); [congruence|reflexivity].
  - assert (np_mask w m = Raise IndexError) as Hw.
    { unfold np_mask. destruct (Nat.eqb_spec (length w) (length m)); [congruence|reflexivity]. }
    destruct HP as [ND HL]. destruct d as [|[k v] d].
    + simpl. rewrite Hw. reflexivity.
    + simpl. assert (np_mask v m = Raise IndexError) as ->; [|reflexivity].
      unfold np_mask. destruct (Nat.eqb_spec (length v) (length m)); auto.
      exfalso. apply HM. rewrite <- e. apply (HL k). simpl. rewrite String.eqb_refl. reflexivity.
  - unfold np_mask. destruct (Nat.eqb_spec (length w) (length m)); [congruence|reflexivity].
Qed.

Lemma join_dict_get : forall V (d e : dict (list V)) k, NoDup (dkeys d) ->
  dget k (flat_map (fun kv => match dget (fst kv) e with
                              | Some v => [(fst kv, snd kv ++ v)]
                              | None => []
                              end) d) =
  match dget k d, dget k e with
  | Some v, Some w => Some (v ++ w)
  | _, _ => None
  end.
Proof.
  induction d as [|[k0 v0] d IH]; intros e k ND; simpl; auto. inversion ND; subst.
  rewrite dget_app, IH by auto. destruct (String.eqb_spec k0 k) as [->|Hn].
  - destruct (dget k e) as [w|]; simpl.
    + rewrite String.eqb_refl. reflexivity.
    + destruct (dget k d); reflexivity.
  - destruct (dget k0 e) as [w|]; simpl; auto.
    destruct (String.eqb_spec k0 k); [contradiction|reflexivity].
Qed.

Lemma join_dict_nodup : forall V (d e : dict (list V)), NoDup (dkeys d) ->
  NoDup (dkeys (flat_map (fun kv => match dget (fst kv) e with
                              | Some v => [(fst kv, snd kv ++ v)]
                              | None => []
                              end) d)).
Proof.
  intros V d e ND.
  assert (dkeys (flat_map (fun kv => match dget (fst kv) e with
                              | Some v => [(fst kv, snd kv ++ v)]
                              | None => []
                              end) d) = filter (fun k => dmem k e) (dkeys d)) as ->.
  { clear ND. induction d as [|[k v] d IH]; simpl; auto. unfold dmem at 1.
    destruct (dget k e); simpl; rewrite IH; auto. }
  apply NoDup_filter; auto.
Qed.

Lemma wp_extend_ok : forall A V W (p q : wpoints A V W) n m,
  aligned p n -> aligned q m -> same_kind (wdata p) (wdata q) ->
  exists r, wp_extend p q = Ok r /\ joined p n q m r /\ aligned r (n + m).
Proof.
  intros A V W [[a|d|d] w] [[b|e|e] x] n m [HP HW] [HQ HX] HK; simpl in *; try contradiction;
    unfold wp_extend; simpl.
  - eexists. split; [reflexivity|]. split; [split; reflexivity|]. split; simpl.
    + rewrite app_length. lia.
    + rewrite app_length. lia.
  - destruct HP as [N1 L1], HQ as [N2 L2].
    eexists. split; [reflexivity|]. split; [split; [reflexivity|]|split]; simpl.
    + split.
      * intros k. rewrite dget_In_key, join_dict_get by auto. rewrite !dget_In_key. split.
        -- intros [v H]. destruct (dget k d), (dget k e); try discriminate; split; eauto.
        -- intros [[v Hv] [u Hu]]. rewrite Hv, Hu. eauto.
      * intros k v u Hv Hu. rewrite join_dict_get by auto. rewrite Hv, Hu. reflexivity.
    + split; [apply join_dict_nodup; auto|]. intros k v H. rewrite join_dict_get in H by auto.
      destruct (dget k d) eqn:E1; [|discriminate]. destruct (dget k e) eqn:E2; [|discriminate].
      inversion H; subst. rewrite app_length, (L1 _ _ E1), (L2 _ _ E2). reflexivity.
    + rewrite app_length. lia.
  - destruct HP as [W1 C1], HQ as [W2 C2].
    destruct (concatenate_ok [(d, n); (e, m)]) as [c [E [Wc [Kc Cc]]]].
    { intros dn [<-|[<-|[]]]; simpl; auto. }
    { intros k. simpl. rewrite app_nil_r. apply HK; auto. }
    simpl in E. rewrite E. simpl. eexists. split; [reflexivity|].
    unfold total_rows in Wc. simpl in Wc. rewrite Nat.add_0_r in Wc.
    split; [split; [reflexivity|]|split]; simpl.
    + split.
      * intros k. rewrite Kc. split.
        -- intros [dn [[<-|[<-|[]]] H]]; auto.
        -- intros [H|H]; [exists (d, n)|exists (e, m)]; simpl; auto.
      * intros k Hk. rewrite Cc by auto. simpl. rewrite app_nil_r. reflexivity.
    + split; auto. destruct C1 as [C1|C1], C2 as [C2|C2].
      * left. intros Hc. destruct (cols d) as [|[k v] cs] eqn:Ed; [contradiction|].
        assert (In k (data_keys c)) as Hk.
        { apply Kc. exists (d, n). simpl. split; auto. unfold data_keys. rewrite Ed. simpl; auto. }
        unfold data_keys in Hk. rewrite Hc in Hk. destruct Hk.
      * left. intros Hc. destruct (cols d) as [|[k v] cs] eqn:Ed; [contradiction|].
        assert (In k (data_keys c)) as Hk.
        { apply Kc. exists (d, n). simpl. split; auto. unfold data_keys. rewrite Ed. simpl; auto. }
        unfold data_keys in Hk. rewrite Hc in Hk. destruct Hk.
      * left. intros Hc. destruct (cols e) as [|[k v] cs] eqn:Ed; [contradiction|].
        assert (In k (data_keys c)) as Hk.
        { apply Kc. exists (e, m). simpl. split; auto. unfold data_keys. rewrite Ed. simpl; auto. }
        unfold data_keys in Hk. rewrite Hc in Hk. destruct Hk.
      * right. lia.
    + rewrite app_length. lia.
Qed.

Lemma wp_new_scalar : forall A V W (data : pdata A V) (w : W) n, point_count data n ->
  match data with PDict [] => False | PData _ => False | _ => True end ->
  wp_new data (WScalar w) = Ok (mkWP data (repeat w n)).
Proof.
  intros A V W [r|[|[k v] d]|d] w n HP HK; simpl in *; try contradiction.
  - rewrite HP. reflexivity.
  - destruct HP as [_ HL]. rewrite (HL k v); [reflexivity|]. rewrite String.eqb_refl. reflexivity.
Qed.
