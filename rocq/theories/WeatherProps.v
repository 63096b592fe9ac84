(** * Weather models: properties C69, C70, C71, C96 *)

From Coq Require Import String Ascii List Bool Arith ZArith Reals Lra Lia.
From Verif Require Import Py Num ListX Dict WeatherModel.
Import ListNotations.
Open Scope string_scope.
Open Scope list_scope.
Open Scope R_scope.

(** ** [bisect_left] *)

(** Ascending list. *)
Definition ascending (g : list R) : Prop :=
  forall i j x y, (i <= j)%nat -> nth_error g i = Some x -> nth_error g j = Some y -> x <= y.

Lemma bisect_loop_range : forall fuel (a : list R) x lo hi, (lo <= hi)%nat ->
  (lo <= bisect_loop fuel a x lo hi <= hi)%nat.
Proof.
  induction fuel as [|n IH]; intros a x lo hi L; simpl; [lia|].
  destruct (Nat.ltb_spec lo hi) as [L'|L']; [|lia].
  pose proof (Nat.div_lt_upper_bound (lo + hi) 2 hi ltac:(lia) ltac:(lia)).
  pose proof (Nat.div_le_lower_bound (lo + hi) 2 lo ltac:(lia) ltac:(lia)).
  change (fst (Nat.divmod (lo + hi) 1 0 1)) with ((lo + hi) / 2)%nat.
  destruct (nth_error a ((lo + hi) / 2)) as [v|]; [|lia]. rnum.
  destruct (Rltb v x).
  - specialize (IH a x (S ((lo + hi) / 2)) hi ltac:(lia)). lia.
  - specialize (IH a x lo ((lo + hi) / 2)%nat ltac:(lia)). lia.
Qed.

Lemma bisect_loop_step : forall n (a : list R) x lo hi,
  bisect_loop (S n) a x lo hi =
  if (lo <? hi)%nat then
    match nth_error a ((lo + hi) / 2) with
    | Some v => if Rltb v x then bisect_loop n a x (S ((lo + hi) / 2)) hi else bisect_loop n a x lo ((lo + hi) / 2)
    | None => lo
    end
  else lo.
Proof. reflexivity. Qed.

Lemma bisect_loop_spec : forall fuel (a : list R) x lo hi, ascending a ->
  (lo <= hi <= length a)%nat -> (hi - lo <= fuel)%nat ->
  (forall i v, (i < lo)%nat -> nth_error a i = Some v -> v < x) ->
  (forall i v, (hi <= i)%nat -> nth_error a i = Some v -> x <= v) ->
  (forall i v, (i < bisect_loop fuel a x lo hi)%nat -> nth_error a i = Some v -> v < x) /\
  (forall i v, (bisect_loop fuel a x lo hi <= i)%nat -> nth_error a i = Some v -> x <= v).
Proof.
  induction fuel as [|n IH]; intros a x lo hi S L F P Q.
  - simpl. split; [exact P|]. intros i v Hi. apply Q. lia.
  - rewrite bisect_loop_step. destruct (Nat.ltb_spec lo hi) as [L'|L'].
    2: { split; [exact P|]. intros i v Hi. apply Q. lia. }
    pose proof (Nat.div_lt_upper_bound (lo + hi) 2 hi ltac:(lia) ltac:(lia)).
    pose proof (Nat.div_le_lower_bound (lo + hi) 2 lo ltac:(lia) ltac:(lia)).
    set (mid := ((lo + hi) / 2)%nat) in *.
    destruct (nth_error a mid) as [v|] eqn:E.
    2: { apply nth_error_None in E. lia. }
    destruct (Rltb_spec v x) as [V|V].
    + apply IH; auto; try lia. intros i u Hi Hu. apply Rle_lt_trans with v; [|exact V].
      apply (S i mid); auto. lia.
    + apply IH; auto; try lia. intros i u Hi Hu. apply Rle_trans with v; [lra|].
      apply (S mid i); auto.
Qed.

Lemma bisect_left_spec : forall (a : list R) x, ascending a ->
  (bisect_left a x <= length a)%nat /\
  (forall i v, (i < bisect_left a x)%nat -> nth_error a i = Some v -> v < x) /\
  (forall i v, (bisect_left a x <= i)%nat -> nth_error a i = Some v -> x <= v).
Proof.
  intros a x S. unfold bisect_left. split; [apply bisect_loop_range; lia|].
  apply bisect_loop_spec; auto; try lia.
  intros i v Hi Hv. assert (i < length a)%nat by (apply nth_error_Some; congruence). lia.
Qed.

Lemma cuboid_index_positive : forall (a : list R) x v,
  nth_error a 0 = Some v -> v < x -> (0 < bisect_left a x)%nat.
Proof.
  intros a x v H V. unfold bisect_left.
  assert (forall fuel hi, (0 < hi <= length a)%nat -> (hi <= fuel)%nat ->
    (0 < bisect_loop fuel a x 0 hi)%nat) as K.
  { induction fuel as [|n IH]; intros hi L F; [lia|]. rewrite bisect_loop_step.
    destruct (Nat.ltb_spec 0 hi) as [L'|]; [|lia]. simpl Nat.add.
    pose proof (Nat.div_lt hi 2 ltac:(lia) ltac:(lia)).
    destruct (nth_error a (hi / 2)) as [u|] eqn:E.
    2: { apply nth_error_None in E. lia. }
    destruct (Rltb_spec u x) as [U|U].
    - pose proof (bisect_loop_range n a x (S (hi / 2)) hi ltac:(lia)). lia.
    - destruct (Nat.eq_dec (hi / 2) 0) as [Z|Z].
      + rewrite Z, H in E. injection E as <-. lra.
      + apply IH; lia. }
  destruct a as [|y a]; [discriminate|]. apply K; simpl; lia.
Qed.

(** ** Gridded weather *)

(** The grid indices around a coordinate with their weights: the index of a
    grid value alone, otherwise both neighbours weighted affinely. *)
Definition neighbours (g : list R) (x : R) (cs : list (nat * R)) : Prop :=
  (exists i, nth_error g i = Some x /\ cs = [(i, 1)]) \/
  (exists i a b, nth_error g i = Some a /\ nth_error g (S i) = Some b /\ a < x < b /\
     cs = [(i, (b - x) / (b - a)); (S i, (x - a) / (b - a))]).

(** Weighted mean over neighbours. *)
Definition weighted (cs : list (nat * R)) (f : nat -> R) : R :=
  Rsum (map (fun iw => snd iw * f (fst iw)) cs).

(** Value number [q] of the data at a grid point. *)
Definition data_at (D : list (list (list (list R)))) (i j k q : nat) : R :=
  nth q (nth k (nth j (nth i D []) []) []) 0.

(** The affine interpolation in the three coordinates. *)
Definition trilinear (D : list (list (list (list R)))) (c1 c2 c3 : list (nat * R)) (q : nat) : R :=
  weighted c1 (fun i => weighted c2 (fun j => weighted c3 (fun k => data_at D i j k q))).

(** A model as documented: ascending coordinates, data of shape
    (times, latitudes, longitudes, attributes), distinct attributes. *)
Definition well_shaped (w : gridded R) : Prop :=
  gw_times w <> [] /\ gw_lats w <> [] /\ gw_lons w <> [] /\
  ascending (gw_times w) /\ ascending (gw_lats w) /\ ascending (gw_lons w) /\
  NoDup (gw_attrs w) /\
  length (gw_data w) = length (gw_times w) /\
  forall a, In a (gw_data w) -> length a = length (gw_lats w) /\
    forall b, In b a -> length b = length (gw_lons w) /\
      forall c, In c b -> length c = length (gw_attrs w).

(** Inside the range of a coordinate. *)
Definition in_range (g : list R) (x : R) : Prop :=
  exists a b, nth_error g 0 = Some a /\ nth_error g (length g - 1) = Some b /\ a <= x <= b.

(** Neighbours as the code finds them: a grid value is only recognised at
    index 0. *)
Definition found (g : list R) (x : R) (cs : list (nat * R)) : Prop :=
  (In x g /\ cs = [(0%nat, 1)]) \/ (~ In x g /\ neighbours g x cs).

Lemma py_last_nth : forall (l : list R), l <> [] ->
  exists x, py_last l = Ok x /\ nth_error l (length l - 1) = Some x.
Proof.
  intros l N. unfold py_last. destruct (exists_last N) as [l' [x ->]].
  rewrite rev_app_distr. simpl. exists x. split; [reflexivity|].
  rewrite app_length. simpl. rewrite nth_error_app2 by lia.
  replace (length l' + 1 - 1 - length l')%nat with 0%nat by lia. reflexivity.
Qed.

Lemma in_range_ends : forall g x, in_range g x <->
  (exists a b, py_nth g 0 = Ok a /\ py_last g = Ok b /\ a <= x <= b).
Proof.
  intros g x. unfold in_range. destruct g as [|y g].
  - split; intros [a [b [A _]]]; discriminate.
  - destruct (py_last_nth (y :: g) ltac:(discriminate)) as [z [Z1 Z2]].
    rewrite Z1, Z2. unfold py_nth. cbn [nth_error].
    split; intros [a [b [A [B C]]]]; exists a, b; injection A as <-; injection B as <-; auto.
Qed.

(** One dimension of the cuboid. *)
Lemma cuboid_dim_spec : forall g x, ascending g -> in_range g x ->
  exists c vals, cuboid_dim (g, x) = Ok (g, c, vals) /\
   ((In x g /\ find_index x vals = Some 0%nat) \/
    (~ In x g /\ find_index x vals = None /\
     exists i a b, c = [i; S i] /\ nth_error g i = Some a /\ nth_error g (S i) = Some b /\ a < x < b)).
Proof.
  intros g x S [a0 [b0 [Ha [Hb [La Lb]]]]].
  destruct (bisect_left_spec g x S) as [B1 [B2 B3]].
  assert (bisect_left g x < length g)%nat as B4.
  { destruct (Nat.lt_ge_cases (bisect_left g x) (length g)) as [|C]; auto.
    assert (length g - 1 < length g)%nat by (destruct g; [discriminate|simpl; lia]).
    specialize (B2 (length g - 1)%nat b0 ltac:(lia) Hb). lra. }
  unfold cuboid_dim, py_nth.
  destruct (nth_error g (bisect_left g x)) as [v|] eqn:E.
  2: { apply nth_error_None in E. lia. }
  cbn [rbind]. rnum. destruct (Reqb_spec v x) as [->|N].
  - exists [bisect_left g x], [x]. split.
    + cbn [mapM]. rewrite E. reflexivity.
    + left. split; [eapply nth_error_In; eauto|]. simpl. rewrite Reqb_refl. reflexivity.
  - assert (x <= v) as V by (apply (B3 (bisect_left g x) v); auto).
    assert (0 < bisect_left g x)%nat as P.
    { destruct (Nat.eq_dec (bisect_left g x) 0) as [Z|]; [|lia]. exfalso.
      apply (Rlt_irrefl v). rewrite Z, Ha in E. injection E as ->. lra. }
    destruct (bisect_left g x) as [|i] eqn:Ei; [lia|]. cbn [Nat.pred].
    destruct (nth_error g i) as [u|] eqn:Eu.
    2: { apply nth_error_None in Eu. lia. }
    assert (u < x) as U by (apply (B2 i u); auto; lia).
    exists [i; Datatypes.S i], [u; v]. split.
    + cbn [mapM]. rewrite Eu, E. reflexivity.
    + right. split.
      * intros I. apply In_nth_error in I. destruct I as [k Hk].
        destruct (Nat.lt_ge_cases k (Datatypes.S i)) as [L|L].
        -- specialize (B2 k x L Hk). lra.
        -- assert (v <= x) by (apply (S (Datatypes.S i) k); auto). lra.
      * split.
        -- simpl. rewrite !Reqb_false by lra. reflexivity.
        -- exists i, u, v. repeat split; auto; lra.
Qed.

(** One step of the recursion, the results of the inner steps given. *)
Lemma recursion_step : forall get_data g x cs c vals rp rd done s (F : nat -> nat -> R),
  ascending g -> in_range g x -> cuboid_dim (g, x) = Ok (g, c, vals) -> found g x cs ->
  (forall i w, In (i, w) cs ->
     recursion get_data rp rd (done ++ [i]) = Ok (map (F i) (seq 0 s))) ->
  recursion get_data (x :: rp) ((g, c, vals) :: rd) done =
  Ok (map (fun q => weighted cs (fun i => F i q)) (seq 0 s)).
Proof.
  intros get_data g x cs c vals rp rd dn s F S RG E FD R.
  destruct (cuboid_dim_spec g x S RG) as [c' [vals' [E' K]]]. rewrite E in E'.
  injection E' as <- <-. cbn [recursion].
  destruct K as [[I J]|[I [J [i [a [b [-> [A [B L]]]]]]]]]; rewrite J.
  - destruct FD as [[_ ->]|[N _]]; [|contradiction].
    rewrite (R 0%nat 1) by (left; reflexivity). f_equal. apply map_ext. intros q.
    unfold weighted. cbn [map Rsum fst snd]. lra.
  - destruct FD as [[N _]|[_ [[k [Hk _]]|[k [a' [b' [A' [B' [L' ->]]]]]]]]].
    + contradiction.
    + exfalso. apply I. eapply nth_error_In; eauto.
    + assert (k = i) as ->.
      { destruct (lt_eq_lt_dec k i) as [[C|C]|C]; auto; exfalso.
        - assert (b' <= a) by (apply (S (Datatypes.S k) i); auto). lra.
        - assert (b <= a') by (apply (S (Datatypes.S i) k); auto). lra. }
      rewrite A in A'. injection A' as <-. rewrite B in B'. injection B' as <-.
      assert (py_nth g i = Ok a) as PA by (unfold py_nth; rewrite A; reflexivity).
      assert (py_nth g (Datatypes.S i) = Ok b) as PB by (unfold py_nth; rewrite B; reflexivity).
      change (py_nth [i; Datatypes.S i] 0) with (Ok i).
      change (py_nth [i; Datatypes.S i] 1) with (Ok (Datatypes.S i)).
      cbn [rbind]. rewrite PB, PA. cbn [rbind]. unfold py_div. rnum.
      rewrite Reqb_false by lra. cbn [rbind].
      rewrite (R i ((b - x) / (b - a))) by (left; reflexivity).
      rewrite (R (Datatypes.S i) ((x - a) / (b - a))) by (right; left; reflexivity).
      cbn [rbind]. f_equal. unfold affine. rnum. clear - L.
      induction (seq 0 s) as [|q l IH]; [reflexivity|]. cbn [map combine]. f_equal; [|exact IH].
      unfold weighted. cbn [map Rsum fst snd]. field. lra.
Qed.

Lemma get_data_at : forall w i j k, well_shaped w ->
  (i < length (gw_times w))%nat -> (j < length (gw_lats w))%nat -> (k < length (gw_lons w))%nat ->
  gw_get_data (gw_data w) [i; j; k] =
  Ok (map (data_at (gw_data w) i j k) (seq 0 (length (gw_attrs w)))).
Proof.
  intros w i j k W Hi Hj Hk. destruct W as [_ [_ [_ [_ [_ [_ [_ [L D]]]]]]]].
  unfold gw_get_data, py_nth.
  rewrite (List.nth_error_nth' (gw_data w) []) by lia. cbn [rbind].
  destruct (D (nth i (gw_data w) [])) as [LA DA]; [apply nth_In; lia|].
  rewrite (List.nth_error_nth' (nth i (gw_data w) []) []) by lia. cbn [rbind].
  destruct (DA (nth j (nth i (gw_data w) []) [])) as [LB DB]; [apply nth_In; lia|].
  rewrite (List.nth_error_nth' (nth j (nth i (gw_data w) []) []) []) by lia.
  specialize (DB (nth k (nth j (nth i (gw_data w) []) []) []) ltac:(apply nth_In; lia)).
  f_equal. unfold data_at. rewrite <- DB. clear.
  set (c := nth k (nth j (nth i (gw_data w) []) []) []). clearbody c.
  apply nth_ext with (d := 0) (d' := nth (length c) c 0).
  - rewrite map_length, seq_length. reflexivity.
  - intros n Hn. rewrite (map_nth (fun q => nth q c 0)), seq_nth by exact Hn. reflexivity.
Qed.

Lemma neighbours_in : forall g x cs i w, neighbours g x cs -> In (i, w) cs -> (i < length g)%nat.
Proof.
  intros g x cs i w [[k [E ->]]|[k [a [b [A [B [_ ->]]]]]]] H; apply nth_error_Some.
  - destruct H as [H|[]]. inversion H. subst. congruence.
  - destruct H as [H|[H|[]]]; inversion H; subst; congruence.
Qed.

Lemma found_in : forall g x cs i w, g <> [] -> found g x cs -> In (i, w) cs -> (i < length g)%nat.
Proof.
  intros g x cs i w N [[_ ->]|[_ H]] I.
  - destruct I as [I|[]]. inversion I. subst. destruct g; [contradiction|simpl; lia].
  - eapply neighbours_in; eauto.
Qed.

Lemma found_exists : forall g x, ascending g -> in_range g x -> exists cs, found g x cs.
Proof.
  intros g x S R. destruct (cuboid_dim_spec g x S R) as [c [vals [_ [[I _]|[I [_ [i [a [b [_ [A [B L]]]]]]]]]]]].
  - exists [(0%nat, 1)]. left. auto.
  - exists [(i, (b - x) / (b - a)); (Datatypes.S i, (x - a) / (b - a))]. right. split; auto.
    right. exists i, a, b. auto.
Qed.

Lemma dict_zip_get : forall (ks : list string) (F : nat -> R) q k, NoDup ks ->
  nth_error ks q = Some k ->
  dget k (dict_zip ks (map F (seq 0 (length ks)))) = Some (F q).
Proof.
  intros ks F q k ND Hq. unfold dict_zip.
  assert (forall ks n d q k, NoDup ks -> (forall k', In k' ks -> dget k' d = None) ->
    (nth_error ks q = Some k -> dget k (fold_left (fun d p => dset (fst p) (snd p) d)
         (combine ks (map F (seq n (length ks)))) d) = Some (F (n + q)%nat)) /\
    (~ In k ks -> dget k (fold_left (fun d p => dset (fst p) (snd p) d)
         (combine ks (map F (seq n (length ks)))) d) = dget k d)) as K.
  { clear. induction ks as [|k0 ks IH]; intros n d q k ND Fr.
    - split; [destruct q; discriminate|]. reflexivity.
    - inversion ND; subst. cbn [length seq map combine fold_left fst snd].
      assert (forall k', In k' ks -> dget k' (dset k0 (F n) d) = None) as Fr'.
      { intros k' I. rewrite dget_dset_other; [apply Fr; right; exact I|]. intros ->. contradiction. }
      destruct (IH (S n) (dset k0 (F n) d) (Nat.pred q) k H2 Fr') as [A B]. split.
      + intros E. destruct q as [|q].
        * injection E as ->. rewrite B by assumption. rewrite dget_dset_same. f_equal. f_equal. lia.
        * cbn [Nat.pred] in A. rewrite A by exact E. f_equal. f_equal. lia.
      + intros N. rewrite B by (intros I; apply N; right; exact I).
        apply dget_dset_other. intros ->. apply N. left. reflexivity. }
  apply (K ks 0%nat [] q k ND); auto.
Qed.

(** What the code computes, on and off the grid. *)
Lemma gridded_value : forall w t la lo c1 c2 c3, well_shaped w ->
  in_range (gw_times w) t -> in_range (gw_lats w) la -> in_range (gw_lons w) lo ->
  found (gw_times w) t c1 -> found (gw_lats w) la c2 -> found (gw_lons w) lo c3 ->
  exists d, gridded_weather w [t; la; lo] = Ok d /\
    forall q attr, nth_error (gw_attrs w) q = Some attr ->
      dget attr d = Some (trilinear (gw_data w) c1 c2 c3 q).
Proof.
  intros w t la lo c1 c2 c3 W R1 R2 R3 F1 F2 F3.
  pose proof W as W'. destruct W' as [N1 [N2 [N3 [S1 [S2 [S3 [ND _]]]]]]].
  unfold gridded_weather, recursive_affine_interpolation.
  pose proof R1 as R1'. pose proof R2 as R2'. pose proof R3 as R3'.
  apply in_range_ends in R1', R2', R3'.
  destruct R1' as [a1 [b1 [A1 [B1 L1]]]]. destruct R2' as [a2 [b2 [A2 [B2 L2]]]].
  destruct R3' as [a3 [b3 [A3 [B3 L3]]]].
  cbn [mapM rbind]. rewrite A1, A2, A3, B1, B2, B3. cbn [rbind combine existsb fst snd]. rnum.
  rewrite (Rltb_false t a1), (Rltb_false la a2), (Rltb_false lo a3) by lra.
  rewrite (Rltb_false b1 t), (Rltb_false b2 la), (Rltb_false b3 lo) by lra. cbn [orb].
  destruct (cuboid_dim_spec _ _ S1 R1) as [e1 [v1 [E1 _]]].
  destruct (cuboid_dim_spec _ _ S2 R2) as [e2 [v2 [E2 _]]].
  destruct (cuboid_dim_spec _ _ S3 R3) as [e3 [v3 [E3 _]]].
  cbn [combine mapM]. rewrite E1, E2, E3. cbn [rbind].
  rewrite (recursion_step _ _ _ c1 _ _ _ _ _ (length (gw_attrs w))
    (fun i q => weighted c2 (fun j => weighted c3 (fun k => data_at (gw_data w) i j k q)))); auto.
  - cbn [rbind]. eexists. split; [reflexivity|]. intros q attr Hq.
    rewrite (dict_zip_get _ _ q attr ND Hq). reflexivity.
  - intros i w1 I1.
    rewrite (recursion_step _ _ _ c2 _ _ _ _ _ (length (gw_attrs w))
      (fun j q => weighted c3 (fun k => data_at (gw_data w) i j k q))); auto.
    intros j w2 I2.
    rewrite (recursion_step _ _ _ c3 _ _ _ _ _ (length (gw_attrs w))
      (fun k q => data_at (gw_data w) i j k q)); auto.
    intros k w3 I3. cbn [app recursion]. apply get_data_at; auto; eapply found_in; eauto.
Qed.

(** C69.  The weather is the affine interpolation of the surrounding grid
    points, for points each of whose coordinates is no grid value or the first
    one.  Full statement (every point of the grid's range): false, see
    [gridded_weather_refuted]. *)
Theorem gridded_weather_partial : forall w t la lo, well_shaped w ->
  in_range (gw_times w) t -> in_range (gw_lats w) la -> in_range (gw_lons w) lo ->
  (In t (gw_times w) -> nth_error (gw_times w) 0 = Some t) ->
  (In la (gw_lats w) -> nth_error (gw_lats w) 0 = Some la) ->
  (In lo (gw_lons w) -> nth_error (gw_lons w) 0 = Some lo) ->
  exists c1 c2 c3 d, neighbours (gw_times w) t c1 /\ neighbours (gw_lats w) la c2 /\
    neighbours (gw_lons w) lo c3 /\
    gridded_weather w [t; la; lo] = Ok d /\
    forall q attr, nth_error (gw_attrs w) q = Some attr ->
      dget attr d = Some (trilinear (gw_data w) c1 c2 c3 q).
Proof.
  intros w t la lo W R1 R2 R3 G1 G2 G3.
  pose proof W as W'. destruct W' as [N1 [N2 [N3 [S1 [S2 [S3 [ND _]]]]]]].
  assert (forall g x cs, (In x g -> nth_error g 0 = Some x) -> found g x cs -> neighbours g x cs) as K.
  { intros g x cs G [[I ->]|[_ H]]; auto. left. exists 0%nat. auto. }
  destruct (found_exists _ _ S1 R1) as [c1 F1]. destruct (found_exists _ _ S2 R2) as [c2 F2].
  destruct (found_exists _ _ S3 R3) as [c3 F3].
  destruct (gridded_value w t la lo c1 c2 c3 W R1 R2 R3 F1 F2 F3) as [d [E D]].
  exists c1, c2, c3, d. auto 10.
Qed.
Print Assumptions gridded_weather_partial.

(** C69.  At a grid point the code always returns the weather of the first
    grid point. *)
Theorem gridded_grid_point : forall w t la lo, well_shaped w ->
  In t (gw_times w) -> In la (gw_lats w) -> In lo (gw_lons w) ->
  exists d, gridded_weather w [t; la; lo] = Ok d /\
    forall q attr, nth_error (gw_attrs w) q = Some attr ->
      dget attr d = Some (data_at (gw_data w) 0 0 0 q).
Proof.
  intros w t la lo W I1 I2 I3. pose proof W as W'. destruct W' as [N1 [N2 [N3 [S1 [S2 [S3 [ND _]]]]]]].
  assert (forall g x, ascending g -> In x g -> in_range g x) as K.
  { intros g x S I. apply In_nth_error in I. destruct I as [i Hi].
    assert (i < length g)%nat as L by (apply nth_error_Some; congruence).
    destruct g as [|y g]; [destruct i; discriminate|].
    destruct (py_last_nth (y :: g) ltac:(discriminate)) as [z [_ Z]].
    exists y, z. split; [reflexivity|]. split; [exact Z|]. split.
    - apply (S 0%nat i); auto. lia.
    - apply (S i (length (y :: g) - 1)%nat); auto. lia. }
  destruct (gridded_value w t la lo [(0%nat, 1)] [(0%nat, 1)] [(0%nat, 1)] W) as [d [E D]];
    try (apply K; assumption); try (left; auto; fail).
  exists d. split; [exact E|]. intros q attr Hq. rewrite (D q attr Hq). f_equal.
  unfold trilinear, weighted. cbn [map Rsum fst snd]. lra.
Qed.
Print Assumptions gridded_grid_point.

(** Two times, one place: 10 knots at time 0, 20 knots at time 1. *)
Definition two_times : gridded R :=
  mkGridded [[[[10]]]; [[[20]]]] [0; 1] [50] [8] ["TWS"].

Lemma ascending_sorted2 : forall a b : R, a <= b -> ascending [a; b].
Proof.
  intros a b L [|[|i]] [|[|j]] x y Hij Hx Hy; simpl in *; try lia;
    try (destruct i; discriminate); try (destruct j; discriminate);
    injection Hx as <-; injection Hy as <-; lra.
Qed.
Lemma ascending1 : forall a : R, ascending [a].
Proof.
  intros a [|i] [|j] x y Hij Hx Hy; simpl in *; try (destruct i; discriminate);
    try (destruct j; discriminate). injection Hx as <-. injection Hy as <-. lra.
Qed.

Lemma two_times_shape : well_shaped two_times.
Proof.
  unfold well_shaped, two_times. cbn [gw_times gw_lats gw_lons gw_attrs gw_data].
  repeat (split; [discriminate|]). split; [apply ascending_sorted2; lra|].
  split; [apply ascending1|]. split; [apply ascending1|].
  split; [constructor; [intros []|constructor]|]. split; [reflexivity|].
  intros a Ha. destruct Ha as [<-|[<-|[]]]; (split; [reflexivity|]);
  intros b Hb; destruct Hb as [<-|[]]; (split; [reflexivity|]);
  intros c Hc; destruct Hc as [<-|[]]; reflexivity.
Qed.

(** C69.  At time 1 the model answers with the weather of time 0. *)
Theorem gridded_weather_refuted : exists w t la lo d,
  well_shaped w /\ In t (gw_times w) /\ In la (gw_lats w) /\ In lo (gw_lons w) /\
  gridded_weather w [t; la; lo] = Ok d /\
  dget "TWS" d = Some 10 /\
  (* the stored value *)
  (exists i j k, nth_error (gw_times w) i = Some t /\ nth_error (gw_lats w) j = Some la /\
     nth_error (gw_lons w) k = Some lo /\ data_at (gw_data w) i j k 0 = 20).
Proof.
  destruct (gridded_grid_point two_times 1 50 8 two_times_shape) as [d [E D]].
  - right; left; reflexivity.
  - left; reflexivity.
  - left; reflexivity.
  - exists two_times, 1, 50, 8, d. split; [exact two_times_shape|].
    split; [right; left; reflexivity|]. split; [left; reflexivity|]. split; [left; reflexivity|].
    split; [exact E|]. split; [exact (D 0%nat "TWS" eq_refl)|].
    exists 1%nat, 0%nat, 0%nat. repeat split; reflexivity.
Qed.
Print Assumptions gridded_weather_refuted.

(** The interpolation half way between the two times. *)
Example gridded_example : exists d,
  gridded_weather two_times [1/4; 50; 8] = Ok d /\ dget "TWS" d = Some (25/2).
Proof.
  destruct (gridded_value two_times (1/4) 50 8 [(0%nat, 3/4); (1%nat, 1/4)] [(0%nat, 1)] [(0%nat, 1)] two_times_shape)
    as [d [E D]].
  - exists 0, 1. repeat split; try reflexivity; lra.
  - exists 50, 50. repeat split; try reflexivity; lra.
  - exists 8, 8. repeat split; try reflexivity; lra.
  - right. split; [simpl; lra|]. right. exists 0%nat, 0, 1. repeat split; try lra.
    f_equal; [f_equal; lra|]. f_equal. f_equal. lra.
  - left. split; [left; reflexivity|reflexivity].
  - left. split; [left; reflexivity|reflexivity].
  - exists d. split; [exact E|]. rewrite (D 0%nat "TWS" eq_refl). f_equal.
    unfold trilinear, weighted, data_at. cbn. lra.
Qed.

Lemma neighbours_weights : forall g x cs, neighbours g x cs ->
  (forall i w, In (i, w) cs -> 0 <= w) /\ Rsum (map snd cs) = 1.
Proof.
  intros g x cs [[k [E ->]]|[k [a [b [A [B [L ->]]]]]]].
  - split; [|simpl; lra]. intros i w [H|[]]. inversion H. lra.
  - split.
    + intros i w [H|[H|[]]]; inversion H; apply Rmult_le_pos; try lra;
        apply Rlt_le, Rinv_0_lt_compat; lra.
    + cbn [map snd Rsum]. field. lra.
Qed.

Lemma weighted_bounds : forall cs f lo hi,
  (forall i w, In (i, w) cs -> 0 <= w) -> Rsum (map snd cs) = 1 ->
  (forall i w, In (i, w) cs -> lo <= f i <= hi) -> lo <= weighted cs f <= hi.
Proof.
  intros cs f lo hi P S B.
  assert (lo * Rsum (map snd cs) <= weighted cs f <= hi * Rsum (map snd cs)) as K.
  { clear S. unfold weighted. induction cs as [|[i w] cs IH]; cbn [map Rsum fst snd]; [lra|].
    destruct IH as [A C]; [intros j v I; apply (P j v); right; exact I|
                           intros j v I; apply (B j v); right; exact I|].
    specialize (P i w (or_introl eq_refl)). specialize (B i w (or_introl eq_refl)). nra. }
  rewrite S in K. lra.
Qed.

(** C69.  The interpolated value lies between the values at the surrounding
    grid points. *)
Theorem interpolation_between : forall w t la lo c1 c2 c3 q lower upper,
  neighbours (gw_times w) t c1 -> neighbours (gw_lats w) la c2 -> neighbours (gw_lons w) lo c3 ->
  (forall i j k, In i (map fst c1) -> In j (map fst c2) -> In k (map fst c3) ->
     lower <= data_at (gw_data w) i j k q <= upper) ->
  lower <= trilinear (gw_data w) c1 c2 c3 q <= upper.
Proof.
  intros w t la lo c1 c2 c3 q lower upper N1 N2 N3 B. unfold trilinear.
  destruct (neighbours_weights _ _ _ N1) as [P1 S1]. destruct (neighbours_weights _ _ _ N2) as [P2 S2].
  destruct (neighbours_weights _ _ _ N3) as [P3 S3].
  apply weighted_bounds; auto. intros i w1 I1. apply weighted_bounds; auto. intros j w2 I2.
  apply weighted_bounds; auto. intros k w3 I3.
  apply B; apply in_map_iff; [exists (i, w1)|exists (j, w2)|exists (k, w3)]; auto.
Qed.
Print Assumptions interpolation_between.

(** C69.  Outside of the range of a coordinate: ValueError. *)
Theorem outside_raises : forall w t la lo, well_shaped w ->
  ~ (in_range (gw_times w) t /\ in_range (gw_lats w) la /\ in_range (gw_lons w) lo) ->
  gridded_weather w [t; la; lo] = Raise ValueError.
Proof.
  intros w t la lo W O. pose proof W as W'. destruct W' as [N1 [N2 [N3 _]]].
  unfold gridded_weather, recursive_affine_interpolation.
  assert (forall g : list R, g <> [] -> exists a b, py_nth g 0 = Ok a /\ py_last g = Ok b) as K.
  { intros g N. destruct (py_last_nth g N) as [z [Z _]]. destruct g as [|y g]; [contradiction|].
    exists y, z. split; auto. }
  destruct (K _ N1) as [a1 [b1 [A1 B1]]]. destruct (K _ N2) as [a2 [b2 [A2 B2]]].
  destruct (K _ N3) as [a3 [b3 [A3 B3]]].
  rewrite !in_range_ends in O.
  cbn [mapM rbind]. rewrite A1, A2, A3, B1, B2, B3. cbn [rbind combine existsb fst snd]. rnum.
  match goal with |- context [if ?c then _ else _] => destruct c eqn:C end; [reflexivity|]. exfalso.
  repeat rewrite orb_false_iff in C. destruct C as [[C1 [C2 [C3 _]]] [C4 [C5 [C6 _]]]].
  apply O. split; [exists a1, b1|split; [exists a2, b2|exists a3, b3]];
    (split; [assumption|]; split; [assumption|]);
    repeat match goal with H : Rltb ?x ?y = false |- _ =>
      destruct (Rltb_spec x y); [discriminate|]; clear H end; lra.
Qed.
Print Assumptions outside_raises.

Example outside_example : gridded_weather two_times [2; 50; 8] = Raise ValueError.
Proof.
  apply outside_raises; [exact two_times_shape|]. intros [[a [b [A [B L]]]] _].
  injection A as <-. injection B as <-. lra.
Qed.

(** ** [MultiWeatherModel] *)

(** The exceptions documented to be ignored. *)
Definition documented (e : exn) : Prop :=
  e = ValueError \/ e = TypeError \/ e = KeyError \/ e = NotImplementedError.

Lemma dupdate_get : forall V (e d : dict V) k, NoDup (dkeys e) ->
  dget k (dupdate d e) = match dget k e with Some v => Some v | None => dget k d end.
Proof.
  intros V. unfold dupdate. induction e as [|[k0 v0] e IH]; intros d k ND; [reflexivity|].
  cbn [fold_left fst snd]. inversion ND as [|? ? N ND']; subst.
  rewrite IH by exact ND'. cbn [dget]. destruct (String.eqb_spec k0 k) as [->|NE].
  - destruct (dget k e) eqn:E; [|apply dget_dset_same].
    exfalso. apply N. apply dget_In_key. eauto.
  - destruct (dget k e); [reflexivity|]. apply dget_dset_other. auto.
Qed.

Section Multi.
  Context {P V : Type}.
  Variable point : P.

  (** [m] is the last of the models that supplies key [k], with value [v]. *)
  Definition last_supplies (models : list (P -> result (dict V))) (k : string) (v : V) : Prop :=
    exists l1 m l2 w, models = l1 ++ m :: l2 /\ m point = Ok w /\ dget k w = Some v /\
      forall m' w', In m' l2 -> m' point = Ok w' -> dget k w' = None.

  Lemma multi_weather_spec : forall models sensitive acc,
    (forall m w, In m models -> m point = Ok w -> NoDup (dkeys w)) ->
    (forall m e, In m models -> m point = Raise e ->
       sensitive = false /\ (e = ValueError \/ e = TypeError \/ e = KeyError)) ->
    exists d, multi_weather sensitive models point acc = Ok d /\
      forall k v, dget k d = Some v <->
        last_supplies models k v \/
        (dget k acc = Some v /\ forall m w, In m models -> m point = Ok w -> dget k w = None).
  Proof.
    induction models as [|m r IH]; intros sensitive acc ND EX.
    - exists acc. split; [reflexivity|]. intros k v. split.
      + intros E. right. split; [exact E|]. intros m w [].
      + intros [[l1 [m [l2 [w [E _]]]]]|[E _]]; [destruct l1; discriminate|exact E].
    - cbn [multi_weather].
      assert (forall m' w, In m' r -> m' point = Ok w -> NoDup (dkeys w)) as ND'
        by (intros m' w I; apply ND; right; exact I).
      assert (forall m' e, In m' r -> m' point = Raise e ->
        sensitive = false /\ (e = ValueError \/ e = TypeError \/ e = KeyError)) as EX'
        by (intros m' e I; apply EX; right; exact I).
      destruct (m point) as [w|e] eqn:E.
      + destruct (IH sensitive (dupdate acc w) ND' EX') as [d [D K]]. exists d. split; [exact D|].
        intros k v. rewrite K, dupdate_get by (apply (ND m); [left; reflexivity|exact E]). split.
        * intros [[l1 [m' [l2 [w' [E1 [E2 [E3 E4]]]]]]]|[G N]].
          -- left. exists (m :: l1), m', l2, w'. rewrite E1. auto.
          -- destruct (dget k w) as [u|] eqn:G'.
             ++ injection G as ->. left. exists [], m, r, w. repeat split; auto.
             ++ right. split; [exact G|]. intros m' w' [<-|I] F; [|apply (N m' w' I F)].
                rewrite E in F. injection F as <-. exact G'.
        * intros [[l1 [m' [l2 [w' [E1 [E2 [E3 E4]]]]]]]|[G N]].
          -- destruct l1 as [|x l1]; simpl in E1; injection E1 as -> E1.
             ++ subst l2. rewrite E in E2. injection E2 as <-. right. rewrite E3. auto.
             ++ left. exists l1, m', l2, w'. auto.
          -- right. rewrite (N m w (or_introl eq_refl) E). split; [exact G|].
             intros m' w' I F. apply (N m' w'); [right; exact I|exact F].
      + destruct (EX m e (or_introl eq_refl) E) as [-> Ee].
        assert (match e with
                | ValueError | TypeError | KeyError => multi_weather false r point acc
                | _ => Raise e end = multi_weather false r point acc) as EQ
          by (destruct Ee as [-> | [-> | ->]]; reflexivity).
        cbn [negb]. destruct (IH false acc ND' EX') as [d [D K]]. exists d. split.
        * destruct Ee as [-> | [-> | ->]]; exact D.
        * intros k v. rewrite K. split.
          -- intros [[l1 [m' [l2 [w' [E1 [E2 [E3 E4]]]]]]]|[G N]].
             ++ left. exists (m :: l1), m', l2, w'. rewrite E1. auto.
             ++ right. split; [exact G|]. intros m' w' [<-|I] F; [congruence|apply (N m' w' I F)].
          -- intros [[l1 [m' [l2 [w' [E1 [E2 [E3 E4]]]]]]]|[G N]].
             ++ destruct l1 as [|x l1]; simpl in E1; injection E1 as -> E1; [congruence|].
                left. exists l1, m', l2, w'. auto.
             ++ right. split; [exact G|]. intros m' w' I F. apply (N m' w'); [right; exact I|exact F].
  Qed.
End Multi.

(** C70.  Every attribute has the value of the last model supplying it,
    failing models are skipped.  Full statement (all documented exceptions):
    false, NotImplementedError is not ignored, see [multi_weather_refuted]. *)
Theorem multi_weather_partial : forall P V (point : P) (models : list (P -> result (dict V))),
  (forall m w, In m models -> m point = Ok w -> NoDup (dkeys w)) ->
  (forall m e, In m models -> m point = Raise e -> documented e /\ e <> NotImplementedError) ->
  exists d, multi_get_weather false models point = Ok d /\
    forall k v, dget k d = Some v <-> last_supplies point models k v.
Proof.
  intros P V point models ND EX.
  destruct (multi_weather_spec point models false [] ND) as [d [D K]].
  - intros m e I E. split; [reflexivity|]. destruct (EX m e I E) as [[->|[->|[->| ->]]] N]; auto.
    contradiction.
  - exists d. split; [exact D|]. intros k v. rewrite K. split; [|auto].
    intros [H|[H _]]; [exact H|discriminate].
Qed.
Print Assumptions multi_weather_partial.

(** C70.  With [exception_sensitive] any failure is passed on (that of the
    first failing model). *)
Theorem multi_weather_sensitive : forall P V (point : P) (models : list (P -> result (dict V))),
  (forall m w, In m models -> m point = Ok w -> NoDup (dkeys w)) ->
  ((forall m, In m models -> exists w, m point = Ok w) ->
    exists d, multi_get_weather true models point = Ok d /\
      forall k v, dget k d = Some v <-> last_supplies point models k v) /\
  (forall l1 m l2 e, models = l1 ++ m :: l2 -> m point = Raise e ->
     (forall m', In m' l1 -> exists w, m' point = Ok w) ->
     multi_get_weather true models point = Raise e).
Proof.
  intros P V point models ND. split.
  - intros A. destruct (multi_weather_spec point models true [] ND) as [d [D K]].
    + intros m e I E. destruct (A m I) as [w W]. congruence.
    + exists d. split; [exact D|]. intros k v. rewrite K. split; [|auto].
      intros [H|[H _]]; [exact H|discriminate].
  - intros l1 m l2 e -> E A. unfold multi_get_weather. clear ND. generalize (@nil (string * V)).
    induction l1 as [|x l1 IH]; intros acc; cbn [app multi_weather].
    + rewrite E. destruct e; reflexivity.
    + destruct (A x (or_introl eq_refl)) as [w W]. rewrite W. apply IH.
      intros m' I. apply A. right. exact I.
Qed.
Print Assumptions multi_weather_sensitive.

(** Two models and one that fails. *)
Example multi_example : exists d,
  multi_get_weather false
    [fun _ : unit => Ok [("TWS", 1); ("TWA", 2)]; fun _ => Raise ValueError; fun _ => Ok [("TWS", 3)]] tt = Ok d /\
  dget "TWS" d = Some 3 /\ dget "TWA" d = Some 2.
Proof. eexists. split; [reflexivity|]. split; reflexivity. Qed.

(** C70.  A documented exception that is not ignored. *)
Theorem multi_weather_refuted : exists (models : list (unit -> result (dict R))),
  (forall m e, In m models -> m tt = Raise e -> documented e) /\
  multi_get_weather false models tt = Raise NotImplementedError.
Proof.
  exists [fun _ => Raise NotImplementedError]. split; [|reflexivity].
  intros m e [<-|[]] E. injection E as <-. unfold documented. auto.
Qed.
Print Assumptions multi_weather_refuted.

(** ** Files *)

Lemma dval_dchar : forall n, (n < 10)%nat -> dval (dchar n) = Some n.
Proof. intros n L. do 10 (destruct n as [|n]; [reflexivity|]). lia. Qed.

Lemma read12_show2 : forall n s, (n < 100)%nat -> read12 (show2 n ++ s) = Some (n, s).
Proof.
  intros n s L. unfold show2. cbn [String.append read12].
  rewrite !dval_dchar by (try apply Nat.div_lt_upper_bound; try apply Nat.mod_upper_bound; lia).
  rewrite <- Nat.div_mod by lia. reflexivity.
Qed.

Lemma read4_show_year : forall n s, (1000 <= n < 10 * 1000)%nat -> read4 (show_year n ++ s) = Some (n, s).
Proof.
  intros n s L. unfold show_year.
  destruct (Nat.ltb_spec n 10); [lia|]. destruct (Nat.ltb_spec n 100); [lia|].
  destruct (Nat.ltb_spec n 1000); [lia|]. unfold show2. cbn [String.append read4].
  pose proof (Nat.mod_upper_bound n 100 ltac:(lia)) as M.
  rewrite !dval_dchar.
  - f_equal. f_equal.
    pose proof (Nat.div_mod n 100 ltac:(lia)) as D1. pose proof (Nat.div_mod (n mod 100) 10 ltac:(lia)) as D2.
    pose proof (Nat.div_mod (n / 100) 10 ltac:(lia)) as D3.
    rewrite Nat.div_div in D3 by lia. change (100 * 10)%nat with 1000%nat in D3. lia.
  - apply Nat.mod_upper_bound. lia.
  - apply Nat.div_lt_upper_bound; lia.
  - apply Nat.mod_upper_bound. lia.
  - apply Nat.div_lt_upper_bound; lia.
Qed.

Lemma days_in_month_le : forall y m, (days_in_month y m <= 31)%nat.
Proof.
  intros y m. unfold days_in_month.
  do 12 (destruct m as [|m]; [destruct (leap y); lia|]). lia.
Qed.

(** A date and a time of the Gregorian calendar, years 1 to 9999: the month lengths are
    listed, February has a 29th day in the years divisible by 4, except the centuries that
    are not divisible by 400. *)
Definition month_lengths : list nat := [31; 28; 31; 30; 31; 30; 31; 31; 30; 31; 30; 31]%nat.
Definition valid_date (d : date) : Prop :=
  (1 <= d_year d < 10 * 1000)%nat /\
  (exists k n : nat, d_month d = S k /\ nth_error month_lengths k = Some n /\
     (1 <= d_day d <= n \/
      k = 1 /\ d_day d = 29 /\ (exists q, d_year d = 4 * q) /\
      ((exists q, d_year d = 100 * q) -> exists q, d_year d = 400 * q)))%nat /\
  (d_hour d <= 23)%nat /\ (d_min d <= 59)%nat /\ (d_sec d <= 59)%nat /\ (d_micro d < 1000 * 1000)%nat.

Lemma mod_zero : forall y k, (k <> 0)%nat -> (y mod k =? 0)%nat = true <-> exists q, y = (k * q)%nat.
Proof.
  intros y k K. rewrite Nat.eqb_eq, Nat.mod_divide by exact K. split; intros [q ->]; exists q; lia.
Qed.

Lemma leap_iff : forall y, leap y = true <->
  (exists q, y = 4 * q)%nat /\ ((exists q, y = 100 * q)%nat -> exists q, y = (400 * q)%nat).
Proof.
  intros y. unfold leap. rewrite andb_true_iff, orb_true_iff, negb_true_iff, !mod_zero by lia.
  pose proof (mod_zero y 100 ltac:(lia)) as H. destruct (y mod 100 =? 0)%nat.
  - destruct H as [H _]. specialize (H eq_refl). split; intros [A B]; split; auto.
    destruct B; [discriminate|auto].
  - destruct H as [_ H]. split; intros [A B]; split; auto. intros C. apply H in C. discriminate.
Qed.

Lemma date_ok_iff : forall d, date_ok d = true <-> valid_date d.
Proof.
  intros [y m dd hh mi ss us]. unfold date_ok, valid_date.
  cbn [d_year d_month d_day d_hour d_min d_sec d_micro].
  repeat rewrite andb_true_iff. rewrite !Nat.ltb_lt, !Nat.leb_le.
  assert (M : (1 <= m /\ m <= 12 /\ 1 <= dd /\ dd <= days_in_month y m)%nat <->
    (exists k n : nat, m = S k /\ nth_error month_lengths k = Some n /\
     (1 <= dd <= n \/ k = 1 /\ dd = 29 /\ (exists q, y = 4 * q) /\
      ((exists q, y = 100 * q) -> exists q, y = 400 * q)))%nat).
  { split.
    - intros [A [B [C D]]]. destruct m as [|k]; [lia|]. unfold days_in_month in D.
      destruct (Nat.eq_dec k 1) as [->|K].
      + exists 1%nat, 28%nat. split; [reflexivity|]. split; [reflexivity|].
        pose proof (leap_iff y) as L. destruct (leap y).
        * destruct (Nat.eq_dec dd 29) as [->|N]; [right|left; lia].
          split; [reflexivity|]. split; [reflexivity|]. tauto.
        * left. lia.
      + do 12 (destruct k as [|k]; [first [exfalso; apply K; reflexivity|
          eexists _, _; split; [reflexivity|]; split; [reflexivity|]; left; lia]|]). lia.
    - intros [k [n [-> [N D]]]]. unfold days_in_month.
      assert (k < 12)%nat as K by (apply (nth_error_Some month_lengths); rewrite N; discriminate).
      pose proof (leap_iff y) as L.
      do 12 (destruct k as [|k]; [cbn in N; injection N as <-;
        destruct D as [D|[D1 [-> D3]]]; [destruct (leap y); lia|
        first [discriminate D1|apply L in D3; rewrite D3; lia]]|]). lia. }
  split.
  - intros [[[[[[[[[A B] C] D] E] F] G] H] I] J].
    split; [lia|]. split; [apply M; tauto|]. repeat split; lia.
  - intros [[A B] [X [G [H [I J]]]]]. apply M in X. repeat split; lia.
Qed.

(** A date survives being written and read if it has no fraction of a second
    and a year of four digits. *)
Lemma date_roundtrip : forall d, date_ok d = true -> (1000 <= d_year d)%nat -> d_micro d = 0%nat ->
  strptime_file (strftime d) = Some d.
Proof.
  intros d OK Y M. pose proof OK as OK'. unfold date_ok in OK'.
  repeat rewrite andb_true_iff in OK'.
  destruct OK' as [[[[[[[[[_ A] _] B] _] C] D] E] F] _].
  apply Nat.ltb_lt in A, D, E, F. apply Nat.leb_le in B, C.
  pose proof (days_in_month_le (d_year d) (d_month d)) as C'.
  unfold strftime, strptime_file.
  rewrite read12_show2 by lia. cbn [obind String.append read_char Ascii.eqb Bool.eqb].
  rewrite read12_show2 by lia. cbn [obind String.append read_char Ascii.eqb Bool.eqb].
  rewrite read4_show_year by lia. cbn [obind String.append read_char Ascii.eqb Bool.eqb].
  rewrite read12_show2 by lia. cbn [obind String.append read_char Ascii.eqb Bool.eqb].
  rewrite read12_show2 by lia. cbn [obind String.append read_char Ascii.eqb Bool.eqb].
  assert (show2 (d_sec d) = (show2 (d_sec d) ++ "")%string) as -> by reflexivity.
  rewrite read12_show2 by lia. cbn [obind].
  destruct d as [y m dd hh mm ss us]. cbn [d_year d_month d_day d_hour d_min d_sec d_micro] in *. subst us.
  rewrite OK. reflexivity.
Qed.

Lemma jlist_of_map : forall T A (f : jval T -> result A) (g : A -> jval T) l,
  (forall x, In x l -> f (g x) = Ok x) -> jlist_of f (JList (map g l)) = Ok l.
Proof.
  intros T A f g l H. unfold jlist_of. cbn [jlist rbind].
  induction l as [|x l IH]; [reflexivity|]. cbn [map mapM].
  rewrite H by (left; reflexivity). cbn [rbind]. rewrite IH by (intros y I; apply H; right; exact I).
  reflexivity.
Qed.

(** C71.  Reading a written model gives the same model, if its times are dates
    without time zone, from year 1000 on and without fractions of a second.
    Full statement: false, see [file_roundtrip_refuted]. *)
Theorem file_roundtrip_partial : forall T (w : wfile_model T),
  (forall t, In t (wf_times w) -> exists d, t = TDate d /\ valid_date d /\
     (1000 <= d_year d)%nat /\ d_micro d = 0%nat) ->
  from_file (to_file w) = Ok w.
Proof.
  intros T w H. unfold from_file, to_file. cbn [jlist rbind].
  rewrite (jlist_of_map T _ read_time jtime).
  2: { intros t I. destruct (H t I) as [d [-> [A [B C]]]]. unfold read_time, jtime. cbn [jstr rbind].
       apply date_ok_iff in A. rewrite date_roundtrip by assumption. reflexivity. }
  cbn [rbind]. unfold jdata.
  rewrite (jlist_of_map T _ (jlist_of (jlist_of (jlist_of jnum)))).
  2: { intros a _. apply jlist_of_map. intros b _. apply jlist_of_map. intros c _.
       apply jlist_of_map. reflexivity. }
  cbn [rbind]. rewrite !(jlist_of_map T _ jnum JNum) by reflexivity. cbn [rbind].
  rewrite (jlist_of_map T _ jstr JStr) by reflexivity. cbn [rbind].
  destruct w; reflexivity.
Qed.
Print Assumptions file_roundtrip_partial.

Definition a_model (us : nat) : wfile_model R :=
  mkWF [[[[10; 90]]]] [TDate (mkDate 2023 2 28 7 5 59 us)] [50] [8] ["TWS"; "TWA"].

Example file_example : from_file (to_file (a_model 0)) = Ok (a_model 0) /\
  strftime (mkDate 2023 2 28 7 5 59 0) = "28.02.2023:07:05:59".
Proof.
  split; [|reflexivity]. apply file_roundtrip_partial. intros t [<-|[]].
  eexists. split; [reflexivity|]. split; [apply date_ok_iff; reflexivity|]. split; [|reflexivity].
  cbn [d_year]. apply Nat.leb_le. reflexivity.
Qed.

(** C71.  Fractions of a second are lost; times given as numbers cannot be read
    again; years below 1000 cannot be read again. *)
Theorem file_roundtrip_refuted :
  (exists w w' : wfile_model R, from_file (to_file w) = Ok w' /\ w' <> w) /\
  (exists w : wfile_model R, wf_times w = [TNum 0; TNum 1] /\ from_file (to_file w) = Raise TypeError) /\
  (exists w : wfile_model R, (forall t, In t (wf_times w) -> exists d, t = TDate d /\ valid_date d) /\
     from_file (to_file w) = Raise ValueError).
Proof.
  split; [|split].
  - exists (a_model 500), (a_model 0). split; [reflexivity|]. discriminate.
  - exists (mkWF [[[[10]]]; [[[20]]]] [TNum 0; TNum 1] [50] [8] ["TWS"]). split; reflexivity.
  - exists (mkWF [[[[10]]]] [TDate (mkDate 999 2 28 7 5 59 0)] [50] [8] ["TWS"]). split; [|reflexivity].
    intros t [<-|[]]. eexists. split; [reflexivity|]. apply date_ok_iff. reflexivity.
Qed.
Print Assumptions file_roundtrip_refuted.

(** ** [NetCDFWeatherModel] *)

(** The grid coordinate at an index of the model's grid is the coordinate
    stored in the file at the index used to read the data. *)
Definition reads_right (file_coords grid : list R) (index : nat -> nat) : Prop :=
  length grid = length file_coords /\
  forall i, (i < length grid)%nat -> nth_error file_coords (index i) = nth_error grid i.

(** C96.  A coordinate stored in descending order is turned around together
    with the data. *)
Theorem netcdf_indices : forall strptime f al further m,
  nc_init strptime f al further = Ok m ->
  reads_right (nf_lats f) (nm_lats m) (nc_index (nm_lats_flipped m) (nm_lats m)) /\
  reads_right (nf_lons f) (nm_lons m) (nc_index (nm_lons_flipped m) (nm_lons m)) /\
  (forall i j, (i <= j < length (nf_lats f))%nat ->
     (forall i j, (i <= j < length (nf_lats f))%nat -> nth i (nf_lats f) 0 >= nth j (nf_lats f) 0) \/
     (forall i j, (i <= j < length (nf_lats f))%nat -> nth i (nf_lats f) 0 <= nth j (nf_lats f) 0) ->
     nth i (nm_lats m) 0 <= nth j (nm_lats m) 0).
Proof.
  intros strptime f al further m E. unfold nc_init in E.
  assert (forall l g b, nc_coordinate l = Ok (g, b) ->
    reads_right l g (nc_index b g) /\
    (forall i j, (i <= j < length l)%nat ->
     (forall i j, (i <= j < length l)%nat -> nth i l 0 >= nth j l 0) \/
     (forall i j, (i <= j < length l)%nat -> nth i l 0 <= nth j l 0) ->
     nth i g 0 <= nth j g 0)) as K.
  { intros l g b C. unfold nc_coordinate in C.
    destruct l as [|x l0]; [discriminate|]. set (l := x :: l0) in *.
    destruct (py_last_nth l ltac:(discriminate)) as [z [Z1 Z2]].
    rewrite Z1 in C. change (py_nth l 0) with (Ok x) in C. cbn [rbind] in C. rnum.
    assert (nth (length l - 1) l 0 = z) as Z3 by (apply nth_error_nth; exact Z2).
    assert (nth 0 l 0 = x) as X0 by reflexivity.
    assert (0 < length l)%nat as Ln by (unfold l; cbn [length]; lia).
    clearbody l. clear l0.
    destruct (Rltb_spec z x) as [L|L]; injection C as <- <-.
    - split.
      + split; [apply rev_length|]. intros i Hi. unfold nc_index. rewrite rev_length in *.
        symmetry. rewrite nth_error_rev by exact Hi. f_equal. lia.
      + intros i j Hij [Dn|Up].
        * rewrite !rev_nth by lia. apply Rge_le. apply Dn. lia.
        * exfalso. specialize (Up 0%nat (length l - 1)%nat ltac:(lia)).
          rewrite X0 in Up. lra.
    - split; [split; [reflexivity|]; intros; reflexivity|]. intros i j Hij [Dn|Up].
      + assert (forall k, (k < length l)%nat -> nth k l 0 = x) as Cst.
        { intros k Hk. pose proof (Dn 0%nat k ltac:(lia)) as D1.
          pose proof (Dn k (length l - 1)%nat ltac:(lia)) as D2.
          rewrite X0 in D1. lra. }
        rewrite !Cst by lia. lra.
      + apply Up. lia. }
  destruct (nc_coordinate (nf_lats f)) as [[la fa]|] eqn:E1; [|discriminate].
  destruct (nc_coordinate (nf_lons f)) as [[lo fo]|] eqn:E2; [|discriminate]. cbn [rbind] in E.
  destruct (nc_time_unit strptime (nf_units f)) as [[step start]|]; [|discriminate]. cbn [rbind] in E.
  injection E as <-. cbn [nm_lats nm_lons nm_lats_flipped nm_lons_flipped fst snd].
  destruct (K _ _ _ E1) as [A B]. destruct (K _ _ _ E2) as [C _]. auto.
Qed.
Print Assumptions netcdf_indices.

(** C96.  The data read for a grid point are, for every variable, the value the
    file stores at that latitude, longitude and time index, whatever the order
    of the variable's dimensions. *)
Theorem netcdf_data : forall strptime f al further m t i j vals,
  nc_init strptime f al further = Ok m ->
  (i < length (nm_lats m))%nat -> (j < length (nm_lons m))%nat ->
  nc_get_data m [t; i; j] = Ok vals ->
  length vals = length (nm_attrs m) /\
  forall q attr v coords, nth_error (nm_attrs m) q = Some attr ->
    dget attr (nf_vars f) = Some v -> nv_dims v = Some coords ->
    exists ix, length ix = length coords /\
      (exists x, nth_error vals q = Some x /\ nv_val v ix = Ok x) /\
      forall p c n, nth_error coords p = Some c -> nth_error ix p = Some n ->
        (c = al_lat al -> nth_error (nf_lats f) n = nth_error (nm_lats m) i) /\
        (c = al_lon al -> c <> al_lat al -> nth_error (nf_lons f) n = nth_error (nm_lons m) j) /\
        (c = al_time al -> c <> al_lat al -> c <> al_lon al -> n = t) /\
        (c <> al_lat al -> c <> al_lon al -> c <> al_time al -> dget c further = Some n).
Proof.
  intros strptime f al further m t i j vals E Hi Hj G.
  destruct (netcdf_indices _ _ _ _ _ E) as [[_ RA] [[_ RO] _]].
  assert (nm_file m = f /\ nm_al m = al /\ nm_further m = further) as [F1 [F2 F3]].
  { unfold nc_init in E. destruct (nc_coordinate (nf_lats f)) as [la|]; [|discriminate].
    destruct (nc_coordinate (nf_lons f)) as [lo|]; [|discriminate].
    cbn [rbind] in E. destruct (nc_time_unit strptime (nf_units f)) as [[step start]|]; [|discriminate].
    cbn [rbind] in E. injection E as <-. auto. }
  unfold nc_get_data in G. split; [eapply mapM_length; exact G|].
  intros q attr v coords Hq Hv Hc.
  destruct (mapM_nth _ _ _ _ _ G q attr Hq) as [x [X1 X2]]. cbn beta in X2.
  rewrite F1, Hv, Hc, F2, F3 in X2.
  match type of X2 with rbind ?e _ = _ => destruct e as [ix|] eqn:M end; [|discriminate].
  cbn [rbind] in X2. exists ix. split; [eapply mapM_length; exact M|].
  split; [exists x; auto|]. intros p c n Hp Hn.
  destruct (mapM_nth _ _ _ _ _ M p c Hp) as [n' [N1 N2]]. cbn beta in N2.
  rewrite Hn in N1. injection N1 as <-.
  destruct (String.eqb_spec c (al_lat al)) as [EA|NA].
  { injection N2 as <-. repeat split; intros; try contradiction. apply RA. exact Hi. }
  destruct (String.eqb_spec c (al_lon al)) as [EO|NO].
  { injection N2 as <-. repeat split; intros; try contradiction. apply RO. exact Hj. }
  destruct (String.eqb_spec c (al_time al)) as [ET|NT].
  { injection N2 as <-. repeat split; intros; try contradiction. }
  repeat split; intros; try contradiction.
  destruct (dget c further) as [k|]; [|discriminate]. injection N2 as <-. reflexivity.
Qed.
Print Assumptions netcdf_data.

(** The time axis of a file with these units: steps of so many seconds since the start. *)
Inductive time_units (strptime : string -> string -> option R) (units : string) : R -> R -> Prop :=
| TimeUnits : forall text step start,
    (units = ("hours since " ++ text)%string /\ step = 3600) \/ (units = ("seconds since " ++ text)%string /\ step = 1) ->
    strptime text "%Y-%m-%d %H:%M" = Some start \/
      (strptime text "%Y-%m-%d %H:%M" = None /\ strptime text "%Y-%m-%d %H:%M:%S" = Some start) ->
    time_units strptime units step start.

Lemma prefix_drop : forall p s, String.prefix p s = true -> s = (p ++ str_drop (String.length p) s)%string.
Proof.
  induction p as [|c p IH]; intros s H.
  - unfold str_drop. cbn. rewrite Nat.sub_0_r. clear H. induction s as [|c s IH]; [reflexivity|]. cbn. f_equal. exact IH.
  - destruct s as [|c' s]; [discriminate|]. cbn in H. destruct (ascii_dec c c') as [->|]; [|discriminate].
    cbn. f_equal. exact (IH s H).
Qed.

Lemma time_units_sound : forall strptime units step start, nc_time_unit strptime units = Ok (step, start) ->
  time_units strptime units (IZR step) start.
Proof.
  intros strptime units step start H. unfold nc_time_unit in H.
  assert (exists text, ((units = ("hours since " ++ text)%string /\ step = 3600%Z) \/ (units = ("seconds since " ++ text)%string /\ step = 1%Z)) /\
    (strptime text "%Y-%m-%d %H:%M" = Some start \/
      (strptime text "%Y-%m-%d %H:%M" = None /\ strptime text "%Y-%m-%d %H:%M:%S" = Some start))) as [text [A B]].
  { destruct (String.prefix "hours since " units) eqn:P1; [|destruct (String.prefix "seconds since " units) eqn:P2; [|discriminate]];
    cbn [rbind] in H; [exists (str_drop 12 units)|exists (str_drop 14 units)];
    (split; [|destruct (strptime _ "%Y-%m-%d %H:%M"); [injection H as _ <-; auto|destruct (strptime _ "%Y-%m-%d %H:%M:%S"); [injection H as _ <-; auto|discriminate]]]).
    - left. split; [exact (prefix_drop _ _ P1)|]. destruct (strptime _ "%Y-%m-%d %H:%M"); [|destruct (strptime _ "%Y-%m-%d %H:%M:%S")]; congruence.
    - right. split; [exact (prefix_drop _ _ P2)|]. destruct (strptime _ "%Y-%m-%d %H:%M"); [|destruct (strptime _ "%Y-%m-%d %H:%M:%S")]; congruence. }
  apply TimeUnits with text; auto. destruct A as [[-> ->]|[-> ->]]; auto.
Qed.

(** C96.  The time axis: whole hours or seconds since the start.  Full statement
    (times with fractions): false, see [netcdf_times_refuted]. *)
Theorem netcdf_times_partial : forall strptime f al further m k z,
  nc_init strptime f al further = Ok m ->
  nth_error (nf_times f) k = Some (IZR z) ->
  exists step start, time_units strptime (nf_units f) step start /\
    nth_error (nm_times m) k = Some (start + IZR z * step).
Proof.
  intros strptime f al further m k z E H. unfold nc_init in E.
  destruct (nc_coordinate (nf_lats f)) as [la|]; [|discriminate].
  destruct (nc_coordinate (nf_lons f)) as [lo|]; [|discriminate].
  cbn [rbind] in E. destruct (nc_time_unit strptime (nf_units f)) as [[step start]|] eqn:U; [|discriminate].
  cbn [rbind] in E. injection E as <-. exists (IZR step), start. split; [apply time_units_sound; auto|].
  cbn [nm_times]. rewrite nth_error_map, H. cbn [option_map]. rnum. f_equal. rewrite mult_IZR. f_equal. f_equal. f_equal.
  unfold py_int. rnum. destruct (Rltb_spec (IZR z) 0).
  - rewrite <- opp_IZR, (Int_part_spec _ (- z)) by lra. lia.
  - apply Int_part_spec. lra.
Qed.
Print Assumptions netcdf_times_partial.

(** A file with latitudes from north to south and variables of two orders. *)
Definition nc_example (times : list R) : nc_file R :=
  mkFile [60; 50; 40] [8; 9] times "hours since 1900-01-01 00:00"
    [("latitude", mkVar (Some ["latitude"]) (fun _ => Ok 0));
     ("wind", mkVar (Some ["time"; "latitude"; "longitude"])
        (fun ix => match ix with [t; i; j] => Ok (INR (100 * t + 10 * i + j)) | _ => Raise IndexError end));
     ("depth", mkVar (Some ["longitude"; "latitude"])
        (fun ix => match ix with [j; i] => Ok (INR (10 * i + j)) | _ => Raise IndexError end))].
Definition nc_names := mkAliases "latitude" "longitude" "time".

Lemma nc_example_model : forall times, exists m,
  nc_init (fun _ _ => Some 0) (nc_example times) nc_names [] = Ok m /\
  nm_lats m = [40; 50; 60] /\ nm_lats_flipped m = true /\ nm_lons m = [8; 9] /\ nm_lons_flipped m = false /\
  nm_attrs m = ["wind"; "depth"] /\
  nm_times m = map (fun p => 0 + IZR (py_int p * 3600)) times /\ nm_al m = nc_names /\
  nm_file m = nc_example times.
Proof.
  intros times. eexists. split.
  - unfold nc_init. cbn [nf_lats nf_lons nc_example]. unfold nc_coordinate.
    change (py_last [60; 50; 40]) with (Ok 40). change (py_last [8; 9]) with (Ok 9).
    change (py_nth [60; 50; 40] 0) with (Ok 60). change (py_nth [8; 9] 0) with (Ok 8).
    cbn [rbind]. rnum. rewrite (Rltb_true 40 60), (Rltb_false 9 8) by lra. cbn [rbind].
    reflexivity.
  - repeat split; reflexivity.
Qed.

Example netcdf_example : exists m,
  nc_init (fun _ _ => Some 0) (nc_example [0; 1]) nc_names [] = Ok m /\
  (* latitude 40 is the last one in the file *)
  nc_get_data m [1; 0; 1]%nat = Ok [INR 121; INR 21] /\ nth_error (nm_times m) 1 = Some 3600.
Proof.
  destruct (nc_example_model [0; 1]) as [m [E [A [B [C [D [F [G [Al H]]]]]]]]]. exists m. split; [exact E|].
  split.
  - unfold nc_get_data. rewrite A, B, C, D, F, H, Al. reflexivity.
  - destruct (netcdf_times_partial _ _ _ _ _ 1%nat 1%Z E eq_refl) as [step [start [U T]]].
    inversion U as [text ? ? [[_ ->]|[X _]] [Y|[Y _]]]; [|discriminate|discriminate X|discriminate X]. injection Y as <-.
    rewrite T. f_equal. lra.
Qed.

(** C96.  Fractions of an hour are dropped: two different times of the file
    become one grid value. *)
Theorem netcdf_times_refuted : exists strptime f al further m step start,
  nc_init strptime f al further = Ok m /\ time_units strptime (nf_units f) step start /\
  nf_times f = [0; 1/2] /\ step = 3600 /\ nm_times m = [start; start].
Proof.
  destruct (nc_example_model [0; 1/2]) as [m [E [_ [_ [_ [_ [_ [G _]]]]]]]].
  exists (fun _ _ => Some 0), (nc_example [0; 1/2]), nc_names, [], m, 3600, 0.
  split; [exact E|]. split; [apply (time_units_sound _ _ 3600 0); reflexivity|]. split; [reflexivity|]. split; [reflexivity|].
  rewrite G. cbn [map]. unfold py_int. rnum. rewrite !Rltb_false by lra.
  rewrite (Int_part_spec 0 0), (Int_part_spec (1/2) 0) by lra. cbn [Z.mul].
  f_equal; [lra|]. f_equal. lra.
Qed.
Print Assumptions netcdf_times_refuted.
