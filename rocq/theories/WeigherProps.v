(** * Properties of the weighers (C45 - C49, C88) *)

From Coq Require Import String.
From Coq Require Import List Bool Arith ZArith Reals Lra Lia Sorted.
From Verif Require Import Py Num ListX WeigherModel.
Import ListNotations.
Open Scope string_scope.
Open Scope list_scope.
Open Scope R_scope.

(* ------------------------------------------------------------------ *)
(** ** Specification *)

(** Mean and standard deviation. *)
Definition mean (l : list R) : R := Rsum l / INR (length l).
Definition deviation (l : list R) : R :=
  sqrt (Rsum (map (fun x => (x - mean l)²) l) / INR (length l)).

(** A norm of vectors with [k] entries applied row by row. *)
Definition rowwise (k : nat) (f : list R -> R) (n : norm_fun) : Prop :=
  forall vecs, (forall v, In v vecs -> length v = k) -> n vecs = Ok (map f vecs).

(** Component-wise difference. *)
Definition diff (p q : list R) : list R := map (fun xy => fst xy - snd xy) (combine p q).

(** The boat speeds of the points around [p]: [pts] are the points with their boat speed. *)
Definition cylinder (f : list R -> R) (r : R) (pts : list (list R * R)) (p : list R) : list R :=
  map snd (filter (fun q => if Rle_dec (f (diff (fst q) p)) r then true else false) pts).

(** The deviation of a point from the mean of its cylinder, in units of the standard
    deviation there (or 1, if that vanishes). *)
Definition raw_deviation f r pts (p : list R * R) : R :=
  let c := cylinder f r pts (fst p) in
  let s := deviation c in
  Rabs (mean c - snd p) / (if Req_EM_T s 0 then 1 else s).

(** An array of points: boat speed in the last column. *)
Definition array_of (pts : list (list R * R)) : points := PArray (map (fun p => fst p ++ [snd p]) pts).

(** [m] is the largest value of [f] on [l]. *)
Definition is_max {A} (f : A -> R) (l : list A) (m : R) : Prop :=
  (forall x, In x l -> f x <= m) /\ (exists x, In x l /\ f x = m).

(* ------------------------------------------------------------------ *)
(** ** Lemmas *)

Lemma np_std_deviation : forall l, np_std l = deviation l.
Proof.
  intros l. unfold np_std, deviation, mean. rewrite !nsum_R. do 2 f_equal.
Qed.

Lemma deviation_nonneg : forall l, 0 <= deviation l.
Proof. intros. apply sqrt_pos. Qed.

Lemma is_max_exists : forall A (f : A -> R) l, l <> [] -> exists m, is_max f l m.
Proof.
  intros A f l H. destruct (nmaximum_nonempty (map f l)) as [m E].
  { destruct l; [congruence | discriminate]. }
  exists m. apply nmaximum_spec in E. destruct E as [E1 E2]. split.
  - intros x Hx. apply E2. apply in_map; auto.
  - apply in_map_iff in E1. destruct E1 as [x [E3 E4]]. eauto.
Qed.

Lemma normalize_map : forall A (f : A -> R) l m, is_max f l m -> m <> 0 ->
  normalize (map f l) = map (fun x => f x / m) l.
Proof.
  intros A f l m [H1 [x [H2 H3]]] Hm. unfold normalize.
  assert (nmaximum (map f l) = Ok m) as ->.
  { apply nmaximum_spec. split.
    - rewrite <- H3. apply in_map; auto.
    - intros y Hy. apply in_map_iff in Hy. destruct Hy as [z [<- Hz]]. auto. }
  rnum. rewrite Reqb_false by auto. rewrite map_map. reflexivity.
Qed.

Lemma normalize_zero : forall A (f : A -> R) l, is_max f l 0 -> normalize (map f l) = map f l.
Proof.
  intros A f l [H1 [x [H2 H3]]]. unfold normalize.
  assert (nmaximum (map f l) = Ok 0) as ->.
  { apply nmaximum_spec. split.
    - rewrite <- H3. apply in_map; auto.
    - intros y Hy. apply in_map_iff in Hy. destruct Hy as [z [<- Hz]]. auto. }
  rnum. rewrite Reqb_refl. reflexivity.
Qed.

Lemma vsub_diff : forall p q, vsub p q = diff p q.
Proof. reflexivity. Qed.

Lemma combine_map2 : forall A B C (f : A -> B) (g : A -> C) l,
  combine (map f l) (map g l) = map (fun x => (f x, g x)) l.
Proof. induction l as [|x l IH]; simpl; [auto|]. rewrite IH; auto. Qed.

Lemma removelast_snoc : forall A (l : list A) x, removelast (l ++ [x]) = l.
Proof. intros. apply removelast_last. Qed.

Lemma mask_snd : forall f r (pts : list (list R * R)) p,
  mask_list (map snd pts)
    (map (fun d => Rleb d r) (map f (map (fun q => vsub q p) (map fst pts)))) =
  cylinder f r pts p.
Proof.
  intros. rewrite !map_map. unfold cylinder. rewrite mask_list_map. f_equal.
  rewrite <- mask_list_filter. f_equal.
Qed.

Lemma cylinder_In : forall f r pts p, In p pts -> f (diff (fst p) (fst p)) <= r ->
  In (snd p) (cylinder f r pts (fst p)).
Proof.
  intros f r pts p H1 H2. unfold cylinder. apply in_map. apply filter_In. split; auto.
  destruct (Rle_dec _ _); auto.
Qed.

Lemma diffs_length : forall k (pts : list (list R * R)) p, (forall q, In q pts -> length (fst q) = k) -> length p = k ->
  forall v, In v (map (fun q => vsub q p) (map fst pts)) -> length v = k.
Proof.
  intros k pts p H1 H2 v Hv. apply in_map_iff in Hv. destruct Hv as [q [<- Hq]].
  apply in_map_iff in Hq. destruct Hq as [q' [<- Hq]]. unfold vsub.
  rewrite map_length, combine_length, (H1 _ Hq), H2. apply Nat.min_id.
Qed.

Lemma mean_weight_ok : forall k f n r pts p, rowwise k f n -> (forall q, In q pts -> length (fst q) = k) ->
  In p pts -> f (diff (fst p) (fst p)) <= r ->
  mean_weight n r (map fst pts) (map snd pts) (fst p) (snd p) = Ok (raw_deviation f r pts p).
Proof.
  intros k f n r pts p Hn Hk Hp Hf. unfold mean_weight.
  rewrite Hn by (apply diffs_length; auto). cbn [rbind]. rnum.
  rewrite mask_snd. pose proof (cylinder_In f r pts p Hp Hf) as Hin.
  unfold raw_deviation. destruct (cylinder f r pts (fst p)) as [|b c] eqn:E; [destruct Hin|].
  unfold std_or_1, np_mean. rewrite np_std_deviation. cbn [rbind]. rnum. rewrite nabs_R, nsum_R.
  unfold mean. f_equal. f_equal. unfold Reqb. destruct (Req_EM_T _ _); reflexivity.
Qed.

Lemma raw_deviation_nonneg : forall f r pts p, 0 <= raw_deviation f r pts p.
Proof.
  intros. unfold raw_deviation. apply Rmult_le_pos; [apply Rabs_pos|].
  left. apply Rinv_0_lt_compat. destruct (Req_EM_T _ _); [lra|].
  pose proof (deviation_nonneg (cylinder f r pts (fst p))). lra.
Qed.

Lemma is_max_nonneg : forall A (f : A -> R) l m, (forall x, 0 <= f x) -> is_max f l m -> 0 <= m.
Proof. intros A f l m H [_ [x [_ <-]]]. auto. Qed.

Lemma ratio_range : forall x m, 0 <= x <= m -> 0 < m -> 0 <= x / m <= 1.
Proof.
  intros x m H Hm. split.
  - apply Rmult_le_pos; [lra|]. left. apply Rinv_0_lt_compat; lra.
  - apply Rmult_le_reg_r with m; [lra|]. unfold Rdiv. rewrite Rmult_assoc, Rinv_l by lra. lra.
Qed.

Lemma Forall2_map_r : forall A B (f : A -> B) (P : A -> B -> Prop) l,
  (forall x, In x l -> P x (f x)) -> Forall2 P l (map f l).
Proof.
  induction l as [|x l IH]; simpl; intros H; constructor; auto.
Qed.

(* ------------------------------------------------------------------ *)
(** ** C45: CylindricMeanWeigher *)

(** For an array of points the weights are 1 - z/max z, where z is the deviation from
    the mean of the cylinder; the weights are in [0, 1], the point of the largest
    deviation has weight 0 unless all deviations vanish, and a point of smaller deviation
    has a larger weight. *)
Theorem mean_weights : forall k f n r dims w pts,
  mean_new r (Some n) dims = Ok w -> rowwise k f n ->
  pts <> [] -> (forall p, In p pts -> length (fst p) = k) -> (forall p, In p pts -> f (diff (fst p) (fst p)) <= r) ->
  let z := raw_deviation f r pts in
  exists ws m, snd (mean_weigh w (array_of pts)) = Ok ws /\ is_max z pts m /\
    Forall2 (fun p x => x = 1 - (if Req_EM_T m 0 then 0 else z p / m)) pts ws /\
    Forall (fun x => 0 <= x <= 1) ws /\
    (m <> 0 -> In 0 ws).
Proof.
  intros k f n r dims w pts Hw Hn Hne Hk Hf z. unfold mean_new in Hw. rnum.
  destruct (Rleb_spec r 0) as [|Hr]; [discriminate|]. injection Hw as <-.
  destruct (is_max_exists _ z pts Hne) as [m Hm].
  assert (Hp : mapM (fun pb => mean_weight n r (map fst pts) (map snd pts) (fst pb) (snd pb))
                 (combine (map fst pts) (map snd pts)) = Ok (map z pts)).
  { rewrite combine_map_fst_snd. apply mapM_Ok_map. intros p Hp. apply (mean_weight_ok k); auto. }
  exists (map (fun x => 1 - x) (normalize (map z pts))), m.
  assert (Hpos : 0 <= m) by (eapply is_max_nonneg; [|exact Hm]; intros; apply raw_deviation_nonneg).
  assert (HN : map (fun x => 1 - x) (normalize (map z pts)) =
               map (fun p => 1 - (if Req_EM_T m 0 then 0 else z p / m)) pts).
  { destruct (Req_EM_T m 0) as [->|Hm0].
    - rewrite normalize_zero by auto. rewrite map_map. apply map_ext_in. intros p Hp'.
      pose proof (raw_deviation_nonneg f r pts p). destruct Hm as [Hm _].
      pose proof (Hm p Hp') as A. unfold z in *. lra.
    - rewrite normalize_map with (m := m) by auto. rewrite map_map. reflexivity. }
  split; [|split; [exact Hm|]].
  - unfold mean_weigh, array_of, n_points. rewrite map_length.
    destruct (Nat.eqb_spec (length pts) 0) as [E|_]; [destruct pts; simpl in E; congruence|].
    cbn [set_points_reduce mw_dims mw_norm mw_radius snd]. rewrite !map_map.
    rewrite (map_ext _ fst) by (intros; apply removelast_last).
    rewrite (map_ext (fun x => last (fst x ++ [snd x]) 0) snd) by (intros; apply last_last).
    rewrite Hp. reflexivity.
  - rewrite HN. repeat split.
    + apply Forall2_map_r. auto.
    + apply Forall_forall. intros x Hx. apply in_map_iff in Hx. destruct Hx as [p [<- Hp']].
      destruct (Req_EM_T m 0); [lra|].
      pose proof (raw_deviation_nonneg f r pts p). destruct Hm as [Hm _].
      pose proof (ratio_range (z p) m). unfold z in *. pose proof (Hm p Hp'). lra.
    + intros Hm0. destruct Hm as [_ [p [Hp1 Hp2]]]. apply in_map_iff. exists p. split; auto.
      destruct (Req_EM_T m 0); [contradiction|]. rewrite Hp2. field. auto.
Qed.
Print Assumptions mean_weights.

(** The default norm of an array with the columns wind speed, wind angle, boat speed. *)
Definition default_norm (v : list R) : R :=
  sqrt ((nth 0 v 0 / 20)² + (nth 1 v 0 / 360)²).

Lemma standard_norm_two : forall vecs, (forall v, In v vecs -> length v = 2%nat) ->
  standard_norm None vecs = Ok (map default_norm vecs).
Proof.
  intros vecs H. unfold standard_norm. apply mapM_Ok_map. intros v Hv.
  pose proof (H v Hv) as L. destruct v as [|a [|b [|]]]; try discriminate.
  unfold broadcast_mul. cbn. unfold norm2, default_norm. cbn. do 2 f_equal. unfold Rsqr. field.
Qed.

(** With default arguments the same holds for the scaled distance of wind speed and angle. *)
Theorem mean_weights_default : forall r w pts,
  mean_new r None None = Ok w ->
  pts <> [] -> (forall p, In p pts -> length (fst p) = 2%nat) ->
  let z := raw_deviation default_norm r pts in
  exists ws m, snd (mean_weigh w (array_of pts)) = Ok ws /\ is_max z pts m /\
    Forall2 (fun p x => x = 1 - (if Req_EM_T m 0 then 0 else z p / m)) pts ws /\
    Forall (fun x => 0 <= x <= 1) ws /\
    (m <> 0 -> In 0 ws).
Proof.
  intros r w pts Hw Hne H2 z.
  assert (Hr : ~ r <= 0).
  { unfold mean_new in Hw. rnum. destruct (Rleb_spec r 0); [discriminate|auto]. }
  destruct (mean_weights 2 default_norm (standard_norm None) r None (mkMean r (Some (standard_norm None)) None) pts)
    as [ws [m [E Rest]]]; auto.
  { unfold mean_new. rnum. rewrite Rleb_false by lra. reflexivity. }
  { intros vecs Hv. apply standard_norm_two; auto. }
  { intros p Hp. pose proof (H2 p Hp) as L. destruct (fst p) as [|a [|b [|]]]; try discriminate.
    unfold default_norm, diff. cbn.
    replace ((a - a) / 20)² with 0 by (unfold Rsqr; field).
    replace ((b - b) / 360)² with 0 by (unfold Rsqr; field).
    rewrite Rplus_0_l, sqrt_0. lra. }
  exists ws, m. split; [|exact Rest]. rewrite <- E.
  unfold mean_new in Hw. rnum. rewrite Rleb_false in Hw by lra. injection Hw as <-.
  unfold mean_weigh, array_of, n_points. rewrite map_length.
  destruct (Nat.eqb (length pts) 0); reflexivity.
Qed.
Print Assumptions mean_weights_default.

(** The distance used for data: wind speeds count in units of 20, angles and coordinates in units of 360
    and boat speeds in units of 40. *)
Definition unit_of (k : string) : R :=
  if in_dec string_dec k ["TWS"; "AWS"] then 20
  else if in_dec string_dec k ["TWA"; "AWA"; "lat"; "lon"] then 360
  else if in_dec string_dec k ["BSP"; "SOG"] then 40 else 1.
Definition scaled_norm (keys : list string) (v : list R) : R :=
  sqrt (Rsum (map (fun kx => (snd kx / unit_of (fst kx))²) (combine keys v))).

Lemma smem_dec : forall (k : string) l, smem k l = if in_dec string_dec k l then true else false.
Proof.
  intros k l. unfold smem. destruct (in_dec string_dec k l) as [I|I].
  - apply existsb_exists. exists k. split; auto. apply String.eqb_refl.
  - destruct (existsb (String.eqb k) l) eqn:E; auto. apply existsb_exists in E. destruct E as [y [J Y]]. apply String.eqb_eq in Y. subst. contradiction.
Qed.

Lemma norm_scale_unit : forall k x, norm_scale k * x = x / unit_of k.
Proof.
  intros k x. unfold norm_scale, unit_of. rewrite !smem_dec.
  destruct (in_dec string_dec k ["TWS"; "AWS"]); [field|]. destruct (in_dec string_dec k ["TWA"; "AWA"; "lat"; "lon"]); [field|].
  destruct (in_dec string_dec k ["BSP"; "SOG"]); field.
Qed.

Lemma standard_norm_keys : forall keys, rowwise (length keys) (scaled_norm keys) (standard_norm (Some keys)).
Proof.
  intros keys vecs H. unfold standard_norm. apply mapM_Ok_map. intros v Hv. unfold broadcast_mul.
  rewrite map_length, (H v Hv), Nat.eqb_refl. cbn [rbind]. unfold norm2, scaled_norm. rewrite nsum_R.
  do 3 f_equal. rewrite map_map. clear H Hv. revert v. induction keys as [|k keys IH]; intros [|x v]; try reflexivity.
  cbn [map combine fst snd]. rewrite IH, norm_scale_unit. reflexivity.
Qed.

Lemma scaled_norm_refl : forall keys v, scaled_norm keys (diff v v) = 0.
Proof.
  intros keys v. unfold scaled_norm.
  assert (Rsum (map (fun kx => (snd kx / unit_of (fst kx))²) (combine keys (diff v v))) = 0) as ->.
  { revert v. induction keys as [|k keys IH]; intros [|x v]; try reflexivity.
    cbn [diff combine map fst snd Rsum]. unfold diff in IH. rewrite IH.
    replace (x - x) with 0 by lra. unfold Rdiv. rewrite Rmult_0_l. unfold Rsqr. lra. }
  apply sqrt_0.
Qed.

(** The points of a data object: all columns of numbers except the boat speed, and the boat
    speed. *)
Fixpoint number_columns (d : fdata) : list (string * list R) :=
  match d with
  | (k, CFloat l) :: r => if string_dec k "BSP" then number_columns r else (k, l) :: number_columns r
  | _ :: r => number_columns r
  | [] => []
  end.
Definition data_points (d : fdata) (speeds : list R) : list string * list (list R * R) :=
  let cs := number_columns d in
  (map fst cs, combine (map (fun i => map (fun c => nth i (snd c) 0) cs) (seq 0 (length speeds))) speeds).

Lemma sremove_iff : forall k l, NoDup l -> forall x, In x (sremove k l) <-> In x l /\ x <> k.
Proof.
  intros k l N. induction N as [|y l I N IH]; intros x; cbn [sremove]; [cbn; tauto|].
  destruct (String.eqb_spec k y) as [->|NE]; cbn [In]; [|rewrite IH]; split; intros H.
  - split; auto. intros ->. contradiction.
  - destruct H as [[<-|H] H2]; [contradiction|auto].
  - destruct H as [<-|[H1 H2]]; auto.
  - tauto.
Qed.

Lemma number_columns_spec : forall d, NoDup (map fst d) -> float_cols d (sremove "BSP" (map fst d)) = number_columns d.
Proof.
  intros d N. unfold float_cols.
  assert (forall x, In x (map fst d) -> smem x (sremove "BSP" (map fst d)) = if string_dec x "BSP" then false else true) as Q.
  { intros x I. rewrite smem_dec. destruct (in_dec string_dec x (sremove "BSP" (map fst d))) as [J|J]; rewrite sremove_iff in J by auto;
    destruct (string_dec x "BSP"); tauto. }
  revert Q. generalize (sremove "BSP" (map fst d)) as a. clear N. induction d as [|[k c] d IH]; intros a Q; [reflexivity|].
  cbn [flat_map number_columns fst snd]. rewrite (IH a) by (intros; apply Q; right; auto).
  destruct c as [l|n]; [|reflexivity]. rewrite (Q k) by (left; auto). destruct (string_dec k "BSP"); reflexivity.
Qed.

(** The same for data with default arguments: the points consist of all float columns
    except the boat speed, each scaled by its own factor. *)
Theorem mean_weights_data : forall r w d speeds keys pts,
  mean_new r None None = Ok w -> NoDup (map fst d) ->
  f_get d "BSP" = Ok (CFloat speeds) -> length speeds = f_rows d -> (0 < f_rows d)%nat ->
  data_points d speeds = (keys, pts) -> keys <> [] ->
  let z := raw_deviation (scaled_norm keys) r pts in
  exists ws m, snd (mean_weigh w (PData d)) = Ok ws /\ is_max z pts m /\ length pts = f_rows d /\
    Forall2 (fun p x => x = 1 - (if Req_EM_T m 0 then 0 else z p / m)) pts ws /\
    Forall (fun x => 0 <= x <= 1) ws /\
    (m <> 0 -> In 0 ws).
Proof.
  intros r w d speeds keys pts Hw Hnd Hg Hl Hr Hd Hkeys z.
  unfold data_points in Hd. rewrite Hl, <- (number_columns_spec d Hnd) in Hd. set (cs := float_cols d (sremove "BSP" (map fst d))) in *.
  injection Hd as Ek Ep.
  set (rows := map (fun i => map (fun c => nth i (snd c) 0) cs) (seq 0 (f_rows d))) in *.
  assert (Lr : length rows = length speeds) by (unfold rows; rewrite map_length, seq_length; auto).
  assert (Lp : length pts = f_rows d).
  { rewrite <- Ep, combine_length, Lr, Nat.min_id. auto. }
  assert (E1 : map fst pts = rows) by (rewrite <- Ep; apply map_fst_combine; auto).
  assert (E2 : map snd pts = speeds) by (rewrite <- Ep; apply map_snd_combine; auto).
  assert (Hpk : forall p, In p pts -> length (fst p) = length keys).
  { intros p Hp. apply (in_map fst) in Hp. rewrite E1 in Hp. unfold rows in Hp. apply in_map_iff in Hp.
    destruct Hp as [i [<- _]]. rewrite map_length, <- Ek, map_length. reflexivity. }
  assert (Hrp : ~ r <= 0).
  { unfold mean_new in Hw. rnum. destruct (Rleb_spec r 0); [discriminate|auto]. }
  destruct (mean_weights (length keys) (scaled_norm keys) (standard_norm (Some keys)) r None
     (mkMean r (Some (standard_norm (Some keys))) None) pts) as [ws [m [E [Hm Rest]]]]; auto.
  { unfold mean_new. rnum. rewrite Rleb_false by lra. reflexivity. }
  { apply standard_norm_keys. }
  { intros E. rewrite E in Lp. simpl in Lp. lia. }
  { intros p _. rewrite scaled_norm_refl. lra. }
  exists ws, m. split; [|split; [|split]]; auto. rewrite <- E. clear E Rest.
  unfold mean_new in Hw. rnum. rewrite Rleb_false in Hw by lra. injection Hw as <-.
  unfold mean_weigh at 1. cbn [n_points mw_dims mw_norm mw_radius].
  destruct (Nat.eqb_spec (f_rows d) 0); [lia|].
  unfold set_points_reduce.
  assert (smem "BSP" (map fst d) = true) as ->.
  { unfold f_get in Hg. destruct (find _ d) as [[k c]|] eqn:Ef; [|discriminate]. apply find_some in Ef.
    destruct Ef as [Ef1 Ef2]. cbn in Ef2. apply String.eqb_eq in Ef2. subst k.
    unfold smem. apply existsb_exists. exists "BSP". split; [|reflexivity]. apply (in_map fst) in Ef1. exact Ef1. }
  rewrite Hg. cbn [as_floats rbind]. unfold f_numerical. fold cs.
  destruct (sremove "BSP" (map fst d)) as [|a0 a1] eqn:Ea.
  { exfalso. apply Hkeys. rewrite <- Ek. unfold cs, float_cols.
    clear. induction d as [|[k c] d IH]; [reflexivity|]. cbn. destruct c; cbn; auto. }
  destruct cs as [|c0 cs0] eqn:Ecs; [exfalso; apply Hkeys; rewrite <- Ek; reflexivity|]. rewrite <- Ecs in *.
  rewrite Ek.
  replace (to_rows (f_rows d) (map snd cs)) with rows.
  2:{ unfold rows, to_rows. apply map_ext. intros i. rewrite map_map, Ecs. reflexivity. }
  unfold mean_weigh, array_of. cbn [n_points mw_dims mw_norm mw_radius]. rewrite map_length, Lp.
  destruct (Nat.eqb_spec (f_rows d) 0); [lia|]. cbn [set_points_reduce snd]. rewrite !map_map.
  rewrite (map_ext (fun x => removelast (fst x ++ [snd x])) fst) by (intros; apply removelast_last).
  rewrite (map_ext (fun x => last (fst x ++ [snd x]) 0) snd) by (intros; apply last_last).
  rewrite E1, E2. reflexivity.
Qed.
Print Assumptions mean_weights_data.

Example mean_weights_data_case :
  let d := [("sail", COther 2); ("TWS", CFloat [10; 11]); ("BSP", CFloat [5; 6]); ("heel", CFloat [1; 2])] in
  NoDup (map fst d) /\ f_get d "BSP" = Ok (CFloat [5; 6]) /\ length [5; 6] = f_rows d /\
  data_points d [5; 6] = (["TWS"; "heel"], [([10; 1], 5); ([11; 2], 6)]).
Proof.
  split; [|repeat split]. cbn. repeat constructor; cbn; intuition discriminate.
Qed.

(** The radius must be positive, and no points give no weights. *)
Theorem mean_rejects : forall r n dims, (r <= 0 -> mean_new r n dims = Raise ValueError) /\
  (0 < r -> exists w, mean_new r n dims = Ok w /\ mean_weigh w (PArray []) = (w, Ok [])).
Proof.
  intros r n dims. unfold mean_new. rnum. split; intros H.
  - rewrite Rleb_true by lra. reflexivity.
  - rewrite Rleb_false by lra. eexists. split; reflexivity.
Qed.
Print Assumptions mean_rejects.

(** Points with four columns are rejected with the default arguments, although the
    documentation allows at least three. *)
Theorem mean_four_columns_refuted : exists w pts,
  mean_new (1 / 20) None None = Ok w /\ pts <> [] /\ (forall p, In p pts -> length (fst p) = 3%nat) /\
  snd (mean_weigh w (array_of pts)) = Raise ValueError.
Proof.
  exists (mkMean (1 / 20) None None), [([1; 2; 3], 4)]. repeat split.
  - unfold mean_new. rnum. rewrite Rleb_false by lra. reflexivity.
  - discriminate.
  - intros p [<-|[]]. reflexivity.
Qed.
Print Assumptions mean_four_columns_refuted.

(** Data without any numeric column besides the boat speed gets no weights at all. *)
Theorem mean_only_speed_refuted : exists w d,
  mean_new (1 / 20) None None = Ok w /\ f_rows d = 2%nat /\ snd (mean_weigh w (PData d)) = Ok [].
Proof.
  exists (mkMean (1 / 20) None None), [("BSP", CFloat [1; 2])]. repeat split.
  unfold mean_new. rnum. rewrite Rleb_false by lra. reflexivity.
Qed.
Print Assumptions mean_only_speed_refuted.

(** Non-vacuity: three points, the third far from the others in speed. *)
Example mean_weights_case : exists w,
  mean_new (1 / 20) None None = Ok w /\
  let pts := [([10; 90], 5); ([10; 91], 6); ([10; 92], 9)] in
  pts <> [] /\ (forall p, In p pts -> length (fst p) = 2%nat).
Proof.
  exists (mkMean (1 / 20) None None). split; [|split].
  - unfold mean_new. rnum. rewrite Rleb_false by lra. reflexivity.
  - discriminate.
  - intros p [<-|[<-|[<-|[]]]]; reflexivity.
Qed.

(* ------------------------------------------------------------------ *)
(** ** C46: CylindricMemberWeigher *)

(** [q] lies in the cylinder around [p]. *)
Definition in_cylinder (f : list R -> R) (r len : R) (p q : list R * R) : bool :=
  if Rle_dec (Rabs (snd q - snd p)) len then
    if Rle_dec (f (diff (fst q) (fst p))) r then true else false
  else false.

(** The number of other points (positions different from [i]) in the cylinder of point [i]. *)
Definition others (f : list R -> R) (r len : R) (pts : list (list R * R)) (i : nat) : nat :=
  let p := nth i pts ([], 0) in
  length (filter (fun j => negb (Nat.eqb j i) && in_cylinder f r len p (nth j pts ([], 0)))%bool
            (seq 0 (length pts))).

Lemma filter_length_map : forall A B (g : A -> B) (p : B -> bool) l,
  length (filter p (map g l)) = length (filter (fun x => p (g x)) l).
Proof. induction l as [|x l IH]; simpl; [auto|]. destruct (p (g x)); simpl; auto. Qed.

Lemma filter_seq_nth : forall A (p : A -> bool) l d,
  length (filter p l) = length (filter (fun j => p (nth j l d)) (seq 0 (length l))).
Proof.
  intros A p l d. rewrite <- (map_nth_seq _ l d) at 1. apply filter_length_map.
Qed.

Lemma filter_remove_one : forall (p : nat -> bool) l i, NoDup l -> In i l -> p i = true ->
  length (filter p l) = S (length (filter (fun j => negb (Nat.eqb j i) && p j)%bool l)).
Proof.
  induction l as [|x l IH]; intros i Hnd Hin Hp; [destruct Hin|].
  inversion Hnd; subst. simpl. destruct Hin as [->|Hin].
  - rewrite Hp, Nat.eqb_refl. simpl. f_equal.
    assert (E : forall j, In j l -> (negb (Nat.eqb j i) && p j)%bool = p j).
    { intros j Hj. destruct (Nat.eqb_spec j i); [subst; contradiction|reflexivity]. }
    clear -E. induction l as [|y l IH]; [reflexivity|]. simpl.
    rewrite E by (left; auto). destruct (p y); simpl; rewrite IH; auto; intros; apply E; right; auto.
  - destruct (Nat.eqb_spec x i); [subst; contradiction|]. simpl.
    destruct (p x); simpl; rewrite (IH i) by auto; auto.
Qed.

Lemma member_weight_ok : forall k f n r len dims pts i, rowwise k f n -> (forall p, In p pts -> length (fst p) = k) -> (i < length pts)%nat -> 0 <= len ->
  (forall p, In p pts -> f (diff (fst p) (fst p)) <= r) ->
  member_weight (mkMember r len n dims) (map (fun p => fst p ++ [snd p]) pts)
    (fst (nth i pts ([], 0)) ++ [snd (nth i pts ([], 0))]) = Ok (INR (others f r len pts i)).
Proof.
  intros k f n r len dims pts i Hn Hk Hi Hlen Hf. unfold member_weight. cbn [bw_norm bw_radius bw_length].
  rewrite removelast_snoc, last_last. rewrite !map_map.
  rewrite (map_ext (fun x : list R * R => vsub (removelast (fst x ++ [snd x])) (fst (nth i pts ([], 0))))
             (fun x => vsub (fst x) (fst (nth i pts ([], 0))))) by (intros; rewrite removelast_snoc; reflexivity).
  rewrite <- (map_map fst (fun x => vsub x (fst (nth i pts ([], 0))))).
  rewrite Hn. 2:{ apply diffs_length; auto. apply Hk. apply nth_In; auto. }
  cbn [rbind]. rewrite !map_map.
  set (p := nth i pts ([], 0)).
  rewrite combine_map2, map_map. rewrite filter_length_map. cbn [fst snd]. f_equal.
  set (g := fun x : list R * R => _).
  assert (E : forall q, g q = in_cylinder f r len p q).
  { intros q. unfold g, in_cylinder. rewrite last_last. rewrite vsub_diff. rnum.
    rewrite nabs_R. unfold Rleb. destruct (Rle_dec _ _), (Rle_dec _ _); reflexivity. }
  rewrite (filter_seq_nth _ g pts ([], 0)).
  rewrite (filter_remove_one _ _ i).
  - rewrite S_INR. unfold others. fold p. rewrite (filter_ext (fun j => (negb (Nat.eqb j i) && g (nth j pts ([], 0)))%bool) (fun j => (negb (Nat.eqb j i) && in_cylinder f r len p (nth j pts ([], 0)))%bool)).
    + lra.
    + intros j. rewrite E. reflexivity.
  - apply seq_NoDup.
  - apply in_seq. lia.
  - rewrite E. fold p. unfold in_cylinder. assert (In p pts) by (apply nth_In; auto).
    destruct (Rle_dec _ _) as [|Hc].
    + destruct (Rle_dec _ _) as [|Hc]; auto.
    + exfalso; apply Hc. rewrite Rminus_diag_eq by reflexivity. rewrite Rabs_R0. exact Hlen.
Qed.

(** The weight of a point is the number of other points in its cylinder, divided by the
    largest such number; all weights are in [0, 1] and the largest is 1 unless no cylinder
    holds another point. *)
Theorem member_weights : forall k f n r len dims w pts,
  member_new r len (Some n) dims = Ok w -> rowwise k f n ->
  pts <> [] -> (forall p, In p pts -> length (fst p) = k) -> (forall p, In p pts -> f (diff (fst p) (fst p)) <= r) ->
  let c i := INR (others f r len pts i) in
  exists ws m, snd (member_weigh w (array_of pts)) = Ok ws /\ is_max c (seq 0 (length pts)) m /\
    length ws = length pts /\
    (forall i, (i < length pts)%nat -> nth i ws 0 = if Req_EM_T m 0 then 0 else c i / m) /\
    Forall (fun x => 0 <= x <= 1) ws /\ (m <> 0 -> In 1 ws).
Proof.
  intros k f n r len dims w pts Hw Hn Hne Hk Hf c. unfold member_new in Hw. rnum.
  destruct (Rleb_spec r 0) as [|Hr]; [discriminate|].
  destruct (Rltb_spec len 0) as [|Hl]; [discriminate|]. injection Hw as <-.
  set (idx := seq 0 (length pts)).
  assert (Hidx : idx <> []) by (destruct pts; [congruence|discriminate]).
  destruct (is_max_exists _ c idx Hidx) as [m Hm].
  assert (Hpos : 0 <= m) by (eapply is_max_nonneg; [|exact Hm]; intros; apply pos_INR).
  set (rows := map (fun p => fst p ++ [snd p]) pts).
  assert (Hmap : mapM (member_weight (mkMember r len n dims) rows) rows = Ok (map c idx)).
  { assert (E : rows = map (fun i => fst (nth i pts ([], 0)) ++ [snd (nth i pts ([], 0))]) idx).
    { unfold rows at 1, idx. rewrite <- (map_nth_seq _ pts ([], 0)) at 1. rewrite map_map. reflexivity. }
    rewrite E at 2. clear E.
    assert (A : forall l, (forall i, In i l -> (i < length pts)%nat) ->
      mapM (member_weight (mkMember r len n dims) rows)
        (map (fun i => fst (nth i pts ([], 0)) ++ [snd (nth i pts ([], 0))]) l) = Ok (map c l)).
    { induction l as [|i l IH]; intros Hl'; [reflexivity|]. cbn [map mapM].
      pose proof (member_weight_ok k f n r len dims pts i Hn Hk (Hl' i (or_introl eq_refl)) ltac:(lra) Hf) as Q.
      fold rows in Q. rewrite Q.
      cbn [rbind]. rewrite IH by (intros; apply Hl'; right; auto). reflexivity. }
    apply A. intros i Hi. apply in_seq in Hi. lia. }
  exists (map (fun i => if Req_EM_T m 0 then 0 else c i / m) idx), m.
  assert (HN : normalize (map c idx) = map (fun i => if Req_EM_T m 0 then 0 else c i / m) idx).
  { destruct (Req_EM_T m 0) as [->|Hm0].
    - rewrite normalize_zero by auto. apply map_ext_in. intros i Hi. destruct Hm as [Hm _].
      pose proof (Hm i Hi). pose proof (pos_INR (others f r len pts i)). unfold c in *. lra.
    - apply normalize_map; auto. }
  split; [|split; [exact Hm|]].
  - unfold member_weigh, array_of. cbn [n_points]. rewrite map_length.
    destruct (Nat.eqb_spec (length pts) 0) as [E|_]; [destruct pts; simpl in E; congruence|].
    cbn [set_points bw_dims snd]. fold rows. rewrite Hmap. cbn [rbind]. rewrite HN. reflexivity.
  - split; [rewrite map_length; unfold idx; apply seq_length|]. split; [|split].
    + intros i Hi. apply nth_error_nth. rewrite nth_error_map. unfold idx. rewrite nth_error_seq.
      destruct (Nat.ltb_spec i (length pts)); [reflexivity|lia].
    + apply Forall_forall. intros x Hx. apply in_map_iff in Hx. destruct Hx as [i [<- Hi]].
      destruct (Req_EM_T m 0); [lra|]. destruct Hm as [Hm _]. pose proof (Hm i Hi).
      pose proof (pos_INR (others f r len pts i)).
      apply ratio_range; unfold c in *; lra.
    + intros Hm0. destruct Hm as [_ [i [Hi1 Hi2]]]. apply in_map_iff. exists i. split; auto.
      destruct (Req_EM_T m 0); [contradiction|]. rewrite Hi2. field; auto.
Qed.
Print Assumptions member_weights.

(** Radius and length are checked at construction. *)
Theorem member_rejects : forall r len n dims,
  ((exists w, member_new r len n dims = Ok w) <-> (0 < r /\ 0 <= len)) /\
  (member_new r len n dims = Raise ValueError <-> (r <= 0 \/ len < 0)).
Proof.
  intros. unfold member_new. rnum. destruct (Rleb_spec r 0).
  - split; [split; [intros [w H]; discriminate | lra]|]. split; auto.
  - destruct (Rltb_spec len 0); [split; [split; [intros [w H]; discriminate | lra]|split; auto]|].
    split; [split; [lra | eauto]|]. split; [discriminate|lra].
Qed.
Print Assumptions member_rejects.

(** With the dimensions given by name and the default norm nothing can be weighed: the
    norm is scaled for all dimensions but gets all columns except the last. *)
Theorem member_dimensions_refuted : exists w d,
  member_new (1 / 20) (1 / 20) None (Some ["TWS"; "TWA"; "BSP"]) = Ok w /\ f_rows d = 1%nat /\
  snd (member_weigh w (PData d)) = Raise ValueError.
Proof.
  eexists. exists [("TWS", CFloat [10]); ("TWA", CFloat [90]); ("BSP", CFloat [5])].
  split; [|split].
  - unfold member_new. rnum. rewrite Rleb_false, Rltb_false by lra. reflexivity.
  - reflexivity.
  - reflexivity.
Qed.
Print Assumptions member_dimensions_refuted.

Lemma default_norm_refl : forall v, default_norm (diff v v) = 0.
Proof.
  intros v. unfold default_norm.
  assert (forall i, nth i (diff v v) 0 = 0) as E.
  { induction v as [|x v IH]; intros [|i]; simpl; try reflexivity; [lra | apply IH]. }
  rewrite !E. replace ((0 / 20)² + (0 / 360)²) with 0 by (unfold Rsqr; field). apply sqrt_0.
Qed.

(** Non-vacuity: the hypotheses of [mean_weights] and [member_weights] hold for the
    default norm and two close points. *)
Example member_weights_case : exists w,
  let n := standard_norm None in
  let pts := [([10; 90], 5); ([10; 91], 5)] in
  member_new (1 / 20) (1 / 20) (Some n) None = Ok w /\ rowwise 2 default_norm n /\
  pts <> [] /\ (forall p, In p pts -> length (fst p) = 2%nat) /\ (forall p, In p pts -> default_norm (diff (fst p) (fst p)) <= 1 / 20).
Proof.
  eexists. split; [|split; [|split; [|split]]].
  - unfold member_new. rnum. rewrite Rleb_false, Rltb_false by lra. reflexivity.
  - intros vecs Hv. apply standard_norm_two; auto.
  - discriminate.
  - intros p [<-|[<-|[]]]; reflexivity.
  - intros p _. rewrite default_norm_refl. lra.
Qed.

(* ------------------------------------------------------------------ *)
(** ** C47: FluctuationWeigher *)

Fixpoint Rprod (l : list R) : R := match l with [] => 1 | x :: r => x * Rprod r end.

(** The column of an attribute. *)
Definition column_of (d : fdata) (k : string) : list R :=
  match find (fun kc => String.eqb (fst kc) k) d with Some (_, CFloat l) => l | _ => [] end.

(** The values of a column measured within the time window around row [i]. *)
Definition window (times : list Z) (before after : Z) (i : nat) (col : list R) : list R :=
  let t j := nth j times 0%Z in
  map (fun j => nth j col 0)
    (filter (fun j => (Z.leb (t i - before) (t j) && Z.leb (t j) (t i + after))%bool)
       (seq 0 (length times))).

(** The documented weight: the product over the attributes of the truncated linear
    function of the deviation. *)
Definition fluct_spec (attrs : list string) (ubs : list R) (times : list Z) (before after : Z)
    (d : fdata) (i : nat) : R :=
  Rprod (map (fun ku => Rmax 0 (1 - deviation (window times before after i (column_of d (fst ku))) / snd ku))
           (combine attrs ubs)).

Definition chronological (times : list Z) : Prop :=
  forall i j, (i <= j < length times)%nat -> (nth i times 0 <= nth j times 0)%Z.

Lemma filter_first : forall p n s l, filter p (seq 0 n) = s :: l ->
  p s = true /\ (s < n)%nat /\ forall j, (j < n)%nat -> p j = true -> (s <= j)%nat.
Proof.
  intros p n s l E.
  assert (In s (filter p (seq 0 n))) as Hs by (rewrite E; left; auto).
  apply filter_In in Hs. destruct Hs as [Hs Hp]. apply in_seq in Hs. split; auto. split; [lia|].
  intros j Hj Hpj. assert (In j (filter p (seq 0 n))) as Hi by (apply filter_In; split; auto; apply in_seq; lia).
  pose proof (StronglySorted_filter _ lt p (seq 0 n) (seq_sorted n 0)) as Hst.
  rewrite E in Hi, Hst. inversion Hst as [|? ? ? Hall]; subst. destruct Hi as [->|Hi]; [lia|].
  rewrite Forall_forall in Hall. apply Hall in Hi. lia.
Qed.

Lemma sorted_snoc : forall (l : list nat) e, StronglySorted lt (l ++ [e]) -> forall x, In x l -> (x < e)%nat.
Proof.
  induction l as [|y l IH]; intros e H x Hx; [destruct Hx|].
  simpl in H. inversion H as [|? ? H1 H2]; subst. destruct Hx as [->|Hx].
  - rewrite Forall_forall in H2. apply H2. apply in_or_app. right; left; auto.
  - apply IH; auto.
Qed.

Lemma filter_last : forall p n e l, rev (filter p (seq 0 n)) = e :: l ->
  p e = true /\ (e < n)%nat /\ forall j, (j < n)%nat -> p j = true -> (j <= e)%nat.
Proof.
  intros p n e l E.
  assert (filter p (seq 0 n) = rev l ++ [e]) as E'.
  { rewrite <- (rev_involutive (filter p (seq 0 n))), E. reflexivity. }
  assert (In e (filter p (seq 0 n))) as Hs by (rewrite E'; apply in_or_app; right; left; auto).
  apply filter_In in Hs. destruct Hs as [Hs Hp]. apply in_seq in Hs. split; auto. split; [lia|].
  intros j Hj Hpj. assert (In j (filter p (seq 0 n))) as Hi by (apply filter_In; split; auto; apply in_seq; lia).
  pose proof (StronglySorted_filter _ lt p (seq 0 n) (seq_sorted n 0)) as Hst.
  rewrite E' in Hi, Hst. apply in_app_or in Hi. destruct Hi as [Hi|[<-|[]]]; [|lia].
  pose proof (sorted_snoc _ _ Hst j Hi). lia.
Qed.

Lemma filter_interval : forall p n s e, (s <= e < n)%nat ->
  (forall j, (j < n)%nat -> p j = true <-> (s <= j <= e)%nat) ->
  filter p (seq 0 n) = seq s (S e - s).
Proof.
  intros p n s e H Hp.
  replace n with (s + ((S e - s) + (n - S e)))%nat by lia. rewrite seq_app, seq_app, !filter_app.
  rewrite (filter_nil _ p (seq 0 s)), (filter_all _ p (seq (0 + s) _)), (filter_nil _ p (seq (0 + s + _) _)).
  - rewrite app_nil_r. reflexivity.
  - intros j Hj. apply in_seq in Hj. destruct (p j) eqn:E; auto. apply Hp in E; lia.
  - intros j Hj. apply in_seq in Hj. apply Hp; lia.
  - intros j Hj. apply in_seq in Hj. destruct (p j) eqn:E; auto. apply Hp in E; lia.
Qed.

Lemma skipn_seq : forall k s n, skipn k (seq s n) = seq (s + k) (n - k).
Proof.
  induction k as [|k IH]; intros s n; simpl.
  - rewrite Nat.add_0_r, Nat.sub_0_r. reflexivity.
  - destruct n; simpl; [reflexivity|]. rewrite IH. f_equal. lia.
Qed.

Lemma firstn_seq : forall k s n, (k <= n)%nat -> firstn k (seq s n) = seq s k.
Proof.
  induction k as [|k IH]; intros s n H; [reflexivity|]. destruct n; [lia|]. simpl. rewrite IH; auto; lia.
Qed.

Lemma to_rows_slice : forall n cs s e, (s <= e < n)%nat ->
  firstn (S e - s) (skipn s (to_rows n cs)) =
  map (fun i => map (fun c => nth i c 0) cs) (seq s (S e - s)).
Proof.
  intros. unfold to_rows. rewrite skipn_map, firstn_map, skipn_seq, firstn_seq by lia. reflexivity.
Qed.

Lemma window_column : forall (cs : list (list R)) k col idx, nth_error cs k = Some col ->
  mapM (fun row => match nth_error row k with Some x => Ok x | None => Raise IndexError end)
    (map (fun i => map (fun c => nth i c 0) cs) idx) = Ok (map (fun j => nth j col 0) idx).
Proof.
  intros cs k col idx Hk. induction idx as [|i idx IH]; [reflexivity|]. cbn [map mapM].
  rewrite (map_nth_error _ _ _ Hk). cbn [rbind]. rewrite IH. reflexivity.
Qed.

Lemma fluct_step_ok : forall w ub win, 0 < ub ->
  fluct_step win ub w = Ok (w * Rmax 0 (1 - deviation win / ub)).
Proof.
  intros w ub win H. unfold fluct_step. rewrite np_std_deviation. rnum. set (s := deviation win).
  assert (E : (ub - s) / ub = 1 - s / ub) by (field; lra).
  destruct (Rltb_spec ub s).
  - rewrite Rmax_left; [f_equal; lra|]. rewrite <- E.
    assert (0 < / ub) by (apply Rinv_0_lt_compat; lra).
    assert ((ub - s) * / ub <= 0 * / ub) by (apply Rmult_le_compat_r; lra). unfold Rdiv. lra.
  - unfold np_div. rnum. rewrite Reqb_false by lra. cbn [rbind]. rewrite E. rewrite Rmax_right; [reflexivity|].
    rewrite <- E. apply Rmult_le_pos; [lra|]. left. apply Rinv_0_lt_compat; lra.
Qed.

Lemma fluct_cols_ok : forall (cs : list (list R)) idx ubs rest pre w,
  cs = pre ++ rest -> length ubs = length rest -> Forall (fun u => 0 < u) ubs ->
  fluct_cols (map (fun i => map (fun c => nth i c 0) cs) idx) (length pre) ubs w =
  Ok (w * Rprod (map (fun cu => Rmax 0 (1 - deviation (map (fun j => nth j (fst cu) 0) idx) / snd cu))
                   (combine rest ubs))).
Proof.
  intros cs idx. induction ubs as [|u ubs IH]; intros rest pre w Hcs Hlen Hu.
  - destruct rest; [|discriminate]. cbn. rewrite Rmult_1_r. reflexivity.
  - destruct rest as [|c rest]; [discriminate|]. inversion Hu; subst u ubs. cbn [fluct_cols].
    rewrite window_column with (col := c).
    2:{ rewrite Hcs, nth_error_app2, Nat.sub_diag by lia. reflexivity. }
    cbn [rbind]. rewrite fluct_step_ok by auto. cbn [rbind].
    replace (S (length pre)) with (length (pre ++ [c])) by (rewrite app_length; simpl; lia).
    rewrite IH with (rest := rest); auto.
    + cbn [combine map Rprod fst snd]. f_equal. ring.
    + rewrite Hcs, <- app_assoc. reflexivity.
Qed.

Lemma smem_In : forall x l, smem x l = true <-> In x l.
Proof.
  intros. unfold smem. rewrite existsb_exists. split.
  - intros [y [H1 H2]]. apply String.eqb_eq in H2. subst; auto.
  - intros H. exists x. split; auto. apply String.eqb_refl.
Qed.

Lemma select_bounds_all : forall attrs ubs dims, length ubs = length attrs ->
  (forall k, In k attrs -> In k dims) -> select_bounds attrs ubs dims = Ok ubs.
Proof.
  induction attrs as [|k attrs IH]; intros [|u ubs] dims Hl Hin; try discriminate; [reflexivity|].
  cbn [select_bounds]. assert (smem k dims = true) as -> by (apply smem_In; apply Hin; left; auto).
  rewrite IH; auto. intros; apply Hin; right; auto.
Qed.

Lemma float_cols_column : forall d attrs k c, NoDup (map fst d) -> In (k, c) (float_cols d attrs) ->
  column_of d k = c.
Proof.
  intros d attrs k c Hnd H. unfold float_cols in H. apply in_flat_map in H.
  destruct H as [[k' c'] [H1 H2]]. cbn [fst snd] in H2. destruct c' as [l|]; [|destruct H2].
  destruct (smem k' attrs); [|destruct H2]. destruct H2 as [H2|[]]. injection H2 as -> ->.
  unfold column_of. clear attrs. induction d as [|[k0 c0] d IH]; [destruct H1|].
  simpl in *. inversion Hnd; subst. destruct (String.eqb_spec k0 k).
  - subst. destruct H1 as [H1|H1]; [injection H1 as ->; auto|].
    exfalso. apply H2. apply in_map_iff. exists (k, CFloat c). auto.
  - destruct H1 as [H1|H1]; [congruence|]. apply IH; auto.
Qed.

Lemma Rprod_range : forall l, Forall (fun x => 0 <= x <= 1) l -> 0 <= Rprod l <= 1.
Proof.
  induction 1 as [|x l Hx Hl IH]; simpl; [lra|].
  split; [apply Rmult_le_pos; lra|]. replace 1 with (1 * 1) by lra. apply Rmult_le_compat; lra.
Qed.

Lemma fluct_spec_range : forall attrs ubs times b a d i, Forall (fun u => 0 < u) ubs ->
  0 <= fluct_spec attrs ubs times b a d i <= 1.
Proof.
  intros. apply Rprod_range. apply Forall_forall. intros x Hx. apply in_map_iff in Hx.
  destruct Hx as [[k u] [<- Hx]]. cbn [fst snd]. apply in_combine_r in Hx.
  rewrite Forall_forall in H. apply H in Hx.
  set (w := window _ _ _ _ _). pose proof (deviation_nonneg w).
  assert (0 <= deviation w / u) by (apply Rmult_le_pos; [lra|]; left; apply Rinv_0_lt_compat; lra).
  split; [apply Rmax_l | apply Rmax_lub; lra].
Qed.

(** The documented weights, in [0, 1], provided that the attributes are listed in the
    order of the columns of the data, the times are in chronological order and the bounds
    are positive. *)
Theorem fluctuation_weights_partial : forall attrs before after ubs times d,
  attrs <> [] -> NoDup (map fst d) -> length ubs = length attrs -> Forall (fun u => 0 < u) ubs ->
  map fst (float_cols d attrs) = attrs ->
  length times = f_rows d -> chronological times ->
  (0 <= before)%Z -> (0 <= after)%Z ->
  exists ws, fluct_weigh (mkFluct attrs before after ubs) times d = Ok ws /\
    length ws = f_rows d /\
    (forall i, (i < f_rows d)%nat -> nth i ws 0 = fluct_spec attrs ubs times before after d i) /\
    Forall (fun x => 0 <= x <= 1) ws.
Proof.
  intros attrs before after ubs times d Hne Hnd Hlen Hub Hcols Ht Hchr Hb Ha.
  exists (map (fluct_spec attrs ubs times before after d) (seq 0 (f_rows d))).
  set (n := f_rows d) in *. split; [|split; [|split]].
  - unfold fluct_weigh. cbn [fw_attributes fw_before fw_after fw_bounds]. unfold f_numerical.
    fold n. set (cs := float_cols d attrs) in *.
    destruct attrs as [|a0 attrs0] eqn:Eattrs; [congruence|]. rewrite <- Eattrs in *. clear Hne.
    assert (cs <> []) as Hcs. { intros E. rewrite E, Eattrs in Hcols. discriminate. }
    destruct cs as [|c0 cs0] eqn:Ecs; [congruence|]. rewrite <- Ecs in *.
    rewrite select_bounds_all by (auto; rewrite Hcols; auto). cbn [rbind].
    assert (length (to_rows n (map snd cs)) = n) as -> by (unfold to_rows; rewrite map_length, seq_length; auto).
    rewrite firstn_all2 by lia.
    assert (times = map (fun i => nth i times 0%Z) (seq 0 n)) as Etimes.
    { rewrite <- Ht. symmetry. apply map_nth_seq. }
    assert (G : forall l, (forall i, In i l -> (i < n)%nat) ->
      mapM (fun dt =>
        match filter (fun i => (Z.leb (nth i times 0%Z) dt && Z.leb (dt - nth i times 0%Z) before)%bool) (seq 0 n),
              rev (filter (fun i => (Z.leb dt (nth i times 0%Z) && Z.leb (nth i times 0%Z - dt) after)%bool) (seq 0 n)) with
        | s :: _, e :: _ => fluct_cols (firstn (S e - s) (skipn s (to_rows n (map snd cs)))) 0 ubs 1
        | _, _ => Raise ValueError
        end) (map (fun i => nth i times 0%Z) l) = Ok (map (fluct_spec attrs ubs times before after d) l)).
    { induction l as [|i l IH]; intros Hl; [reflexivity|]. cbn [map mapM].
      rewrite IH by (intros; apply Hl; right; auto).
      assert (Hi : (i < n)%nat) by (apply Hl; left; auto).
      set (t := fun j => nth j times 0%Z). fold (t i).
      set (P := fun j => (Z.leb (nth j times 0%Z) (t i) && Z.leb (t i - nth j times 0%Z) before)%bool).
      set (Q := fun j => (Z.leb (t i) (nth j times 0%Z) && Z.leb (nth j times 0%Z - t i) after)%bool).
      assert (HP : In i (filter P (seq 0 n))).
      { apply filter_In. split; [apply in_seq; lia|]. unfold P. fold (t i).
        rewrite Z.leb_refl, Z.sub_diag. apply Z.leb_le. auto. }
      assert (HQ : In i (filter Q (seq 0 n))).
      { apply filter_In. split; [apply in_seq; lia|]. unfold Q. fold (t i).
        rewrite Z.leb_refl, Z.sub_diag. apply Z.leb_le. auto. }
      destruct (filter P (seq 0 n)) as [|s l1] eqn:EP; [destruct HP|].
      destruct (rev (filter Q (seq 0 n))) as [|e l2] eqn:EQ.
      { apply in_rev in HQ. rewrite EQ in HQ. destruct HQ. }
      assert (HPi : P i = true). { unfold P. fold (t i). rewrite Z.leb_refl, Z.sub_diag. apply Z.leb_le; auto. }
      assert (HQi : Q i = true). { unfold Q. fold (t i). rewrite Z.leb_refl, Z.sub_diag. apply Z.leb_le; auto. }
      destruct (filter_first _ _ _ _ EP) as [Ps [Hsn Hsmin]].
      destruct (filter_last _ _ _ _ EQ) as [Qe [Hen Hemax]].
      pose proof (Hsmin i Hi HPi) as Hsi. pose proof (Hemax i Hi HQi) as Hie.
      rewrite to_rows_slice by lia.
      change 0%nat with (@length (list R) []) at 1.
      rewrite fluct_cols_ok with (rest := map snd cs); auto.
      2:{ rewrite map_length. rewrite Hlen, <- Hcols, map_length. reflexivity. }
      cbn [rbind].
      rewrite Rmult_1_l. f_equal. f_equal. unfold fluct_spec. f_equal.
      assert (Hwin : forall col, window times before after i col = map (fun j => nth j col 0) (seq s (S e - s))).
      { intros col. unfold window. f_equal. rewrite Ht. apply filter_interval; [lia|].
        unfold P, Q in *. fold (t s) in Ps. fold (t e) in Qe.
        apply andb_true_iff in Ps. destruct Ps as [Ps1 Ps2]. apply Z.leb_le in Ps1, Ps2.
        apply andb_true_iff in Qe. destruct Qe as [Qe1 Qe2]. apply Z.leb_le in Qe1, Qe2.
        intros j Hj. rewrite andb_true_iff, !Z.leb_le. fold (t i) (t j). split.
        - intros [H1 H2]. split.
          + destruct (le_lt_dec i j); [lia|]. apply Hsmin; auto. fold (t j).
            assert (t j <= t i)%Z by (apply Hchr; lia).
            apply andb_true_iff; split; apply Z.leb_le; lia.
          + destruct (le_lt_dec j i); [lia|]. apply Hemax; auto. fold (t j).
            assert (t i <= t j)%Z by (apply Hchr; lia).
            apply andb_true_iff; split; apply Z.leb_le; lia.
        - intros [H1 H2]. assert (t s <= t j)%Z by (apply Hchr; lia).
          assert (t j <= t e)%Z by (apply Hchr; lia). lia. }
      assert (Hc : forall l' us, (forall kc, In kc l' -> In kc cs) ->
        map (fun cu => Rmax 0 (1 - deviation (map (fun j => nth j (fst cu) 0) (seq s (S e - s))) / snd cu)) (combine (map snd l') us) =
        map (fun ku => Rmax 0 (1 - deviation (window times before after i (column_of d (fst ku))) / snd ku)) (combine (map fst l') us)).
      { induction l' as [|[k c] l' IH']; intros us Hin; [reflexivity|]. destruct us as [|u us]; [reflexivity|].
        cbn [map combine fst snd]. rewrite IH' by (intros; apply Hin; right; auto). f_equal.
        rewrite Hwin. unfold cs in *. rewrite (float_cols_column d attrs k c Hnd); auto.
        rewrite Eattrs. apply Hin. left; auto. }
      rewrite Hc by auto. rewrite Hcols. reflexivity. }
    pose proof (G (seq 0 n)) as G'. rewrite <- Etimes in G'. apply G'. intros i Hi. apply in_seq in Hi. lia.
  - rewrite map_length, seq_length. auto.
  - intros i Hi. apply nth_error_nth. rewrite nth_error_map, nth_error_seq.
    destruct (Nat.ltb_spec i n); [reflexivity|lia].
  - apply Forall_forall. intros x Hx. apply in_map_iff in Hx. destruct Hx as [i [<- Hi]].
    apply fluct_spec_range; auto.
Qed.
Print Assumptions fluctuation_weights_partial.

(** The data have a column of numbers with this name. *)
Definition has_numbers (d : fdata) (k : string) : bool :=
  existsb (fun kc => (String.eqb (fst kc) k && match snd kc with CFloat _ => true | COther _ => false end)%bool) d.

(** The listed attributes, with their bounds, that the data have. *)
Definition listed (d : fdata) (attrs : list string) (ubs : list R) : list (string * R) :=
  filter (fun ku => has_numbers d (fst ku)) (combine attrs ubs).

Lemma has_numbers_In : forall d k, has_numbers d k = true <-> exists l, In (k, CFloat l) d.
Proof.
  intros d k. unfold has_numbers. rewrite existsb_exists. split.
  - intros [[k' c] [I E]]. cbn [fst snd] in E. apply andb_prop in E. destruct E as [E1 E2].
    apply String.eqb_eq in E1. subst. destruct c; [eauto|discriminate].
  - intros [l I]. exists (k, CFloat l). split; auto. cbn [fst snd]. rewrite String.eqb_refl. reflexivity.
Qed.

Lemma float_cols_names : forall d attrs k,
  In k (map fst (float_cols d attrs)) <-> In k attrs /\ has_numbers d k = true.
Proof.
  intros d attrs k. rewrite has_numbers_In, in_map_iff. unfold float_cols. split.
  - intros [[k' l] [<- I]]. cbn [fst]. apply in_flat_map in I. destruct I as [[k0 c] [I H]].
    cbn [fst snd] in H. destruct c as [l0|]; [|destruct H].
    destruct (smem k0 attrs) eqn:E; [|destruct H]. destruct H as [H|[]]. injection H as -> ->.
    split; [apply smem_In; auto|eauto].
  - intros [I [l J]]. exists (k, l). split; auto. apply in_flat_map. exists (k, CFloat l). split; auto.
    cbn [fst snd]. apply smem_In in I. rewrite I. left; auto.
Qed.

Lemma listed_names : forall d attrs ubs k, length ubs = length attrs ->
  In k (map fst (listed d attrs ubs)) <-> In k attrs /\ has_numbers d k = true.
Proof.
  intros d attrs ubs k L. unfold listed. rewrite in_map_iff. split.
  - intros [[k' u] [<- I]]. apply filter_In in I. destruct I as [I H]. cbn [fst] in *.
    split; auto. apply in_combine_l in I. auto.
  - intros [I H]. assert (exists u, In (k, u) (combine attrs ubs)) as [u J].
    { clear H. revert ubs L. induction attrs as [|a attrs IH]; intros [|u ubs] L; try discriminate.
      - destruct I.
      - destruct I as [->|I]; [exists u; left; auto|]. destruct (IH I ubs) as [u' J]; auto.
        exists u'. right. auto. }
    exists (k, u). split; auto. apply filter_In. auto.
Qed.

Lemma float_cols_ext : forall d a b, (forall k, has_numbers d k = true -> (In k a <-> In k b)) ->
  float_cols d a = float_cols d b.
Proof.
  intros d a b H. unfold float_cols.
  assert (G : forall l, (forall kc, In kc l -> In kc d) ->
    flat_map (fun kc : string * column => match snd kc with
      | CFloat l0 => if smem (fst kc) a then [(fst kc, l0)] else [] | COther _ => [] end) l =
    flat_map (fun kc : string * column => match snd kc with
      | CFloat l0 => if smem (fst kc) b then [(fst kc, l0)] else [] | COther _ => [] end) l).
  { induction l as [|[k c] l IH]; intros Hl; [reflexivity|]. cbn [flat_map fst snd].
    rewrite IH by (intros; apply Hl; right; auto). f_equal. destruct c as [l0|]; auto.
    assert (smem k a = smem k b) as ->; auto.
    assert (has_numbers d k = true) as Hk by (apply has_numbers_In; exists l0; apply Hl; left; auto).
    specialize (H k Hk). rewrite <- !smem_In in H. apply eq_true_iff_eq. exact H. }
  apply G. auto.
Qed.

Lemma select_bounds_listed : forall d attrs ubs dims, length ubs = length attrs ->
  (forall k, In k attrs -> (In k dims <-> has_numbers d k = true)) ->
  select_bounds attrs ubs dims = Ok (map snd (listed d attrs ubs)).
Proof.
  intros d. induction attrs as [|k attrs IH]; intros [|u ubs] dims L H; try discriminate; [reflexivity|].
  cbn [select_bounds]. unfold listed. cbn [combine filter fst].
  rewrite (IH ubs dims) by (auto; intros; apply H; right; auto).
  assert (smem k dims = has_numbers d k) as ->.
  { specialize (H k (or_introl eq_refl)). rewrite <- smem_In in H.
    apply eq_true_iff_eq. exact H. }
  destruct (has_numbers d k); reflexivity.
Qed.

(** C47.  Attributes that the data do not have are left out together with
    their bounds; the other bounds stay with their attributes. *)
Theorem fluctuation_missing_attributes : forall attrs before after ubs times d,
  length ubs = length attrs -> listed d attrs ubs <> [] ->
  fluct_weigh (mkFluct attrs before after ubs) times d =
  fluct_weigh (mkFluct (map fst (listed d attrs ubs)) before after (map snd (listed d attrs ubs))) times d.
Proof.
  intros attrs before after ubs times d L N.
  unfold fluct_weigh. cbn [fw_attributes fw_before fw_after fw_bounds]. unfold f_numerical.
  destruct attrs as [|a0 attrs0] eqn:Ea; [elim N; reflexivity|]. rewrite <- Ea in *.
  destruct (map fst (listed d attrs ubs)) as [|b0 bs0] eqn:Eb.
  { elim N. destruct (listed d attrs ubs); [reflexivity|discriminate]. }
  rewrite <- Eb in *.
  assert (float_cols d (map fst (listed d attrs ubs)) = float_cols d attrs) as ->.
  { apply float_cols_ext. intros k Hk. rewrite listed_names by auto. tauto. }
  cbn zeta. rewrite (select_bounds_listed d attrs ubs) by
    (auto; intros k I; rewrite float_cols_names; tauto).
  rewrite select_bounds_all; [reflexivity| |].
  - rewrite !map_length. reflexivity.
  - intros k I. apply float_cols_names. rewrite listed_names in I by auto. tauto.
Qed.
Print Assumptions fluctuation_missing_attributes.

Example fluctuation_missing_case :
  let d := [("TWS", CFloat [10; 12; 11]); ("sail", COther 3); ("BSP", CFloat [5; 6; 7])] in
  listed d ["TWS"; "heel"; "BSP"] [2; 9; 1] = [("TWS", 2); ("BSP", 1)].
Proof. reflexivity. Qed.

Lemma deviation_two : forall a b, a <= b -> deviation [a; b] = (b - a) / 2.
Proof.
  intros a b H. unfold deviation, mean. cbn [Rsum map length INR].
  replace (_ / _) with (Rsqr ((b - a) / 2)) by (unfold Rsqr; field).
  apply sqrt_Rsqr. lra.
Qed.

Lemma deviation_one : forall a, deviation [a] = 0.
Proof.
  intros a. unfold deviation, mean. cbn [Rsum map length INR].
  replace (_ / _) with 0 by (unfold Rsqr; field). apply sqrt_0.
Qed.

Example fluctuation_case :
  let d := [("TWS", CFloat [10; 12; 11]); ("sail", COther 3); ("BSP", CFloat [5; 6; 7])] in
  map fst (float_cols d ["TWS"; "BSP"]) = ["TWS"; "BSP"] /\ length [0; 5; 9]%Z = f_rows d /\
  chronological [0; 5; 9]%Z /\ NoDup (map fst d) /\
  fluct_spec ["TWS"; "BSP"] [2; 1] [0; 5; 9]%Z 5 0 d 1 = 1 / 4.
Proof.
  split; [reflexivity|]. split; [reflexivity|]. split; [|split].
  - intros i j H. simpl in H. destruct i as [|[|[|i]]], j as [|[|[|j]]]; simpl; lia.
  - cbn. repeat constructor; simpl; intuition discriminate.
  - unfold fluct_spec, window, column_of. cbn. rewrite !deviation_two by lra.
    rewrite !Rmax_right by lra. lra.
Qed.

(** The bounds are applied to the columns in the order of the data: with the attributes
    listed in another order the bounds are exchanged. *)
Theorem fluctuation_order_refuted : exists attrs ubs times d ws,
  NoDup attrs /\ NoDup (map fst d) /\ (forall k, In k attrs -> exists c, In (k, CFloat c) d) /\
  length ubs = length attrs /\ Forall (fun u => 0 < u) ubs /\
  length times = f_rows d /\ chronological times /\
  fluct_weigh (mkFluct attrs 10 0 ubs) times d = Ok ws /\
  nth 1 ws 0 <> fluct_spec attrs ubs times 10 0 d 1.
Proof.
  exists ["BSP"; "TWA"], [1; 100], [0; 5]%Z, [("TWA", CFloat [0; 10]); ("BSP", CFloat [5; 5])], [1; 0].
  repeat split.
  - repeat constructor; simpl; intuition discriminate.
  - repeat constructor; simpl; intuition discriminate.
  - intros k [<-|[<-|[]]]; simpl; eauto.
  - repeat constructor; lra.
  - intros i j H. simpl in H. destruct i as [|[|i]], j as [|[|j]]; simpl; lia.
  - unfold fluct_weigh. cbn. unfold fluct_step. rewrite !np_std_deviation, !deviation_one, !deviation_two by lra.
    rnum. rewrite !(Rltb_false 1 0), !(Rltb_true 1 ((10 - 0) / 2)), !(Rltb_false 100) by lra.
    unfold np_div. rnum. rewrite !Reqb_false by lra. cbn [rbind]. repeat f_equal; field.
  - unfold fluct_spec, window, column_of. cbn. rewrite !deviation_two by lra.
    rewrite !Rmax_right by lra. lra.
Qed.
Print Assumptions fluctuation_order_refuted.

(** A bound of 0 gives nan even if the attribute does not fluctuate. *)
Theorem fluctuation_zero_bound_refuted : exists times d,
  fluct_weigh (mkFluct ["BSP"] 10 0 [0]) times d = Raise NonFinite /\ f_rows d = 1%nat.
Proof.
  exists [0]%Z, [("BSP", CFloat [5])]. split; [|reflexivity].
  unfold fluct_weigh. cbn. unfold fluct_step. rewrite np_std_deviation, deviation_one. rnum.
  rewrite Rltb_false by lra. unfold np_div. rnum. rewrite Reqb_true by lra. reflexivity.
Qed.
Print Assumptions fluctuation_zero_bound_refuted.

(** Without chronological order a measurement far outside the window takes part. *)
Theorem fluctuation_unordered_refuted : exists times d ws,
  length times = f_rows d /\
  fluct_weigh (mkFluct ["BSP"] 5 0 [10]) times d = Ok ws /\
  nth 2 ws 0 <> fluct_spec ["BSP"] [10] times 5 0 d 2.
Proof.
  exists [0; 100; 1]%Z, [("BSP", CFloat [5; 500; 5])], [1; 1; 0].
  split; [reflexivity|]. split.
  - assert (E : deviation [5; 500; 5] > 10).
    { unfold deviation, mean. cbn [Rsum map length INR].
      apply Rlt_gt. rewrite <- (sqrt_Rsqr 10) by lra. apply sqrt_lt_1_alt. unfold Rsqr. lra. }
    unfold fluct_weigh. cbn. unfold fluct_step. rewrite !np_std_deviation, !deviation_one.
    rnum. rewrite !(Rltb_false 10 0), !(Rltb_true 10 (deviation [5; 500; 5])) by lra.
    unfold np_div. rnum. rewrite !Reqb_false by lra. cbn [rbind]. repeat f_equal; field.
  - unfold fluct_spec, window, column_of. cbn. rewrite !deviation_two by lra.
    rewrite !Rmax_right by lra. lra.
Qed.
Print Assumptions fluctuation_unordered_refuted.

(* ------------------------------------------------------------------ *)
(** ** C48: arithmetic of weighers *)

(** Every arithmetic expression in which [a] is an operand. *)
Inductive combination (a : wexpr) : wexpr -> Prop :=
| comb_add o w : w_add a o = Ok w -> combination a w
| comb_mul o w : w_mul a o = Ok w -> combination a w
| comb_sub o w : w_sub a o = Ok w -> combination a w
| comb_div o w : w_div a o = Ok w -> combination a w
| comb_rdiv o w : w_rdiv o a = Ok w -> combination a w
| comb_neg : combination a (w_neg a)
| comb_pow n : combination a (w_pow a n).

(** Combining a weigher that returns any number of weights except two raises ValueError. *)
Theorem combined_weigher_raises : forall f p ws w,
  f p = Ok ws -> length ws <> 2%nat -> combination (WBase f) w -> wexpr_weigh w p = Raise ValueError.
Proof.
  intros f p ws w Hf Hlen Hc.
  assert (E : unpack_first (WvArr ws) = Raise ValueError).
  { destruct ws as [|x [|y [|z r]]]; try reflexivity. simpl in Hlen. lia. }
  destruct Hc as [o w Ho|o w Ho|o w Ho|o w Ho|o w Ho| |n];
    try (destruct o; cbn in Ho; try discriminate; injection Ho as <-);
    cbn [wexpr_weigh w_neg w_pow]; rewrite Hf; cbn [rbind]; rewrite E; reflexivity.
Qed.
Print Assumptions combined_weigher_raises.

(** With two points the sum is one number, the sum of the first weights. *)
Theorem combined_weigher_two_partial : forall f g p x y x' y' w,
  f p = Ok [x; x'] -> g p = Ok [y; y'] -> w_add (WBase f) (OWeigher (WBase g)) = Ok w ->
  wexpr_weigh w p = Ok (WvNum (x + y)).
Proof.
  intros f g p x y x' y' w Hf Hg E. injection E as <-. cbn. rewrite Hf, Hg. reflexivity.
Qed.
Print Assumptions combined_weigher_two_partial.

(** Likewise the product, the difference and the quotient of the first weights. *)
Theorem combined_weigher_two_ops_partial : forall f g p x y x' y' w,
  f p = Ok [x; x'] -> g p = Ok [y; y'] ->
  (w_mul (WBase f) (OWeigher (WBase g)) = Ok w -> wexpr_weigh w p = Ok (WvNum (x * y))) /\
  (w_sub (WBase f) (OWeigher (WBase g)) = Ok w -> wexpr_weigh w p = Ok (WvNum (x - y))) /\
  (w_div (WBase f) (OWeigher (WBase g)) = Ok w -> y <> 0 -> wexpr_weigh w p = Ok (WvNum (x / y))) /\
  (w_rdiv (OWeigher (WBase g)) (WBase f) = Ok w -> x <> 0 -> wexpr_weigh w p = Ok (WvNum (y / x))) /\
  wexpr_weigh (w_neg (WBase f)) p = Ok (WvNum (- x)) /\
  (forall n, wexpr_weigh (w_pow (WBase f) n) p = Ok (WvNum (x ^ n))).
Proof.
  intros f g p x y x' y' w Hf Hg.
  repeat split.
  - intros E. injection E as <-. cbn. rewrite Hf, Hg. reflexivity.
  - intros E. injection E as <-. cbn. rewrite Hf, Hg. reflexivity.
  - intros E N. injection E as <-. cbn. rewrite Hf, Hg. cbn. unfold np_div. rnum.
    rewrite Reqb_false by auto. reflexivity.
  - intros E N. injection E as <-. cbn. rewrite Hf, Hg. cbn. unfold np_div. rnum.
    rewrite Reqb_false by auto. reflexivity.
  - cbn. rewrite Hf. reflexivity.
  - intros n. cbn. rewrite Hf. reflexivity.
Qed.
Print Assumptions combined_weigher_two_ops_partial.

(** With a number or an array every entry is combined with the first weight, in this order. *)
Theorem weigher_with_constants_partial : forall f p x x' c l,
  f p = Ok [x; x'] ->
  (forall w, w_add (WBase f) (ONum c) = Ok w -> wexpr_weigh w p = Ok (WvNum (x + c))) /\
  (forall w, w_mul (WBase f) (ONum c) = Ok w -> wexpr_weigh w p = Ok (WvNum (x * c))) /\
  (forall w, c <> 0 -> w_div (WBase f) (ONum c) = Ok w -> wexpr_weigh w p = Ok (WvNum (x / c))) /\
  (forall w, w_add (WBase f) (OArr l) = Ok w -> wexpr_weigh w p = Ok (WvArr (map (fun y => x + y) l))) /\
  (forall w, w_mul (WBase f) (OArr l) = Ok w -> wexpr_weigh w p = Ok (WvArr (map (fun y => x * y) l))) /\
  (forall w, w_sub (WBase f) (OArr l) = Ok w -> wexpr_weigh w p = Ok (WvArr (map (fun y => x - y) l))) /\
  (forall w, ~ In 0 l -> w_div (WBase f) (OArr l) = Ok w -> wexpr_weigh w p = Ok (WvArr (map (fun y => x / y) l))) /\
  (forall w, x <> 0 -> w_rdiv (OArr l) (WBase f) = Ok w -> wexpr_weigh w p = Ok (WvArr (map (fun y => y / x) l))).
Proof.
  intros f p x x' c l Hf.
  assert (D : forall a b, b <> 0 -> np_div a b = Ok (a / b)).
  { intros a b N. unfold np_div. rnum. rewrite Reqb_false by auto. reflexivity. }
  repeat split; [intros w E|intros w E|intros w N E|intros w E|intros w E|intros w E|intros w N E|intros w N E];
    injection E as <-; cbn [wexpr_weigh]; rewrite Hf; cbn [rbind unpack_first num_op]; try reflexivity.
  - rewrite D by auto. reflexivity.
  - rewrite (mapM_Ok_map _ _ _ (fun y => x / y)); [reflexivity|].
    intros y Hy. apply D. intros ->. auto.
  - rewrite (mapM_Ok_map _ _ _ (fun y => y / x)); [reflexivity|].
    intros y Hy. apply D. auto.
Qed.
Print Assumptions weigher_with_constants_partial.

Example weigher_two_case :
  let f := fun _ : points => Ok [3; 1] in let g := fun _ : points => Ok [2; 5] in
  exists w, w_sub (WBase f) (OWeigher (WBase g)) = Ok w /\ wexpr_weigh w (PArray [[1]; [2]]) = Ok (WvNum (3 - 2)).
Proof. cbn zeta. eexists. split; reflexivity. Qed.

(** Adding the weights of two weighers point by point fails. *)
Theorem weigher_sum_refuted : exists f g p w,
  f p = Ok [1; 1; 1] /\ g p = Ok [1; 1; 1] /\ w_add (WBase f) (OWeigher (WBase g)) = Ok w /\
  wexpr_weigh w p <> Ok (WvArr [2; 2; 2]).
Proof.
  exists (fun _ => Ok [1; 1; 1]), (fun _ => Ok [1; 1; 1]), (PArray [[1]; [1]; [1]]).
  eexists. repeat split. discriminate.
Qed.
Print Assumptions weigher_sum_refuted.

(** The documented [weigher - a] and [a / weigher] raise TypeError for numbers [a]. *)
Theorem weigher_numbers_refuted : forall w x,
  w_sub w (ONum x) = Raise TypeError /\ w_rdiv (ONum x) w = Raise TypeError.
Proof. split; reflexivity. Qed.
Print Assumptions weigher_numbers_refuted.

(* ------------------------------------------------------------------ *)
(** ** C49: using a weigher again *)

(** Weighing an array twice gives the same weights and keeps the dimensions. *)
Theorem mean_reuse_array : forall w rows,
  let w' := fst (mean_weigh w (PArray rows)) in
  snd (mean_weigh w' (PArray rows)) = snd (mean_weigh w (PArray rows)) /\
  mw_dims w' = mw_dims w.
Proof.
  intros [r n dims] rows. cbn zeta. unfold mean_weigh. cbn [n_points].
  destruct rows as [|x rows]; [split; reflexivity|].
  cbn [length Nat.eqb set_points_reduce fst snd map mw_dims mw_norm mw_radius].
  split; destruct n; reflexivity.
Qed.
Print Assumptions mean_reuse_array.

(** If no dimensions were given, weighing the same data twice gives the same weights. *)
Theorem mean_reuse_data : forall w d, mw_dims w = None ->
  let w' := fst (mean_weigh w (PData d)) in
  snd (mean_weigh w' (PData d)) = snd (mean_weigh w (PData d)) /\ mw_dims w' = None.
Proof.
  intros [r n dims] d E. cbn [mw_dims] in E. subst dims. cbn zeta. unfold mean_weigh. cbn [n_points].
  destruct (Nat.eqb (f_rows d) 0) eqn:En; [cbn [fst snd mw_dims]; auto|].
  cbn [mw_dims mw_norm mw_radius].
  destruct (set_points_reduce (PData d) None) as [dims' r'] eqn:E.
  assert (dims' = None) as ->.
  { unfold set_points_reduce in E. destruct (smem "BSP" (map fst d)).
    - destruct (f_get d "BSP"); injection E as <- _; reflexivity.
    - destruct (smem "SOG" (map fst d)); [destruct (f_get d "SOG")|]; injection E as <- _; reflexivity. }
  destruct r' as [[[dimensions rows] bsps]|e]; cbn [fst snd mw_dims mw_norm mw_radius]; rewrite E; cbn [snd];
    [|split; reflexivity].
  split; [|reflexivity]. destruct rows; destruct n; reflexivity.
Qed.
Print Assumptions mean_reuse_data.

(** With dimensions given by the user, weighing changes the user's list and the second
    call with the same data raises ValueError. *)
Theorem mean_reuse_refuted : exists w d ws dims,
  mean_new (1 / 20) None (Some ["TWS"; "TWA"; "BSP"]) = Ok w /\
  mean_weigh w (PData d) = (fst (mean_weigh w (PData d)), Ok ws) /\
  mw_dims (fst (mean_weigh w (PData d))) = Some dims /\ dims = ["TWS"; "TWA"] /\
  snd (mean_weigh (fst (mean_weigh w (PData d))) (PData d)) = Raise ValueError.
Proof.
  eexists (mkMean (1 / 20) None (Some ["TWS"; "TWA"; "BSP"])).
  exists [("TWS", CFloat [10]); ("TWA", CFloat [90]); ("BSP", CFloat [5])], [1], ["TWS"; "TWA"].
  split; [|split; [|split; [|split]]]; try reflexivity.
  - unfold mean_new. rnum. rewrite Rleb_false by lra. reflexivity.
  - unfold mean_weigh. cbn. unfold mean_weight, standard_norm. cbn. unfold norm2. cbn.
    replace (0 + 1 / 20 * (10 - 10) * (1 / 20 * (10 - 10)) + 1 / 360 * (90 - 90) * (1 / 360 * (90 - 90))) with 0 by field.
    rewrite sqrt_0. rewrite Rleb_true by lra. cbn. unfold std_or_1. rewrite np_std_deviation, deviation_one. rnum.
    rewrite Reqb_refl. cbn. unfold nsum. cbn. unfold normalize. cbn.
    rewrite nabs_R. replace ((0 + 5) / 1 - 5) with 0 by field. rewrite Rabs_R0.
    replace (0 / 1) with 0 by field. rewrite Reqb_refl. cbn [map]. rewrite Rminus_0_r. reflexivity.
Qed.
Print Assumptions mean_reuse_refuted.

(** Weighing other data in between: the norm of the first data is kept, so that data with
    other columns can no longer be weighed although a new weigher can. *)
Theorem mean_history_refuted : exists w d1 d2 ws,
  mean_new (1 / 20) None None = Ok w /\
  snd (mean_weigh w (PData d2)) = Ok ws /\
  snd (mean_weigh (fst (mean_weigh w (PData d1))) (PData d2)) = Raise ValueError.
Proof.
  exists (mkMean (1 / 20) None None).
  exists [("TWS", CFloat [10]); ("TWA", CFloat [90]); ("BSP", CFloat [5])].
  exists [("TWS", CFloat [10]); ("TWA", CFloat [90]); ("heel", CFloat [5]); ("BSP", CFloat [5])], [1].
  split; [|split; [|reflexivity]].
  - unfold mean_new. rnum. rewrite Rleb_false by lra. reflexivity.
  - unfold mean_weigh. cbn. unfold mean_weight, standard_norm. cbn. unfold norm2. cbn.
    replace (0 + 1 / 20 * (10 - 10) * (1 / 20 * (10 - 10)) + 1 / 360 * (90 - 90) * (1 / 360 * (90 - 90))
             + 1 * (5 - 5) * (1 * (5 - 5))) with 0 by field.
    rewrite sqrt_0. rewrite Rleb_true by lra. cbn. unfold std_or_1. rewrite np_std_deviation, deviation_one. rnum.
    rewrite Reqb_refl. cbn. unfold nsum. cbn. unfold normalize. cbn.
    rewrite nabs_R. replace ((0 + 5) / 1 - 5) with 0 by field. rewrite Rabs_R0.
    replace (0 / 1) with 0 by field. rewrite Reqb_refl. cbn [map]. rewrite Rminus_0_r. reflexivity.
Qed.
Print Assumptions mean_history_refuted.

Lemma float_cols_keys : forall d a, NoDup (map fst d) ->
  float_cols d (map fst (float_cols d a)) = float_cols d a.
Proof.
  intros d a _. unfold float_cols at 1 3.
  set (K := map fst (float_cols d a)).
  assert (forall d', (forall x, In x d' -> In x d) ->
    flat_map (fun kc => match snd kc with CFloat l => if smem (fst kc) K then [(fst kc, l)] else [] | COther _ => [] end) d' =
    flat_map (fun kc => match snd kc with CFloat l => if smem (fst kc) a then [(fst kc, l)] else [] | COther _ => [] end) d') as A.
  { induction d' as [|[k c] d' IH]; intros Hin; [reflexivity|]. cbn [flat_map fst snd].
    rewrite IH by (intros; apply Hin; right; auto). f_equal. destruct c as [l|]; auto.
    replace (smem k K) with (smem k a); auto.
    destruct (smem k a) eqn:E.
    - symmetry. apply smem_In. unfold K. apply in_map_iff. exists (k, l). split; auto.
      unfold float_cols. apply in_flat_map. exists (k, CFloat l). split; [apply Hin; left; auto|].
      cbn [fst snd]. rewrite E. left; auto.
    - destruct (smem k K) eqn:E2; auto. apply smem_In in E2. unfold K in E2. apply in_map_iff in E2.
      destruct E2 as [[k2 l2] [E3 E4]]. cbn in E3. subst k2. unfold float_cols in E4. apply in_flat_map in E4.
      destruct E4 as [[k3 c3] [E5 E6]]. cbn [fst snd] in E6. destruct c3; [|destruct E6].
      destruct (smem k3 a) eqn:E7; [|destruct E6]. destruct E6 as [E6|[]]. injection E6 as -> ->. congruence. }
  apply A. auto.
Qed.

(** Weighing the same data (or the same array) twice with a member weigher. *)
Theorem member_reuse : forall w p,
  (match p with PData d => NoDup (map fst d) /\ float_cols d (match bw_dims w with None => map fst d | Some a => a end) <> [] | PArray _ => True end) ->
  snd (member_weigh (fst (member_weigh w p)) p) = snd (member_weigh w p).
Proof.
  intros [r len n dims] p Hp. unfold member_weigh. destruct (Nat.eqb (n_points p) 0) eqn:E; [auto|].
  destruct p as [rows|d].
  - cbn [set_points fst bw_dims]. reflexivity.
  - destruct Hp as [Hnd Hne]. cbn [bw_dims] in *. cbn [set_points].
    set (a := match dims with None => map fst d | Some a => a end) in *.
    destruct (f_numerical d a) as [k rows] eqn:En. cbn [fst bw_dims bw_norm bw_radius bw_length].
    cbn [set_points].
    assert (Ha : a <> []). { intros E1. rewrite E1 in Hne. apply Hne. unfold float_cols.
      clear. induction d as [|[k c] d IH]; [reflexivity|]. cbn. destruct c; cbn; auto. }
    assert (f_numerical d k = (k, rows)) as ->.
    { unfold f_numerical in *. destruct a as [|a0 a1] eqn:Ea; [congruence|]. rewrite <- Ea in *.
      injection En as <- <-. destruct (float_cols d a) as [|kc cs] eqn:Ec; [congruence|]. rewrite <- Ec.
      rewrite float_cols_keys by auto.
      destruct (map fst (float_cols d a)) eqn:Em; [|rewrite Ec; reflexivity].
      rewrite Ec in Em. discriminate. }
    reflexivity.
Qed.
Print Assumptions member_reuse.

(** The member weigher keeps the columns of the data it weighed first: a column missing
    there is ignored later. *)
Theorem member_history_refuted : exists w d1 d2,
  member_new 1 1 (Some (fun vecs => Ok (map norm2 vecs))) None = Ok w /\
  snd (member_weigh (fst (member_weigh w (PData d1))) (PData d2)) <> snd (member_weigh w (PData d2)).
Proof.
  exists (mkMember 1 1 (fun vecs => Ok (map norm2 vecs)) None).
  exists [("TWS", CFloat [0]); ("BSP", CFloat [0])].
  exists [("TWS", CFloat [0; 0]); ("BSP", CFloat [0; 0]); ("heel", CFloat [0; 10])].
  split; [unfold member_new; rnum; rewrite Rleb_false, Rltb_false by lra; reflexivity|].
  unfold member_weigh. cbn. unfold member_weight. cbn. unfold norm2, vsub. cbn.
  replace (0 + (0 - 0) * (0 - 0)) with 0 by field. rewrite Rplus_0_l.
  replace ((0 - 0) * (0 - 0)) with 0 by field. rewrite sqrt_0. rnum.
  rewrite !nabs_R. replace (0 - 0) with 0 by field. replace (10 - 10) with 0 by field.
  replace (0 - 10) with (-10) by field. replace (10 - 0) with 10 by field. rewrite Rabs_R0.
  rewrite (Rabs_left (-10)), (Rabs_right 10) by lra.
  rewrite !(Rleb_true 0 1), !(Rleb_false _ 1) by lra. cbn. unfold normalize. cbn.
  replace (1 + 1 - 1) with 1 by field. replace (1 - 1) with 0 by field. unfold nmax. cbn.
  rewrite !Rltb_false by lra. rewrite Reqb_refl, Reqb_false by lra. cbn.
  intros E. injection E. intros. lra.
Qed.
Print Assumptions member_history_refuted.

(* ------------------------------------------------------------------ *)
(** ** C88: the distribution in the statistics *)

Lemma filter_length_le : forall A (p : A -> bool) l, (length (filter p l) <= length l)%nat.
Proof. induction l as [|x l IH]; simpl; [lia|]. destruct (p x); simpl; lia. Qed.

(** Every percentage is between 0 and 100 and together they cover all weights. *)
Theorem deciles_cover : forall ws lo hi, ws <> [] ->
  nminimum ws = Ok lo -> nmaximum ws = Ok hi ->
  length (deciles ws lo hi) = 10%nat /\
  Forall (fun q => 0 <= q <= 100) (deciles ws lo hi) /\ 100 <= Rsum (deciles ws lo hi).
Proof.
  intros ws lo hi Hne Hlo Hhi. split; [reflexivity|].
  assert (Hn : 0 < INR (length ws)). { apply lt_0_INR. destruct ws; [congruence|simpl; lia]. }
  unfold deciles. set (inside := fun (i : nat) (w : R) => (nleb (lo + (hi - lo) * INR i / 10) w && nleb w (lo + (hi - lo) * (INR i + 1) / 10))%bool).
  change (fun i : nat => 100 * INR (length (filter _ ws)) / INR (length ws)) with (fun i => 100 * INR (length (filter (inside i) ws)) / INR (length ws)).
  split.
  - apply Forall_forall. intros x Hx. apply in_map_iff in Hx. destruct Hx as [i [<- _]].
    assert (length (filter (inside i) ws) <= length ws)%nat as L by apply filter_length_le.
    apply le_INR in L. pose proof (pos_INR (length (filter (inside i) ws))).
    pose proof (ratio_range (INR (length (filter (inside i) ws))) (INR (length ws)) ltac:(lra) Hn).
    unfold Rdiv in *. rewrite Rmult_assoc. lra.
  - assert (S : forall l, (forall w, In w l -> In w ws) ->
      INR (length l) <= Rsum (map (fun i => INR (length (filter (inside i) l))) (seq 0 10))).
    { induction l as [|w l IH]; intros Hin.
      - cbn. lra.
      - assert (exists i, In i (seq 0 10) /\ inside i w = true) as [i [Hi1 Hi2]].
        { apply nminimum_spec in Hlo. apply nmaximum_spec in Hhi. destruct Hlo as [_ Hlo], Hhi as [_ Hhi].
          pose proof (Hlo w (Hin w (or_introl eq_refl))). pose proof (Hhi w (Hin w (or_introl eq_refl))).
          assert (K : forall i, (i < 10)%nat -> lo + (hi - lo) * INR i / 10 <= w -> w <= lo + (hi - lo) * (INR i + 1) / 10 ->
            exists i, In i (seq 0 10) /\ inside i w = true).
          { intros i Hi H1 H2. exists i. split; [apply in_seq; lia|]. unfold inside. rnum.
            rewrite !Rleb_true by auto. reflexivity. }
          assert (Q : forall k, (k <= 9)%nat -> (exists i, In i (seq 0 10) /\ inside i w = true) \/ lo + (hi - lo) * (INR k + 1) / 10 < w).
          { induction k as [|k IHk]; intros Hk.
            - destruct (Rle_lt_dec w (lo + (hi - lo) * (INR 0 + 1) / 10)); [|right; auto].
              left. apply (K 0%nat); auto; [lia|]. simpl. lra.
            - destruct IHk as [|IHk]; [lia|auto|].
              destruct (Rle_lt_dec w (lo + (hi - lo) * (INR (S k) + 1) / 10)); [|right; auto].
              left. apply (K (S k)); auto; [lia|]. rewrite S_INR. lra. }
          destruct (Q 9%nat) as [|Q9]; [lia|auto|]. exfalso. simpl in Q9. lra. }
        assert (T : forall k, INR (length (filter (inside k) (w :: l))) =
                    INR (length (filter (inside k) l)) + (if inside k w then 1 else 0)).
        { intros k. simpl. destruct (inside k w); [cbn [length]; rewrite S_INR; lra | lra]. }
        assert (U : forall ks, Rsum (map (fun k => INR (length (filter (inside k) (w :: l)))) ks) =
           Rsum (map (fun k => INR (length (filter (inside k) l))) ks) +
           Rsum (map (fun k => if inside k w then 1 else 0) ks)).
        { induction ks as [|k ks IHks]; [simpl; lra|]. cbn [map Rsum]. rewrite T, IHks. lra. }
        rewrite U.
        assert (V : forall ks, In i ks -> 1 <= Rsum (map (fun k => if inside k w then 1 else 0) ks)).
        { assert (V0 : forall ks, 0 <= Rsum (map (fun k => if inside k w then 1 else 0) ks)).
          { induction ks as [|k ks IHks]; [simpl; lra|]. cbn [map Rsum]. destruct (inside k w); lra. }
          induction ks as [|k ks IHks]; intros H; [destruct H|]. cbn [map Rsum].
          destruct H as [->|H].
          - rewrite Hi2. pose proof (V0 ks). lra.
          - pose proof (IHks H). destruct (inside k w); lra. }
        pose proof (V _ Hi1). pose proof (IH (fun w' H' => Hin w' (or_intror H'))).
        cbn [length]. rewrite S_INR. lra. }
    assert (E : Rsum (map (fun i => 100 * INR (length (filter (inside i) ws)) / INR (length ws)) (seq 0 10)) =
                100 * Rsum (map (fun i => INR (length (filter (inside i) ws))) (seq 0 10)) / INR (length ws)).
    { generalize (seq 0 10). induction l as [|k l IH]; [simpl; field; lra|]. cbn [map Rsum]. rewrite IH. field. lra. }
    rewrite E. apply Rmult_le_reg_r with (INR (length ws)); [auto|].
    unfold Rdiv. rewrite Rmult_assoc, Rinv_l, Rmult_1_r by lra.
    pose proof (S ws (fun w H => H)). lra.
Qed.
Print Assumptions deciles_cover.

(** The percentages need not add up to 100: a weight on a boundary counts twice, equal
    weights count ten times. *)
Theorem deciles_sum_refuted : exists ws lo hi,
  nminimum ws = Ok lo /\ nmaximum ws = Ok hi /\ Rsum (deciles ws lo hi) = 1000.
Proof.
  exists [1], 1, 1. split; [reflexivity|]. split; [reflexivity|].
  unfold deciles. cbn [length filter]. rnum.
  replace (1 - 1) with 0 by field.
  assert (A : forall i, (1 + 0 * i / 10) = 1) by (intros; field).
  assert (B : forall l : list nat, Rsum (map (fun i => 100 * INR (length (if (Rleb (1 + 0 * INR i / 10) 1 && Rleb 1 (1 + 0 * (INR i + 1) / 10))%bool then [1] else [])) / INR 1) l) = 100 * INR (length l)).
  { induction l as [|i l IH]; [simpl; lra|]. cbn [map Rsum length]. rewrite IH, (S_INR (length l)). rewrite !A.
    rewrite !Rleb_true by lra. cbn [andb length INR]. field. }
  rewrite B. rewrite seq_length. simpl. lra.
Qed.
Print Assumptions deciles_sum_refuted.
