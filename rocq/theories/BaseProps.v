(** * Properties of the common part of all polar diagrams (C35, C85) *)

From Coq Require Import List Bool Arith ZArith QArith Reals Lra Lia.
From Verif Require Import Py Num ListX WPointsModel InterpModel BaseModel.
Import ListNotations.
Open Scope R_scope.

(* ------------------------------------------------------------------ *)
(** ** [linspace] *)

Lemma linspace_length : forall (a b : R) n, length (linspace a b n) = n.
Proof.
  intros a b [|[|m]]; auto. unfold linspace. rewrite app_length, map_length, seq_length. simpl. lia.
Qed.

Lemma linspace_nth : forall (a b : R) n i, (2 <= n)%nat -> (i < n)%nat ->
  nth_error (linspace a b n) i = Some (a + INR i * ((b - a) / INR (n - 1))).
Proof.
  intros a b n i N I. destruct n as [|[|m]]; [lia|lia|]. unfold linspace. rnum.
  destruct (Nat.ltb_spec i (S m)) as [L|L].
  - rewrite nth_error_app1 by (rewrite map_length, seq_length; auto).
    rewrite nth_error_map, nth_error_seq. simpl Nat.add.
    rewrite (proj2 (Nat.ltb_lt i (S m)) L). cbn [option_map].
    change (Z.pos (Pos.of_succ_nat m)) with (Z.of_nat (S m)). rewrite <- !INR_IZR_INZ. replace (S (S m) - 1)%nat with (S m) by lia. reflexivity.
  - rewrite nth_error_app2 by (rewrite map_length, seq_length; lia).
    rewrite map_length, seq_length. replace (i - S m)%nat with O by lia. simpl nth_error.
    f_equal. replace i with (S m) by lia. replace (S (S m) - 1)%nat with (S m) by lia. field.
    apply not_0_INR. lia.
Qed.

Lemma removelast_linspace : forall (a b : R) n, (2 <= n)%nat ->
  removelast (linspace a b n) =
  map (fun i => a + INR i * ((b - a) / INR (n - 1))) (seq 0 (n - 1)).
Proof.
  intros a b n N. destruct n as [|[|m]]; [lia|lia|]. unfold linspace. rewrite removelast_last. rnum.
  replace (S (S m) - 1)%nat with (S m) by lia. apply map_ext. intros i.
  change (Z.pos (Pos.of_succ_nat m)) with (Z.of_nat (S m)). rewrite <- !INR_IZR_INZ. auto.
Qed.

(* ------------------------------------------------------------------ *)
(** ** C35 *)

(** The wind speeds between the given ones: [k] given speeds and [n] steps give
    [(k - 1) * (n + 1) + 1] speeds, gap [i] is divided evenly. *)
Theorem windspeeds_even : forall default (l : list R) n ws, l <> [] -> (0 < n)%Z ->
  get_windspeeds default (WList l) (Some n) = Ok ws ->
  length ws = ((length l - 1) * (Z.to_nat n + 1) + 1)%nat /\
  (forall i j a b, nth_error l i = Some a -> nth_error l (S i) = Some b -> (j <= Z.to_nat n)%nat ->
     nth_error ws (i * (Z.to_nat n + 1) + j) = Some (a + INR j * ((b - a) / INR (Z.to_nat n + 1)))) /\
  (forall i a, nth_error l i = Some a -> nth_error ws (i * (Z.to_nat n + 1)) = Some a).
Proof.
  intros default l n ws NE P E. unfold get_windspeeds in E.
  rewrite (proj2 (Z.leb_gt n 0)) in E by lia.
  set (k := Z.to_nat n) in *.
  set (gap := fun ab : R * R => removelast (linspace (fst ab) (snd ab) (k + 2))) in *.
  assert (forall ab, gap ab = map (fun j => fst ab + INR j * ((snd ab - fst ab) / INR (k + 1))) (seq 0 (k + 1))) as G.
  { intros [a b]. unfold gap. rewrite removelast_linspace by lia. simpl fst. simpl snd.
    replace (k + 2 - 1)%nat with (k + 1)%nat by lia. auto. }
  assert (forall (x : R) r, exists y, rev (x :: r) = y :: tl (rev (x :: r)) /\ nth_error (x :: r) (length r) = Some y) as RV.
  { clear. intros x r. destruct (rev (x :: r)) as [|y q] eqn:ER.
    - apply (f_equal (@length R)) in ER. rewrite rev_length in ER. discriminate.
    - exists y. split; auto.
      assert (x :: r = rev q ++ [y]) as EQ by (rewrite <- (rev_involutive (x :: r)), ER; auto).
      rewrite EQ. assert (length r = length (rev q)) as ->.
      { apply (f_equal (@length R)) in EQ. rewrite app_length in EQ. simpl in EQ. lia. }
      rewrite nth_error_app2, Nat.sub_diag by lia. auto. }
  destruct l as [|x0 r0]; [contradiction|]. destruct (RV x0 r0) as [y [R1 R2]]. rewrite R1 in E.
  injection E as <-. simpl tl. simpl length. replace (S (length r0) - 1)%nat with (length r0) by lia.
  clear RV R1 NE default.
  revert x0 y R2. induction r0 as [|x1 r IH]; intros x0 y R2.
  - simpl in *. injection R2 as <-. split; auto. split.
    + intros [|i] j a b _ H; simpl in H; [discriminate|destruct i; discriminate].
    + intros [|i] a H; simpl in *; auto. destruct i; discriminate.
  - simpl in R2. destruct (IH x1 y R2) as [L [I1 I2]].
    cbn [combine map concat]. rewrite <- app_assoc.
    set (rest := concat (map gap (combine (x1 :: r) r)) ++ [y]) in *.
    assert (length (gap (x0, x1)) = (k + 1)%nat) as LG by (rewrite G, map_length, seq_length; auto).
    assert (forall j, (j <= k)%nat -> nth_error (gap (x0, x1)) j =
              Some (x0 + INR j * ((x1 - x0) / INR (k + 1)))) as GN.
    { intros j Hj. rewrite G, nth_error_map, nth_error_seq. simpl Nat.add.
      rewrite (proj2 (Nat.ltb_lt j (k + 1))) by lia. reflexivity. }
    split; [rewrite app_length, LG, L; simpl length; lia|]. split.
    + intros [|i] j a b Ha Hb Hj.
      * simpl in Ha, Hb. injection Ha as <-. injection Hb as <-. simpl Nat.mul. simpl Nat.add.
        rewrite nth_error_app1 by lia. apply GN. auto.
      * cbn [nth_error] in Ha, Hb. rewrite nth_error_app2 by (rewrite LG; lia). rewrite LG.
        replace (S i * (k + 1) + j - (k + 1))%nat with (i * (k + 1) + j)%nat by lia. apply I1; auto.
    + intros [|i] a Ha.
      * simpl in Ha. injection Ha as <-. simpl Nat.mul. rewrite nth_error_app1 by lia.
        rewrite GN by lia. simpl INR. f_equal. lra.
      * cbn [nth_error] in Ha. rewrite nth_error_app2 by (rewrite LG; lia). rewrite LG.
        replace (S i * (k + 1) - (k + 1))%nat with (i * (k + 1))%nat by lia. apply I2; auto.
Qed.
Print Assumptions windspeeds_even.

Theorem windspeeds_other : forall default (ws : ws_arg R) n,
  (ws = WItems \/ ws = WOther -> get_windspeeds default ws n = Raise TypeError) /\
  (forall x, ws = WNum x -> get_windspeeds default ws n = Ok [x]) /\
  (forall l, ws = WList l \/ ws = WNone /\ l = default ->
     get_windspeeds default ws None = Ok l /\
     (forall m, (m <= 0)%Z -> get_windspeeds default ws (Some m) = Raise ValueError) /\
     (forall m, (0 < m)%Z -> l <> [] -> exists r, get_windspeeds default ws (Some m) = Ok r) /\
     (forall m, (0 < m)%Z -> l = [] -> get_windspeeds default ws (Some m) = Raise IndexError)).
Proof.
  intros default ws n. split; [intros [->| ->]; reflexivity|]. split; [intros x ->; reflexivity|].
  intros l H. assert (forall m, get_windspeeds default ws m = get_windspeeds default (WList l) m) as ->.
  { destruct H as [->|[-> ->]]; reflexivity. }
  split; [destruct H as [->|[-> ->]]; reflexivity|].
  assert (forall m, get_windspeeds default ws m = get_windspeeds default (WList l) m) as EQ.
  { destruct H as [->|[-> ->]]; reflexivity. }
  split; [|split]; intros m Hm; rewrite EQ; unfold get_windspeeds.
  - rewrite (proj2 (Z.leb_le m 0)) by auto. reflexivity.
  - intros NE. rewrite (proj2 (Z.leb_gt m 0)) by auto. destruct (rev l) eqn:ER; eauto.
    exfalso. apply NE. rewrite <- (rev_involutive l), ER. auto.
  - intros ->. rewrite (proj2 (Z.leb_gt m 0)) by auto. reflexivity.
Qed.
Print Assumptions windspeeds_other.

Example windspeeds_case :
  get_windspeeds (T:=Q) [] (WList [4; 6; 12]%Q) (Some 1%Z) <> Raise IndexError /\
  match get_windspeeds (T:=Q) [] (WList [4; 6; 12]%Q) (Some 1%Z) with
  | Ok l => map Qred l = [4; 5; 6; 9; 12]%Q | _ => False end.
Proof. split; [vm_compute; discriminate|vm_compute; reflexivity]. Qed.

(* ------------------------------------------------------------------ *)
(** ** C85 *)

(** [get_points] evaluates the diagram at every requested wind, in order. *)
Theorem get_points_evaluates : forall call default (w : wind_arg R) pts,
  get_points call default (Some w) = Ok pts ->
  exists wind, get_wind w = Ok wind /\ map (fun p => (pws p, pwa p)) pts = wind /\
    forall p, In p pts -> call (pws p) (pwa p) = Ok (pbs p).
Proof.
  intros call default w pts E. simpl in E. destruct (get_wind w) as [wind|] eqn:EW; [|discriminate].
  cbn [rbind] in E. exists wind. split; auto. clear EW w. revert pts E.
  induction wind as [|[s a] wind IH]; intros pts E; simpl in E.
  - injection E as <-. split; auto. intros p [].
  - destruct (call s a) as [b|] eqn:EB; [|discriminate]. cbn [rbind] in E.
    destruct (mapM _ wind) as [ys|]; [|discriminate]. cbn [rbind] in E. injection E as <-.
    destruct (IH ys eq_refl) as [I1 I2]. split.
    + simpl. rewrite I1. reflexivity.
    + intros p [<-|Hp]; auto.
Qed.
Print Assumptions get_points_evaluates.

(** Which winds are requested: the rows of an array with two columns, the columns
    of another array with two rows, all combinations of a pair. *)
Theorem get_wind_meaning : forall w : wind_arg R,
  match w with
  | WindRows rows width =>
      (width = 2%nat -> (forall r, In r rows -> length r = width) ->
         exists l, get_wind w = Ok l /\ rows = map (fun sa => [fst sa; snd sa]) l) /\
      (width <> 2%nat -> forall s a, rows = [s; a] -> length s = width -> length a = width ->
         exists l, get_wind w = Ok l /\ s = map fst l /\ a = map snd l) /\
      (width <> 2%nat -> length rows <> 2%nat -> get_wind w = Raise ValueError)
  | WindVector => get_wind w = Raise IndexError
  | WindTuple parts =>
      (forall ws wa, parts = [ws; wa] -> exists l, get_wind w = Ok l /\
         length l = (length ws * length wa)%nat /\
         forall s a, In (s, a) l <-> In s ws /\ In a wa) /\
      (length parts <> 2%nat -> get_wind w = Raise ValueError)
  | WindOther => get_wind w = Raise TypeError
  end.
Proof.
  intros [rows width| |parts|]; auto.
  - split; [|split].
    + intros -> L. simpl. eexists. split; [reflexivity|]. rewrite map_map. simpl.
      rewrite <- (map_id rows) at 1. apply map_ext_in. intros r Hr. specialize (L r Hr).
      destruct r as [|x [|y [|z r]]]; try discriminate. reflexivity.
    + intros N s a -> L1 L2. simpl. apply Nat.eqb_neq in N. rewrite N. simpl.
      eexists. split; [reflexivity|]. split; symmetry.
      * apply ListX.map_fst_combine. lia.
      * apply ListX.map_snd_combine. lia.
    + intros N1 N2. simpl. apply Nat.eqb_neq in N1. apply Nat.eqb_neq in N2. rewrite N1, N2. auto.
  - split.
    + intros ws wa ->. simpl. eexists. split; [reflexivity|]. split.
      * induction wa as [|a wa IH]; simpl; [lia|]. rewrite app_length, map_length, IH. lia.
      * intros s a. rewrite in_flat_map. split.
        -- intros [a' [Ha H]]. apply in_map_iff in H. destruct H as [s' [E H]]. inversion E; subst. auto.
        -- intros [Hs Ha]. exists a. split; auto. apply in_map_iff. eauto.
    + intros N. simpl. destruct parts as [|p1 [|p2 [|p3 parts]]]; auto. simpl in N. lia.
Qed.
Print Assumptions get_wind_meaning.

Example get_points_case :
  get_points (T:=Q) (fun s a => Ok (s + a)%Q) [] (Some (WindTuple [[6; 8]; [90; 120]]%Q)) =
  Ok [(6, 90, 96); (8, 90, 98); (6, 120, 126); (8, 120, 128)]%Q.
Proof. reflexivity. Qed.
