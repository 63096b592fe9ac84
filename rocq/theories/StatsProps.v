(** * The dictionaries of statistics: theorems *)

From Coq Require Import String List Bool Arith Lia.
From Verif Require Import Dict StatsModel StatsSpec StatsProofs.
Import ListNotations.
Open Scope string_scope.
Open Scope list_scope.

(** Sharing dictionaries makes no difference: whatever runs of whatever pipelines
    and other calls of the components follow each other, all the statistics that
    were ever returned, read at the end, are those of the program that copies
    dictionaries whenever they are handed over. *)
Theorem statistics_as_values : forall V (l : list (event V)), untouched l ->
  let (o, s) := history l start in map (see_output s) o = fst (vhistory l (fun _ => [])).
Proof.
  intros V l H. destruct (sim_history V l H start (fun _ => []) (rel_start V)) as [_ [_ Q]].
  destruct (history l start) as [o s]. apply rdlo_see; auto.
Qed.
Print Assumptions statistics_as_values.

(** In particular later runs leave the statistics of earlier ones as they are. *)
Theorem statistics_stay : forall V (l l2 : list (event V)), untouched l -> untouched l2 ->
  let (o, s) := history l start in
  map (see_output (snd (history l2 s))) o = map (see_output s) o.
Proof.
  intros V l l2 H H2. destruct (sim_history V l H start (fun _ => []) (rel_start V)) as [R [_ Q]].
  destruct (history l start) as [o s]. simpl in R, Q.
  destruct (sim_history V l2 H2 s _ R) as [_ [K _]].
  rewrite (rdlo_see V s o _ Q). apply rdlo_see. eapply stablel; eauto. apply stableo.
Qed.
Print Assumptions statistics_stay.

(** ** Do they describe the run? *)

(** Manners of components: statistics are set in every call; never; or only in
    [fit], for influence models. *)
Inductive manner := Always | Never | OnlyFit.
Definition speaks {V} (m : manner) (l : list (dict V)) : Prop :=
  match m with Always => l <> [] | Never => l = [] | OnlyFit => False end.
Definition speaks_opt {V} (m : manner) (l : option (list (dict V))) : Prop :=
  match l with Some l => speaks m l | None => True end.
Definition speaks_weighed {V} (mw mf : manner) (w : weighed V) : Prop :=
  match w with NoData => True | Weighed a b => speaks_opt mw a /\ speaks_opt mf b end.
Definition speaks_removing {V} (m : manner) (l : list (dict V)) : Prop :=
  match m with Always => l <> [] | _ => l = [] end.
Definition speaks_fitting {V} (m : manner) (l : list (dict V)) : Prop :=
  match m with Never => l = [] | _ => l <> [] end.

(** All the calls are in the manner of the components. *)
Definition proper_calls {V} (m : nat -> manner) (p : pipeline) (x : calls V) : Prop :=
  Forall (fun hc => speaks (m (fst hc)) (snd hc)) (handled x) /\
  Forall (speaks (m (imputator p))) (imputed x) /\
  match smoothed x with Some l => Forall (speaks (m (smoother p))) l | None => True end /\
  Forall (speaks_weighed (m (pre_exp_weigher p)) (m (pre_exp_filter p))) (pre_exp x) /\
  Forall (speaks (m (expander p))) (expanded x) /\
  Forall (speaks_weighed (m (pre_inf_weigher p)) (m (pre_inf_filter p))) (pre_inf x) /\
  match fitted x with Some l => speaks_fitting (m (influence p)) l | None => True end /\
  speaks_removing (m (influence p)) (removed x) /\
  speaks_weighed (m (post_weigher p)) (m (post_filter p)) (post x).
Definition proper {V} (m : nat -> manner) (p : pipeline) (x : run V) : Prop :=
  proper_calls m p (training x) /\ fitted (training x) <> None /\
  speaks_opt (m (injector p)) (injected x) /\ speaks (m (extension p)) (extended x) /\
  match tested x with Some (t, _) => proper_calls m p t /\ fitted t = None | None => True end.

Section Determined.
  Variable V : Type.
  Variable m : nat -> manner.
  Notation now := (nat -> dict V).
  Definition agree (K : nat -> Prop) (a b : now) : Prop := forall c, K c -> a c = b c.
  Definition same {X} (K K' : nat -> Prop) (f : prog now X) : Prop :=
    forall a b, agree K a b -> fst (f a) = fst (f b) /\ agree K' (snd (f a)) (snd (f b)).
  Definition full (K : nat -> Prop) : Prop := forall c, m c = Never -> K c.

  Lemma same_ret : forall X K (x : X), same K K (ret x).
  Proof. intros X K x a b H. auto. Qed.
  Lemma same_bind : forall X Y K1 K2 K3 (f : prog now X) (g : X -> prog now Y),
    same K1 K2 f -> (forall x, same K2 K3 (g x)) -> same K1 K3 (bind f g).
  Proof.
    intros X Y K1 K2 K3 f g Hf Hg a b H. destruct (Hf a b H) as [E A]. unfold bind.
    destruct (f a) as [x a'], (f b) as [y b']. simpl in *. subst. apply Hg; auto.
  Qed.
  Lemma same_each : forall A X K (f : A -> prog now X) (P : A -> Prop),
    (forall a, P a -> same K K (f a)) -> forall l, Forall P l -> same K K (each f l).
  Proof.
    intros A X K f P H l Hl. induction Hl as [|x l Hx Hl IH]; simpl; [apply same_ret|].
    eapply same_bind; [apply H; auto|]. intros y. eapply same_bind; [apply IH|]. intros ys. apply same_ret.
  Qed.
  Lemma after_same : forall (d d' : dict V) l, l <> [] -> after d l = after d' l.
  Proof.
    intros d d' l H. unfold after. destruct l as [|x l]; [congruence|]. clear H. simpl map.
    generalize (map kwargs l), (kwargs x). intros r y. simpl. revert y.
    induction r as [|z r IH]; intros y; [reflexivity|]. apply IH.
  Qed.
  Lemma same_collect : forall K c l, full K -> speaks (m c) l -> same K K (vcollect c l).
  Proof.
    intros K c l HK S a b H. simpl.
    assert (E : after (a c) l = after (b c) l).
    { destruct (m c) eqn:Em; simpl in S.
      - apply after_same; auto.
      - subst. simpl. apply H. apply HK; auto.
      - contradiction. }
    rewrite E. split; [auto|]. intros c' Kc. unfold put. destruct (Nat.eq_dec c' c); auto.
  Qed.
  Lemma same_optional : forall K c l, full K -> speaks_opt (m c) l -> same K K (voptional c l).
  Proof. intros K c [l|] HK S; simpl; [apply same_collect; auto|apply same_ret]. Qed.
  Lemma same_weigh : forall K w f x, full K -> speaks_weighed (m w) (m f) x -> same K K (vweigh w f x).
  Proof.
    intros K w f [|ow of] HK S; simpl; [apply same_ret|]. destruct S as [S1 S2].
    eapply same_bind; [apply same_optional; auto|]. intros a.
    eapply same_bind; [apply same_optional; auto|]. intros b. apply same_ret.
  Qed.

  Definition with_influence (p : pipeline) (K : nat -> Prop) (c : nat) : Prop := K c \/ c = influence p.

  Lemma same_remove : forall K p x, full K -> fitted x <> None \/ K (influence p) ->
    match fitted x with Some l => speaks_fitting (m (influence p)) l | None => True end ->
    speaks_removing (m (influence p)) (removed x) -> same K (with_influence p K) (vremove p x).
  Proof.
    intros K p x HK HF SF SR a b H. unfold vremove. set (c := influence p) in *.
    assert (E : match fitted x with
                | Some l => update (after (after (a c) l) (removed x)) (after (a c) l)
                | None => after (a c) (removed x)
                end =
                match fitted x with
                | Some l => update (after (after (b c) l) (removed x)) (after (b c) l)
                | None => after (b c) (removed x)
                end).
    { destruct (fitted x) as [l|].
      - assert (E : after (a c) l = after (b c) l).
        { destruct (m c) eqn:Em; simpl in SF; [apply after_same; auto| |apply after_same; auto].
          subst. simpl. apply H. apply HK; auto. }
        rewrite E. reflexivity.
      - destruct HF as [HF|HF]; [congruence|]. rewrite (H _ HF). reflexivity. }
    cbn [fst snd]. rewrite E. split; [reflexivity|].
    intros c' [Kc| ->]; unfold put; fold c.
    - destruct (Nat.eq_dec c' c); auto.
    - destruct (Nat.eq_dec c c); congruence.
  Qed.

  Lemma full_with : forall p K, full K -> full (with_influence p K).
  Proof. intros p K H c E. left; auto. Qed.

  Lemma same_preprocess : forall K p x, full K -> proper_calls m p x -> fitted x <> None \/ K (influence p) ->
    same K (with_influence p K) (vpreprocess p x).
  Proof.
    intros K p x HK [P1 [P2 [P3 [P4 [P5 [P6 [P7 [P8 P9]]]]]]]] HF. unfold vpreprocess.
    eapply same_bind; [eapply same_each; [|exact P1]; intros hc Hc; apply same_collect; auto|]. intros h.
    eapply same_bind; [eapply same_each; [|exact P2]; intros hc Hc; apply same_collect; auto|]. intros i.
    eapply same_bind with (K2 := K).
    { unfold vsmoothing. destruct (smoothed x) as [l|]; [|apply same_ret].
      eapply same_bind; [eapply same_each; [|exact P3]; intros hc Hc; apply same_collect; auto|].
      intros r. apply same_ret. }
    intros s.
    eapply same_bind; [eapply same_each; [|exact P4]; intros hc Hc; apply same_weigh; auto|]. intros we.
    eapply same_bind; [eapply same_each; [|exact P5]; intros hc Hc; apply same_collect; auto|]. intros e.
    eapply same_bind; [eapply same_each; [|exact P6]; intros hc Hc; apply same_weigh; auto|]. intros wi.
    eapply same_bind; [apply same_remove; auto|]. intros r.
    eapply same_bind; [apply same_weigh; [apply full_with; auto|auto]|]. intros o.
    apply same_ret.
  Qed.

  Lemma same_weaken : forall X (K1 K2 K3 : nat -> Prop) (f : prog now X),
    same K1 K2 f -> (forall c, K3 c -> K2 c) -> same K1 K3 f.
  Proof. intros X K1 K2 K3 f H HK a b A. destruct (H a b A). split; auto. intros c Kc; auto. Qed.

  Lemma same_execute : forall K p x, full K -> proper m p x -> same K K (vexecute p x).
  Proof.
    intros K p x HK [P1 [P2 [P3 [P4 P5]]]]. unfold vexecute.
    eapply same_bind; [apply same_preprocess; auto|]. intros t.
    eapply same_bind; [apply same_optional; [apply full_with; auto|auto]|]. intros inj.
    eapply same_bind; [apply same_collect; [apply full_with; auto|auto]|]. intros ext.
    eapply same_bind with (K2 := K); [|intros q; apply same_ret].
    unfold vtesting. destruct (tested x) as [[u q]|].
    - destruct P5 as [P5 P6].
      eapply same_bind; [eapply same_weaken; [apply same_preprocess; [apply full_with, HK|auto|]|]|].
      + right. right. reflexivity.
      + intros c Kc. left. left. exact Kc.
      + intros l. apply same_ret.
    - eapply same_weaken; [apply same_ret|]. intros c Kc. left; auto.
  Qed.

  (** Components that never set statistics have set none so far. *)
  Definition mute (c : nat) (l : list (dict V)) : Prop := m c = Never -> l = [].
  Definition mute_opt (c : nat) (l : option (list (dict V))) : Prop :=
    match l with Some l => mute c l | None => True end.
  Definition mute_weighed (w f : nat) (x : weighed V) : Prop :=
    match x with NoData => True | Weighed a b => mute_opt w a /\ mute_opt f b end.
  Definition mute_calls (p : pipeline) (x : calls V) : Prop :=
    Forall (fun hc => mute (fst hc) (snd hc)) (handled x) /\
    Forall (mute (imputator p)) (imputed x) /\
    match smoothed x with Some l => Forall (mute (smoother p)) l | None => True end /\
    Forall (mute_weighed (pre_exp_weigher p) (pre_exp_filter p)) (pre_exp x) /\
    Forall (mute (expander p)) (expanded x) /\
    Forall (mute_weighed (pre_inf_weigher p) (pre_inf_filter p)) (pre_inf x) /\
    mute_opt (influence p) (fitted x) /\ mute (influence p) (removed x) /\
    mute_weighed (post_weigher p) (post_filter p) (post x).
  Definition mute_event (e : event V) : Prop :=
    match e with
    | Run p x => mute_calls p (training x) /\ mute_opt (injector p) (injected x) /\
                 mute (extension p) (extended x) /\
                 match tested x with Some (t, _) => mute_calls p t | None => True end
    | Fails p x => mute_calls p x
    | Call c l => mute c l
    | Enter _ _ _ => True
    end.

  Definition silent (a : now) : Prop := forall c, m c = Never -> a c = [].
  Definition hush {X} (f : prog now X) : Prop := forall a, silent a -> silent (snd (f a)).
  Lemma hush_ret : forall X (x : X), hush (ret x).
  Proof. intros X x a H. exact H. Qed.
  Lemma hush_bind : forall X Y (f : prog now X) (g : X -> prog now Y),
    hush f -> (forall x, hush (g x)) -> hush (bind f g).
  Proof. intros X Y f g Hf Hg a H. unfold bind. specialize (Hf a H). destruct (f a). apply Hg; auto. Qed.
  Lemma hush_each : forall A X (f : A -> prog now X) (P : A -> Prop),
    (forall a, P a -> hush (f a)) -> forall l, Forall P l -> hush (each f l).
  Proof.
    intros A X f P H l Hl. induction Hl; simpl; [apply hush_ret|].
    apply hush_bind; [auto|]. intros y. apply hush_bind; [auto|]. intros ys. apply hush_ret.
  Qed.
  Lemma hush_collect : forall c l, mute c l -> hush (vcollect c l).
  Proof.
    intros c l M a H c' E. simpl. unfold put. destruct (Nat.eq_dec c' c) as [->|_]; [|apply (H c' E)].
    rewrite (M E). apply (H c E).
  Qed.
  Lemma hush_optional : forall c l, mute_opt c l -> hush (voptional c l).
  Proof. intros c [l|] M; simpl; [apply hush_collect; auto|apply hush_ret]. Qed.
  Lemma hush_weigh : forall w f x, mute_weighed w f x -> hush (vweigh w f x).
  Proof.
    intros w f [|a b] M; simpl; [apply hush_ret|]. destruct M.
    apply hush_bind; [apply hush_optional; auto|]. intros.
    apply hush_bind; [apply hush_optional; auto|]. intros. apply hush_ret.
  Qed.
  Lemma hush_preprocess : forall p x, mute_calls p x -> hush (vpreprocess p x).
  Proof.
    intros p x [P1 [P2 [P3 [P4 [P5 [P6 [P7 [P8 P9]]]]]]]]. unfold vpreprocess.
    apply hush_bind; [eapply hush_each; [|exact P1]; intros; apply hush_collect; auto|]. intros.
    apply hush_bind; [eapply hush_each; [|exact P2]; intros; apply hush_collect; auto|]. intros.
    apply hush_bind.
    { unfold vsmoothing. destruct (smoothed x); [|apply hush_ret].
      apply hush_bind; [eapply hush_each; [|exact P3]; intros; apply hush_collect; auto|]. intros. apply hush_ret. }
    intros.
    apply hush_bind; [eapply hush_each; [|exact P4]; intros; apply hush_weigh; auto|]. intros.
    apply hush_bind; [eapply hush_each; [|exact P5]; intros; apply hush_collect; auto|]. intros.
    apply hush_bind; [eapply hush_each; [|exact P6]; intros; apply hush_weigh; auto|]. intros.
    apply hush_bind; [|intros; apply hush_bind; [apply hush_weigh; auto|intros; apply hush_ret]].
    intros a H c E. unfold vremove. cbn [snd]. unfold put.
    destruct (Nat.eq_dec c (influence p)) as [->|_]; [|apply (H c E)].
    rewrite (P8 E). destruct (fitted x) as [l|]; simpl in *; [rewrite (P7 E)|]; unfold after; simpl;
      rewrite (H _ E); reflexivity.
  Qed.
  Lemma hush_happen : forall e, mute_event e -> hush (vhappen e).
  Proof.
    intros [p x|p x|c l|a k v] M; simpl in *.
    - destruct M as [M1 [M2 [M3 M4]]]. apply hush_bind; [|intros; apply hush_ret]. unfold vexecute.
      apply hush_bind; [apply hush_preprocess; auto|]. intros.
      apply hush_bind; [apply hush_optional; auto|]. intros.
      apply hush_bind; [apply hush_collect; auto|]. intros.
      apply hush_bind; [|intros; apply hush_ret]. unfold vtesting. destruct (tested x) as [[t q]|]; [|apply hush_ret].
      apply hush_bind; [apply hush_preprocess; auto|]. intros. apply hush_ret.
    - apply hush_bind; [apply hush_preprocess; auto|]. intros. apply hush_ret.
    - apply hush_bind; [apply hush_collect; auto|]. intros. apply hush_ret.
    - apply hush_ret.
  Qed.
End Determined.
Arguments mute_event {V}. Arguments silent {V}.

(** After any history of the components, a run returns the statistics it would
    return with new components, if every component sets statistics in all its
    calls or in none, where an influence model may also set them only in [fit]. *)
Theorem statistics_of_run : forall V (m : nat -> manner) (l : list (event V)) p (x : run V),
  untouched l -> Forall (mute_event m) l -> proper m p x ->
  let (o, s) := execute p x (snd (history l start)) in
  let (o', s') := execute p x start in
  see_output s o = see_output s' o'.
Proof.
  intros V m l p x U M P.
  destruct (sim_history V l U start (fun _ => []) (rel_start V)) as [R [_ _]].
  assert (Sl : silent m (snd (vhistory l (fun _ : nat => [])))).
  { assert (H : hush V m (vhistory l)).
    { unfold vhistory. apply hush_bind; [|intros; apply hush_ret].
      eapply hush_each; [|exact M]. apply hush_happen. }
    apply H. intros c _. reflexivity. }
  destruct (sim_execute V p x _ _ R) as [_ [_ Q]].
  destruct (sim_execute V p x _ _ (rel_start V)) as [_ [_ Q']].
  destruct (same_execute V m (fun c => m c = Never) p x (fun c H => H) P
              (snd (vhistory l (fun _ : nat => []))) (fun _ => [])) as [E _].
  { intros c H. apply Sl; auto. }
  destruct (execute p x (snd (history l start))) as [o s], (execute p x start) as [o' s'].
  simpl in Q, Q'. rewrite (rdo_see V _ _ _ Q), (rdo_see V _ _ _ Q'). exact E.
Qed.
Print Assumptions statistics_of_run.

(** Not so for an influence model that sets statistics in [remove_influence] but
    not in [fit]: its former statistics override those of the present run, for all
    runs of all pipelines. *)
Lemma dget_update : forall V (e d : dict V) k, NoDup (dkeys e) ->
  dget k (update d e) = match dget k e with Some v => Some v | None => dget k d end.
Proof.
  induction e as [|[k1 v1] e IH]; intros d k N; simpl; auto.
  inversion N as [|? ? N1 N2]; subst.
  change (update d ((k1, v1) :: e)) with (update (dset k1 v1 d) e). rewrite IH by auto.
  destruct (String.eqb_spec k1 k) as [->|F].
  - replace (dget k e) with (@None V) by (symmetry; apply dget_None; auto).
    apply dget_dset_same.
  - rewrite dget_dset_other by auto. reflexivity.
Qed.

Theorem statistics_stale : forall V (l : list (event V)) p (x : run V) now,
  untouched l -> now = snd (vhistory l (fun _ => [])) ->
  fitted (training x) = Some [] ->
  (forall c y, In (c, y) (handled (training x)) -> c <> influence p) ->
  (forall c, In c [imputator p; smoother p; pre_exp_weigher p; pre_exp_filter p; expander p;
                   pre_inf_weigher p; pre_inf_filter p] -> c <> influence p) ->
  let (o, s) := execute p x (snd (history l start)) in
  exists d, nth 8 (map (see s) (fst o)) (One []) = One d /\
  forall k v, dget k (now (influence p)) = Some v -> dget k d = Some v.
Proof.
  intros V l p x now U En HF HH HC.
  destruct (sim_history V l U start (fun _ => []) (rel_start V)) as [R [_ _]].
  assert (R' : rel V (snd (history l start)) now) by (rewrite En; exact R). clear R. rename R' into R.
  destruct (sim_execute V p x _ _ R) as [_ [_ Q]].
  destruct (execute p x (snd (history l start))) as [o s]. simpl in Q.
  replace (map (see s) (fst o)) with (fst (see_output s o)) by reflexivity.
  rewrite (rdo_see V _ _ _ Q).
  assert (ND : NoDup (dkeys (now (influence p)))).
  { destruct R as [[_ [_ [N _]]] [E _]]. rewrite <- E. apply N. }
  set (i := influence p) in *.
  assert (KE : forall A X (f : A -> prog (nat -> dict V) X) (P : A -> Prop),
      (forall a n, P a -> snd (f a n) i = n i) -> forall ll, Forall P ll -> forall n, snd (each f ll n) i = n i).
  { intros A X f P H ll Hl. induction Hl as [|a ll Ha Hl IH]; intros n; simpl; auto.
    unfold bind. specialize (H a n Ha). destruct (f a n) as [y n1]. specialize (IH n1).
    destruct (each f ll n1) as [ys n2]. simpl in *. congruence. }
  assert (KC : forall c ll n, c <> i -> snd (vcollect (V:=V) c ll n) i = n i).
  { intros c ll n Hc. simpl. unfold put. destruct (Nat.eq_dec i c); congruence. }
  assert (KO : forall c ll n, c <> i -> snd (voptional (V:=V) c ll n) i = n i).
  { intros c [ll|] n Hc; simpl; auto. apply KC; auto. }
  assert (KW : forall w f y n, w <> i -> f <> i -> snd (vweigh (V:=V) w f y n) i = n i).
  { intros w f [|a b] n Hw Hf; auto. unfold vweigh, bind.
    pose proof (KO w a n Hw) as H1. destruct (voptional w a n) as [y1 n1].
    pose proof (KO f b n1 Hf) as H2. destruct (voptional f b n1) as [y2 n2]. simpl in *. congruence. }
  assert (T : forall A (ll : list A), Forall (fun _ => True) ll) by (intros; apply Forall_forall; auto).
  assert (C1 : imputator p <> i) by (apply HC; simpl; tauto).
  assert (C2 : smoother p <> i) by (apply HC; simpl; tauto).
  assert (C3 : pre_exp_weigher p <> i) by (apply HC; simpl; tauto).
  assert (C4 : pre_exp_filter p <> i) by (apply HC; simpl; tauto).
  assert (C5 : expander p <> i) by (apply HC; simpl; tauto).
  assert (C6 : pre_inf_weigher p <> i) by (apply HC; simpl; tauto).
  assert (C7 : pre_inf_filter p <> i) by (apply HC; simpl; tauto).
  assert (HH' : Forall (fun hc => fst hc <> i) (handled (training x))).
  { apply Forall_forall. intros [c y] Hin. apply (HH c y Hin). }
  assert (H1 : forall n, snd (each (fun hc => vcollect (fst hc) (snd hc)) (handled (training x)) n) i = n i).
  { apply (KE _ _ _ (fun hc => fst hc <> i)); auto. }
  assert (H2 : forall c ll n, c <> i -> snd (each (vcollect (V:=V) c) ll n) i = n i).
  { intros c ll n Hc. apply (KE _ _ _ (fun _ => True)); auto. }
  assert (H3 : forall n, snd (vsmoothing p (training x) n) i = n i).
  { intros n. unfold vsmoothing. destruct (smoothed (training x)) as [ll|]; auto. unfold bind.
    specialize (H2 (smoother p) ll n C2). destruct (each (vcollect (smoother p)) ll n). exact H2. }
  assert (H4 : forall w f ll n, w <> i -> f <> i -> snd (each (vweigh (V:=V) w f) ll n) i = n i).
  { intros w f ll n Hw Hf. apply (KE _ _ _ (fun _ => True)); auto. }
  unfold vexecute, bind at 1. unfold vpreprocess.
  unfold bind at 1. specialize (H1 now). destruct (each _ _ now) as [r1 n1].
  unfold bind at 1. pose proof (H2 (imputator p) (imputed (training x)) n1 C1) as G2. destruct (each _ _ n1) as [r2 n2].
  unfold bind at 1. specialize (H3 n2). destruct (vsmoothing _ _ n2) as [r3 n3].
  unfold bind at 1. pose proof (H4 _ _ (pre_exp (training x)) n3 C3 C4) as G4. destruct (each _ _ n3) as [r4 n4].
  unfold bind at 1. pose proof (H2 (expander p) (expanded (training x)) n4 C5) as G5. destruct (each _ _ n4) as [r5 n5].
  unfold bind at 1. pose proof (H4 _ _ (pre_inf (training x)) n5 C6 C7) as G6. destruct (each _ _ n5) as [r6 n6].
  cbn [fst snd] in *.
  assert (Hn : n6 i = now i) by congruence.
  unfold bind at 1. unfold vremove. rewrite HF. fold i.
  unfold bind at 1. destruct (vweigh (post_weigher p) (post_filter p) (post (training x)) _) as [r8 n8].
  cbn [ret]. unfold bind.
  destruct (voptional (injector p) (injected x) n8) as [inj n9].
  destruct (vcollect (extension p) (extended x) n9) as [ext n10].
  destruct (vtesting p x n10) as [q n11].
  cbn [fst vassemble firstn skipn app ret nth]. eexists. split; [reflexivity|].
  intros k v Hk. simpl in Hk |- *. unfold after at 2. simpl. rewrite Hn.
  rewrite dget_update by auto. fold i in Hk. change (after (now i) []) with (now i). rewrite Hk. reflexivity.
Qed.
Print Assumptions statistics_stale.

(** ** Entries made by the caller *)

Definition addresses (x : stat addr) : list addr := match x with One a => [a] | Many l => l end.
Definition all_addresses (o : list (stat addr) * list (stat addr)) : list addr :=
  flat_map addresses (fst o ++ snd o).

(** Everything in a run sets statistics. *)
Definition vocal {V} (p : pipeline) (x : calls V) : Prop := proper_calls (fun _ => Always) p x.

Section Fresh.
  Variable V : Type.
  Notation st := (StatsModel.store V).
  Definition allnew {X} (ad : X -> list addr) (s0 : st) (f : prog st X) : Prop :=
    forall s now, rel V s now -> keeps V s0 s ->
    (exists now', rel V (snd (f s)) now') /\ keeps V s0 (snd (f s)) /\
    forall a, In a (ad (fst (f s))) -> ~ known V s0 a.

  Lemma allnew_bind : forall X Y (ad : X -> list addr) (ad' : Y -> list addr) s0 (f : prog st X) (g : X -> prog st Y),
    allnew ad s0 f -> (forall x, (forall a, In a (ad x) -> ~ known V s0 a) -> allnew ad' s0 (g x)) ->
    allnew ad' s0 (bind f g).
  Proof.
    intros X Y ad ad' s0 f g Hf Hg s now R K. destruct (Hf s now R K) as [[now1 R1] [K1 N1]].
    unfold bind. destruct (f s) as [x s1]. simpl in *. eapply Hg; eauto.
  Qed.
  Lemma allnew_ret : forall X (ad : X -> list addr) s0 x,
    (forall a, In a (ad x) -> ~ known V s0 a) -> allnew ad s0 (ret x).
  Proof. intros X ad s0 x H s now R K. simpl. split; [eauto|]. split; auto. Qed.

  Definition one (a : addr) := [a].
  Definition two (a : addr * addr) := [fst a; snd a].
  Lemma allnew_alloc : forall s0 d, NoDup (dkeys d) -> allnew one s0 (alloc d).
  Proof.
    intros s0 d Hd s now R K. destruct (sim_alloc V d Hd s now R) as [R1 [K1 _]].
    split; [eauto|]. split; [eapply keeps_trans; eauto|]. intros a [<-|[]]. simpl. destruct K. lia.
  Qed.
  Lemma allnew_collect : forall s0 c l, l <> [] -> allnew one s0 (collect c l).
  Proof.
    intros s0 c l Hl s now R K. rewrite collect_eq. simpl.
    destruct (method_facts V c l s now R) as [R1 [K1 [[A _]|A]]]; [congruence|].
    split; [eauto|]. split; [eapply keeps_trans; eauto|]. intros a [<-|[]] Ka. apply A.
    eapply known_keeps; eauto.
  Qed.
  Lemma allnew_optional : forall s0 c l, speaks_opt Always l -> allnew one s0 (optional c l).
  Proof. intros s0 c [l|] H; simpl in *; [apply allnew_collect; auto|apply allnew_alloc; constructor]. Qed.
  Lemma allnew_weigh : forall s0 w f x, speaks_weighed Always Always x -> allnew two s0 (weigh_and_filter w f x).
  Proof.
    intros s0 w f [|a b] H; simpl.
    - eapply allnew_bind; [apply allnew_alloc; constructor|]. intros x Hx.
      eapply allnew_bind; [apply allnew_alloc; constructor|]. intros y Hy.
      apply allnew_ret. intros c [<-|[<-|[]]]; [apply Hx|apply Hy]; simpl; auto.
    - destruct H as [H1 H2].
      eapply allnew_bind; [apply allnew_optional; auto|]. intros x Hx.
      eapply allnew_bind; [apply allnew_optional; auto|]. intros y Hy.
      apply allnew_ret. intros c [<-|[<-|[]]]; [apply Hx|apply Hy]; simpl; auto.
  Qed.
  Lemma allnew_each : forall A X (ad : X -> list addr) s0 (f : A -> prog st X) (P : A -> Prop),
    (forall a, P a -> allnew ad s0 (f a)) -> forall l, Forall P l -> allnew (flat_map ad) s0 (each f l).
  Proof.
    intros A X ad s0 f P H l Hl. induction Hl as [|x l Hx Hl IH]; simpl.
    - apply allnew_ret. intros a [].
    - eapply allnew_bind; [apply H; auto|]. intros y Hy. eapply allnew_bind; [apply IH|]. intros ys Hys.
      apply allnew_ret. simpl. intros a Ha. apply in_app_or in Ha. destruct Ha; auto.
  Qed.
  Lemma allnew_remove : forall s0 p x, removed x <> [] -> allnew one s0 (remove_influence p x).
  Proof.
    intros s0 p x Hr s now R K. destruct (sim_remove V p x s now R) as [R1 [K1 _]].
    split; [eauto|]. split; [eapply keeps_trans; eauto|].
    assert (E : exists s1 now1, rel V s1 now1 /\ keeps V s s1 /\
      fst (remove_influence p x s) = attr (snd (method (influence p) (removed x) s1)) (influence p)).
    { unfold remove_influence. destruct (fitted x) as [l|].
      - exists (snd (method (influence p) l s)). destruct (method_facts V (influence p) l s now R) as [R2 [K2 _]].
        eexists. split; [exact R2|]. split; [exact K2|].
        unfold bind at 1. destruct (method (influence p) l s) as [u s1]. unfold bind, latest at 1.
        rewrite collect_eq. reflexivity.
      - exists s, now. split; [auto|]. split; [apply keeps_refl|]. rewrite collect_eq. reflexivity. }
    destruct E as [s1 [now1 [R2 [K2 E]]]]. rewrite E. intros a [<-|[]] Ka.
    destruct (method_facts V (influence p) (removed x) s1 now1 R2) as [_ [_ [[A _]|A]]]; [congruence|].
    apply A. eapply known_keeps; [|exact Ka]. eapply keeps_trans; eauto.
  Qed.

  Lemma in_one : forall l a, In a (flat_map one l) <-> In a l.
  Proof. induction l as [|x l IH]; intros a; simpl; [tauto|]. rewrite IH. tauto. Qed.
  Lemma in_fst : forall l a, In a (map fst l) -> In a (flat_map two l).
  Proof. induction l as [|[x y] l IH]; simpl; intros a; [tauto|]. intros [H|H]; auto. Qed.
  Lemma in_snd : forall l a, In a (map snd l) -> In a (flat_map two l).
  Proof. induction l as [|[x y] l IH]; simpl; intros a; [tauto|]. intros [H|H]; auto. Qed.

  Definition pre_addresses (l : list (stat addr)) := flat_map addresses l.

  Lemma allnew_smoothing : forall s0 p x,
    match smoothed x with Some l => Forall (speaks Always) l | None => True end ->
    allnew addresses s0 (smoothing p x).
  Proof.
    intros s0 p x H. unfold smoothing. destruct (smoothed x) as [l|].
    - eapply allnew_bind; [eapply allnew_each; [|exact H]; intros; apply allnew_collect; auto|].
      intros r Hr. apply allnew_ret. simpl. intros a Ha. apply Hr. apply in_one; auto.
    - eapply allnew_bind; [apply allnew_alloc; constructor|]. intros r Hr. apply allnew_ret. exact Hr.
  Qed.

  (** The result also has its fourteen entries. *)
  Definition fourteen (l : list (stat addr)) := length l = 14.
  Lemma allnew_preprocess : forall s0 p x, vocal p x -> allnew pre_addresses s0 (preprocess p x).
  Proof.
    intros s0 p x [P1 [P2 [P3 [P4 [P5 [P6 [P7 [P8 P9]]]]]]]]. unfold preprocess.
    eapply allnew_bind; [eapply allnew_each; [|exact P1]; intros a Ha; apply allnew_collect; exact Ha|]. intros h Hh.
    eapply allnew_bind; [eapply allnew_each; [|exact P2]; intros; apply allnew_collect; auto|]. intros i Hi.
    eapply allnew_bind; [apply allnew_smoothing; auto|]. intros s Hs.
    eapply allnew_bind; [eapply allnew_each; [|exact P4]; intros; apply allnew_weigh; auto|]. intros we Hwe.
    eapply allnew_bind; [eapply allnew_each; [|exact P5]; intros; apply allnew_collect; auto|]. intros e He.
    eapply allnew_bind; [eapply allnew_each; [|exact P6]; intros; apply allnew_weigh; auto|]. intros wi Hwi.
    eapply allnew_bind; [apply allnew_remove; exact P8|]. intros r Hr.
    eapply allnew_bind; [apply allnew_weigh; exact P9|]. intros o Ho.
    eapply allnew_bind; [apply allnew_alloc; constructor|]. intros x1 H1.
    eapply allnew_bind; [apply allnew_alloc; constructor|]. intros x2 H2.
    eapply allnew_bind; [apply allnew_alloc; constructor|]. intros x3 H3.
    apply allnew_ret. unfold pre_addresses. cbn [flat_map addresses]. intros a Ha.
    repeat (apply in_app_or in Ha; destruct Ha as [Ha|Ha]); try contradiction.
    - apply Hh, in_one, Ha.
    - apply Hi, in_one, Ha.
    - apply Hs, Ha.
    - apply Hwe, in_fst, Ha.
    - apply Hwe, in_snd, Ha.
    - apply He, in_one, Ha.
    - apply Hwi, in_fst, Ha.
    - apply Hwi, in_snd, Ha.
    - apply Hr, Ha.
    - apply Ho. destruct Ha as [<-|[]]. left; reflexivity.
    - apply Ho. destruct Ha as [<-|[]]. right; left; reflexivity.
    - apply H1, Ha.
    - apply H2, Ha.
    - apply H3, Ha.
  Qed.

  Lemma assemble_in : forall l i e q a, In a (flat_map addresses (assemble l i e q)) ->
    In a (flat_map addresses l) \/ a = i \/ a = e \/ a = q.
  Proof.
    intros l i e q a H.
    do 14 (destruct l as [|? l]; [left; exact H|]). destruct l as [|? l]; [|left; exact H].
    cbn [assemble flat_map addresses] in *.
    repeat (apply in_app_or in H; destruct H as [H|H]);
      try (left; repeat (apply in_or_app; first [left; exact H|right]); fail);
      simpl in H; intuition.
  Qed.

  Lemma allnew_execute : forall s0 p x, vocal p (training x) -> speaks_opt Always (injected x) ->
    extended x <> [] -> (exists t q, tested x = Some (t, q) /\ vocal p t) ->
    allnew all_addresses s0 (execute p x).
  Proof.
    intros s0 p x P1 P2 P3 [t [q [E P4]]]. unfold execute.
    eapply allnew_bind; [apply allnew_preprocess; auto|]. intros l Hl.
    eapply allnew_bind; [apply allnew_optional; auto|]. intros i Hi.
    eapply allnew_bind; [apply allnew_collect; auto|]. intros e He.
    eapply allnew_bind with (ad := fun o => snd o :: pre_addresses (fst o)).
    { unfold testing. rewrite E. eapply allnew_bind; [apply allnew_preprocess; auto|]. intros l' Hl'.
      eapply allnew_bind; [apply allnew_alloc; apply dset_NoDup, kwargs_nodup|]. intros qa Hqa.
      apply allnew_ret. simpl. intros a [<-|Ha]; [apply Hqa; left; reflexivity|auto]. }
    intros o Ho. apply allnew_ret. unfold all_addresses. cbn [fst snd]. intros a Ha.
    rewrite flat_map_app in Ha. apply in_app_or in Ha. destruct Ha as [Ha|Ha].
    - apply assemble_in in Ha. destruct Ha as [Ha|[Ha|[Ha|Ha]]]; try subst a;
        [apply Hl; auto|apply Hi; left; reflexivity|apply He; left; reflexivity|apply Ho; left; reflexivity].
    - apply Ho. right. exact Ha.
  Qed.
End Fresh.

(** If every call of a run with test data sets statistics, all dictionaries it
    returns are new: what the caller enters there is not seen in the statistics
    of any earlier run. *)
Theorem statistics_new : forall V (l : list (event V)) p (x : run V),
  untouched l -> vocal p (training x) -> speaks_opt Always (injected x) -> extended x <> [] ->
  (exists t q, tested x = Some (t, q) /\ vocal p t) ->
  let (o, s) := history l start in
  let (o', s') := execute p x s in
  forall a k v, In a (all_addresses o') ->
  map (see_output (snd (happen (Enter a k v) s'))) o = map (see_output s) o.
Proof.
  intros V l p x U P1 P2 P3 P4.
  destruct (sim_history V l U start (fun _ => []) (rel_start V)) as [R [_ Q]].
  destruct (history l start) as [o s]. simpl in R, Q.
  destruct (allnew_execute V s p x P1 P2 P3 P4 s _ R (keeps_refl V s)) as [_ [K N]].
  destruct (execute p x s) as [o' s']. simpl in K, N. intros a k v Ha.
  rewrite (rdlo_see V s o _ Q). apply rdlo_see. eapply stablel; [apply stableo| |exact Q].
  split; [destruct K; simpl; auto|]. intros b Kb. unfold happen, bind, write, ret. cbn [snd heap].
  destruct (addr_eq_dec b a) as [->|_]; [exfalso; apply (N a Ha Kb)|]. apply K; auto.
Qed.
Print Assumptions statistics_new.

(** ** Examples *)

(** Handlers and the components, which are numbered in the order of the record;
    statistics are numbers.  The smoother (2) and the extension (12) never set
    statistics, the influence model (8) sets them in [fit]. *)
Definition ex_pipe := mkPl 1 2 3 4 5 6 7 8 9 10 11 12.
Definition ex_stat (n : nat) : list (dict nat) := [[("n", n)]].
Definition ex_calls (n : nat) (fit : option (list (dict nat))) (rem : list (dict nat)) : calls nat :=
  mkCl [(0, ex_stat n); (0, ex_stat (n + 1))] [ex_stat n; ex_stat (n + 1)] (Some [[]; []])
       [Weighed (Some (ex_stat n)) None; NoData] [ex_stat n; ex_stat (n + 1)]
       [Weighed (Some (ex_stat n)) (Some (ex_stat n)); Weighed None (Some (ex_stat n))]
       fit rem (Weighed (Some (ex_stat n)) (Some (ex_stat n))).
Definition ex_run (n : nat) : run nat :=
  mkRun (ex_calls n (Some (ex_stat (10 * n))) []) (Some (ex_stat n)) [] (Some (ex_calls (n + 5) None [], [("max_error", n)])) 60.
Definition ex_manner (c : nat) : manner :=
  match c with 2 => Never | 12 => Never | 8 => OnlyFit | _ => Always end.

Example statistics_meets :
  untouched [Run ex_pipe (ex_run 1); Call 3 (ex_stat 99)] /\
  Forall (mute_event ex_manner) [Run ex_pipe (ex_run 1); Call 3 (ex_stat 99)] /\
  proper ex_manner ex_pipe (ex_run 2) /\
  let (o, s) := execute ex_pipe (ex_run 2) (snd (history [Run ex_pipe (ex_run 1); Call 3 (ex_stat 99)] start)) in
  nth 8 (fst (see_output s o)) (One []) = One [("n", 20)] /\
  nth 2 (fst (see_output s o)) (One []) = Many [[]; []] /\
  nth 13 (fst (see_output s o)) (One []) = One [("max_error", 2); ("execution time", 60)].
Proof.
  split; [repeat constructor|]. split; [|split].
  - repeat (apply Forall_cons || apply Forall_nil); cbn; unfold mute, mute_calls, mute_opt, mute_weighed;
      repeat (split || apply Forall_cons || apply Forall_nil); cbn; auto; discriminate.
  - unfold proper, proper_calls. cbn. repeat (split || apply Forall_cons || apply Forall_nil); cbn; auto; discriminate.
  - vm_compute. repeat split.
Qed.

(** An influence model that only speaks in [remove_influence]: the second run
    reports the statistics of the first. *)
Definition ex_removal (n : nat) : run nat :=
  mkRun (ex_calls n (Some []) (ex_stat n)) None [] None 60.
Theorem statistics_stale_refuted :
  let (o, s) := history [Run ex_pipe (ex_removal 1); Run ex_pipe (ex_removal 2)] start in
  map (fun x => nth 8 (fst (see_output s x)) (One [])) o = [One [("n", 1)]; One [("n", 1)]].
Proof. vm_compute. reflexivity. Qed.
Print Assumptions statistics_stale_refuted.

Example statistics_stale_meets :
  fitted (training (ex_removal 2)) = Some [] /\
  dget "n" (snd (vhistory [Run ex_pipe (ex_removal 1)] (fun _ => [])) (influence ex_pipe)) = Some 1.
Proof. split; reflexivity. Qed.

(** Entries of the caller in the statistics of one run show up in another: in the
    statistics of a smoother, in the test statistics of runs without test data, and
    from test to training statistics of an influence model that speaks in [fit]. *)
Theorem statistics_shared_refuted :
  (let (o, s) := history [Run ex_pipe (ex_removal 1); Run ex_pipe (ex_removal 2); Enter (Start 2) "x" 7; Enter (Empty 0) "y" 8] start in
   map (fun x => (nth 2 (fst x) (One (New 0)), nth 0 (snd x) (One (New 0)))) o =
     [(Many [Start 2; Start 2], One (Empty 0)); (Many [Start 2; Start 2], One (Empty 0))] /\
   map (fun x => (nth 2 (fst (see_output s x)) (One []), nth 0 (snd (see_output s x)) (One []))) o =
     [(Many [[("x", 7)]; [("x", 7)]], One [("y", 8)]); (Many [[("x", 7)]; [("x", 7)]], One [("y", 8)])]) /\
  (let (o, s) := history [Run ex_pipe (ex_run 1)] start in
   map (fun x => nth 8 (fst x) (One (New 0))) o = map (fun x => nth 8 (snd x) (One (New 0))) o).
Proof. vm_compute. repeat split. Qed.
Print Assumptions statistics_shared_refuted.

(** A run in which everything speaks. *)
Definition ex_vocal (n : nat) (fit : option (list (dict nat))) : calls nat :=
  mkCl [(0, ex_stat n)] [ex_stat n] (Some [ex_stat n]) [Weighed (Some (ex_stat n)) None] [ex_stat n]
       [Weighed (Some (ex_stat n)) (Some (ex_stat n))] fit (ex_stat n) NoData.
Definition ex_vocal_run : run nat :=
  mkRun (ex_vocal 1 (Some (ex_stat 3))) (Some (ex_stat 1)) (ex_stat 1) (Some (ex_vocal 2 None, [])) 60.
Example statistics_new_meets :
  vocal ex_pipe (training ex_vocal_run) /\ speaks_opt Always (injected ex_vocal_run) /\
  extended ex_vocal_run <> [] /\ (exists t q, tested ex_vocal_run = Some (t, q) /\ vocal ex_pipe t) /\
  (let (o, s) := execute ex_pipe ex_vocal_run start in
   nth 0 (fst o) (One (Empty 0)) = Many [New 0] /\ nth 8 (fst (see_output s o)) (One []) = One [("n", 3)]).
Proof.
  split; [|split; [|split; [|split]]].
  - unfold vocal, proper_calls. cbn. repeat (split || apply Forall_cons || apply Forall_nil); cbn; auto; discriminate.
  - cbn. discriminate.
  - cbn. discriminate.
  - eexists _, _. split; [reflexivity|].
    unfold vocal, proper_calls. cbn. repeat (split || apply Forall_cons || apply Forall_nil); cbn; auto; discriminate.
  - vm_compute. repeat split.
Qed.
