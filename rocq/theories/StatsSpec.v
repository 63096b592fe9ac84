(** * Statistics as values

    The run of StatsModel.v as it would be if every dictionary was copied whenever
    it is handed over: [now c] are the latest statistics of component [c]. *)

From Coq Require Import String List Bool Arith.
From Verif Require Import Dict StatsModel.
Import ListNotations.
Open Scope string_scope.
Open Scope list_scope.

Section Values.
  Variable V : Type.
  Definition latest_values := nat -> dict V.
  Definition put (now : latest_values) (c : nat) (d : dict V) : latest_values :=
    fun c' => if Nat.eq_dec c' c then d else now c'.

  (** The statistics after a call: the last ones set, the former ones if none are set. *)
  Definition after (former : dict V) (l : list (dict V)) : dict V := last (map kwargs l) former.
  Definition vcollect (c : nat) (l : list (dict V)) : prog latest_values (dict V) := fun now =>
    (after (now c) l, put now c (after (now c) l)).
  Definition voptional (c : nat) (l : option (list (dict V))) : prog latest_values (dict V) :=
    match l with Some l => vcollect c l | None => ret [] end.
  Definition vweigh (weigher filter : nat) (w : weighed V) : prog latest_values (dict V * dict V) :=
    match w with
    | NoData => ret ([], [])
    | Weighed ow of => a <- voptional weigher ow; b <- voptional filter of; ret (a, b)
    end.

  (** The statistics of the influence model: those after the removal, changed by
      those after fitting. *)
  Definition vremove (p : pipeline) (x : calls V) : prog latest_values (dict V) := fun now =>
    let c := influence p in
    let d := match fitted x with
             | Some l => update (after (after (now c) l) (removed x)) (after (now c) l)
             | None => after (now c) (removed x)
             end in
    (d, put now c d).

  Definition vsmoothing (p : pipeline) (x : calls V) : prog latest_values (stat (dict V)) :=
    match smoothed x with
    | Some l => r <- each (vcollect (smoother p)) l; ret (Many r)
    | None => ret (One [])
    end.

  Definition vpreprocess (p : pipeline) (x : calls V) : prog latest_values (list (stat (dict V))) :=
    h <- each (fun hc => vcollect (fst hc) (snd hc)) (handled x);
    i <- each (vcollect (imputator p)) (imputed x);
    s <- vsmoothing p x;
    we <- each (vweigh (pre_exp_weigher p) (pre_exp_filter p)) (pre_exp x);
    e <- each (vcollect (expander p)) (expanded x);
    wi <- each (vweigh (pre_inf_weigher p) (pre_inf_filter p)) (pre_inf x);
    r <- vremove p x;
    o <- vweigh (post_weigher p) (post_filter p) (post x);
    ret [Many h; Many i; s; Many (map fst we); Many (map snd we); Many e; Many (map fst wi); Many (map snd wi);
         One r; One (fst o); One (snd o); One []; One []; One []].

  Definition vtesting (p : pipeline) (x : run V) : prog latest_values (list (stat (dict V)) * dict V) :=
    match tested x with
    | Some (t, q) => l <- vpreprocess p t; ret (l, dset "execution time" (elapsed x) (kwargs q))
    | None => ret (repeat (One []) 14, [("execution time", elapsed x)])
    end.
  (** The training statistics: those of [_preprocess], except that the fifth are the
      eighth, with those of injector, extension and quality assurance. *)
  Definition vassemble (l : list (stat (dict V))) (inj ext qa : dict V) : list (stat (dict V)) :=
    firstn 4 l ++ firstn 1 (skipn 7 l) ++ firstn 6 (skipn 5 l) ++ [One inj; One ext; One qa].
  Definition vexecute (p : pipeline) (x : run V)
    : prog latest_values (list (stat (dict V)) * list (stat (dict V))) :=
    t <- vpreprocess p (training x);
    inj <- voptional (injector p) (injected x);
    ext <- vcollect (extension p) (extended x);
    q <- vtesting p x;
    ret (vassemble t inj ext (snd q), fst q).

  (** The entries that the caller makes in copies have no effect. *)
  Definition vhappen (e : event V) : prog latest_values (list (list (stat (dict V)) * list (stat (dict V)))) :=
    match e with
    | Run p x => o <- vexecute p x; ret [o]
    | Fails p x => _ <- vpreprocess p x; ret []
    | Call c l => _ <- vcollect c l; ret []
    | Enter _ _ _ => ret []
    end.
  Definition vhistory (l : list (event V)) := o <- each vhappen l; ret (concat o).

  (** Nobody enters anything into a dictionary of statistics. *)
  Definition untouched (l : list (event V)) : Prop :=
    Forall (fun e => match e with Enter _ _ _ => False | _ => True end) l.
End Values.

Arguments put {V}. Arguments after {V}. Arguments vcollect {V}. Arguments voptional {V}.
Arguments vweigh {V}. Arguments vremove {V}. Arguments vsmoothing {V}. Arguments vpreprocess {V}.
Arguments vtesting {V}. Arguments vassemble {V}. Arguments vexecute {V}. Arguments vhappen {V}. Arguments vhistory {V}.
Arguments untouched {V}.
