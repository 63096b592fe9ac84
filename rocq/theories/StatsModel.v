(** * The dictionaries of statistics as objects

    PipeModel.v treats statistics as values.  In the program they are
    dictionaries that the components keep, the pipeline changes and the caller
    receives.  Here they are objects in a store.  What the components compute is
    left open: a call of a method is given by the statistics it sets.  Only runs
    that end, and the part of other runs before they fail, are considered. *)

From Coq Require Import String List Bool Arith.
From Verif Require Import Dict.
Import ListNotations.
Open Scope string_scope.
Open Scope list_scope.

(** Programs with a state. *)
Definition prog (S X : Type) := S -> X * S.
Definition ret {S X} (x : X) : prog S X := fun s => (x, s).
Definition bind {S X Y} (m : prog S X) (k : X -> prog S Y) : prog S Y :=
  fun s => let (x, s') := m s in k x s'.
Notation "x <- m ; k" := (bind m (fun x => k)) (at level 100, m at next level, right associativity).
(** A comprehension over a program. *)
Fixpoint each {S X Y} (f : X -> prog S Y) (l : list X) : prog S (list Y) :=
  match l with
  | [] => ret []
  | x :: r => y <- f x; ys <- each f r; ret (y :: ys)
  end.

Section Stats.
  (** Values in the dictionaries. *)
  Variable V : Type.

  (** [d.update(e)], and the dictionary of keyword arguments. *)
  Definition update (d e : dict V) : dict V := fold_left (fun acc kv => dset (fst kv) (snd kv) acc) e d.
  Definition kwargs (e : dict V) : dict V := update [] e.

  (** The dictionaries of the program: those of [_EMPTY_STATISTIC] (pipeline.py
      47-49), the empty one that [ComponentWithStatistics.__init__] gives to
      component [c] (core/statistics.py 11-12), and those made later. *)
  Inductive addr := Empty (i : nat) | Start (c : nat) | New (n : nat).
  Definition addr_eq_dec : forall a b : addr, {a = b} + {a <> b}.
  Proof. decide equality; apply Nat.eq_dec. Defined.

  (** The store; [attr c] is the attribute [_statistics] of component [c]. *)
  Record store := mkSt { heap : addr -> dict V; next : nat; attr : nat -> addr }.
  Definition start : store := mkSt (fun _ => []) 0 Start.

  (** An expression that makes a dictionary. *)
  Definition alloc (d : dict V) : prog store addr := fun s =>
    (New (next s),
     mkSt (fun a => if addr_eq_dec a (New (next s)) then d else heap s a) (S (next s)) (attr s)).
  (** A change of a dictionary. *)
  Definition write (a : addr) (d : dict V) : prog store unit := fun s =>
    (tt, mkSt (fun b => if addr_eq_dec b a then d else heap s b) (next s) (attr s)).

  (** [set_statistics( **kwargs)].  core/statistics.py 14-19; the overriding
      methods end in a call of this one (processing/imputator.py 27-36,
      weigher.py 117-162, datahandler.py 46-54, injector.py 38-39, filter.py 41-56,
      pipeline/expander.py 36-37). *)
  Definition set_statistics (c : nat) (kw : dict V) : prog store unit := fun s =>
    let (a, s') := alloc (kwargs kw) s in
    (tt, mkSt (heap s') (next s') (fun c' => if Nat.eq_dec c' c then a else attr s' c')).

  (** A method of component [c] that sets the statistics [sets], in this order,
      and [_collect], with [get_latest_statistics].  core/statistics.py 21-28,
      pipeline.py 522-525. *)
  Definition sets := list (dict V).
  Definition method (c : nat) (l : sets) : prog store unit := _ <- each (set_statistics c) l; ret tt.
  Definition latest (c : nat) : prog store addr := fun s => (attr s c, s).
  Definition collect (c : nat) (l : sets) : prog store addr := _ <- method c l; latest c.

  (** What happens in [_weigh_and_filter]: no data; or the calls of the weigher and
      of the filter, [None] if switched off.  [AllOneWeigher()] is a new component
      that sets nothing.  pipeline.py 542-568. *)
  Inductive weighed := NoData | Weighed (weigher filter : option sets).
  Definition optional (c : nat) (l : option sets) : prog store addr :=
    match l with Some l => collect c l | None => alloc [] end.
  Definition weigh_and_filter (weigher filter : nat) (w : weighed) : prog store (addr * addr) :=
    match w with
    | NoData => a <- alloc []; b <- alloc []; ret (a, b)
    | Weighed ow of => a <- optional weigher ow; b <- optional filter of; ret (a, b)
    end.

  (** The components of the pipeline.  An object may have several roles. *)
  Record pipeline := mkPl {
    imputator : nat; smoother : nat; pre_exp_weigher : nat; pre_exp_filter : nat; expander : nat;
    pre_inf_weigher : nat; pre_inf_filter : nat; influence : nat; post_weigher : nat; post_filter : nat;
    injector : nat; extension : nat }.

  (** What the calls set, in a run of [_preprocess]: one entry for each data field,
      with its handler; [fitted] is [None] for test data. *)
  Record calls := mkCl {
    handled : list (nat * sets); imputed : list sets; smoothed : option (list sets);
    pre_exp : list weighed; expanded : list sets; pre_inf : list weighed;
    fitted : option sets; removed : sets; post : weighed }.

  (** A field of [Statistics]: a dictionary, or one for each data field. *)
  Inductive stat (T : Type) := One (t : T) | Many (l : list T).
  Arguments One {T}. Arguments Many {T}.

  (** [_preprocess].  pipeline.py 384-483. *)
  Definition remove_influence (p : pipeline) (x : calls) : prog store addr :=
    match fitted x with
    | Some l =>
        _ <- method (influence p) l;
        f <- latest (influence p);
        r <- collect (influence p) (removed x);
        _ <- (fun s => write r (update (heap s r) (heap s f)) s);
        ret r
    | None =>
        (* influence_statistics.update({}) *)
        collect (influence p) (removed x)
    end.

  Definition smoothing (p : pipeline) (x : calls) : prog store (stat addr) :=
    match smoothed x with
    | Some l => r <- each (collect (smoother p)) l; ret (Many r)
    | None => a <- alloc []; ret (One a)
    end.

  Definition preprocess (p : pipeline) (x : calls) : prog store (list (stat addr)) :=
    h <- each (fun hc => collect (fst hc) (snd hc)) (handled x);
    i <- each (collect (imputator p)) (imputed x);
    s <- smoothing p x;
    we <- each (weigh_and_filter (pre_exp_weigher p) (pre_exp_filter p)) (pre_exp x);
    e <- each (collect (expander p)) (expanded x);
    wi <- each (weigh_and_filter (pre_inf_weigher p) (pre_inf_filter p)) (pre_inf x);
    r <- remove_influence p x;
    o <- weigh_and_filter (post_weigher p) (post_filter p) (post x);
    x1 <- alloc []; x2 <- alloc []; x3 <- alloc [];
    ret [Many h; Many i; s; Many (map fst we); Many (map snd we); Many e; Many (map fst wi); Many (map snd wi);
         One r; One (fst o); One (snd o); One x1; One x2; One x3].

  (** The training statistics.  pipeline.py 363-378; the fifth entry is a copy of
      the eighth (see C64). *)
  Definition assemble {T} (l : list (stat T)) (inj ext qa : T) : list (stat T) :=
    match l with
    | [h; i; s; ew; _; e; iw; f; inf; pw; pf; _; _; _] =>
        [h; i; s; ew; f; e; iw; f; inf; pw; pf; One inj; One ext; One qa]
    | _ => l
    end.

  (** A run of the pipeline: the calls, and the dictionary that
      [quality_assurance.check] returns, a new one (quality_assurance.py 63-72,
      127-156); [elapsed] is the execution time. *)
  Record run := mkRun {
    training : calls; injected : option sets; extended : sets;
    tested : option (calls * dict V); elapsed : V }.

  (** [execute] after the switches have been read: the training and the test
      statistics.  pipeline.py 321-382.  The execution time is entered before
      anybody else sees the dictionary. *)
  Definition testing (p : pipeline) (x : run) : prog store (list (stat addr) * addr) :=
    match tested x with
    | Some (t, q) =>
        l <- preprocess p t; qa <- alloc (dset "execution time" (elapsed x) (kwargs q)); ret (l, qa)
    | None =>
        qa <- alloc (dset "execution time" (elapsed x) []);
        ret (map (fun i => One (Empty i)) (seq 0 14), qa)
    end.
  Definition execute (p : pipeline) (x : run) : prog store (list (stat addr) * list (stat addr)) :=
    t <- preprocess p (training x);
    inj <- optional (injector p) (injected x);
    ext <- collect (extension p) (extended x);
    q <- testing p x;
    ret (assemble t inj ext (snd q), fst q).

  (** What happens in the life of the components: runs of a pipeline, runs that
      fail after [_preprocess] (e.g. pipeline.py 326-329), calls of methods from
      elsewhere (also in runs that fail earlier), and entries that the caller makes
      in dictionaries they were given. *)
  Inductive event :=
  | Run (p : pipeline) (x : run)
  | Fails (p : pipeline) (x : calls)
  | Call (c : nat) (l : sets)
  | Enter (a : addr) (k : string) (v : V).

  Definition happen (e : event) : prog store (list (list (stat addr) * list (stat addr))) :=
    match e with
    | Run p x => o <- execute p x; ret [o]
    | Fails p x => _ <- preprocess p x; ret []
    | Call c l => _ <- method c l; ret []
    | Enter a k v => _ <- (fun s => write a (dset k v (heap s a)) s); ret []
    end.
  Definition history (l : list event) : prog store (list (list (stat addr) * list (stat addr))) :=
    o <- each happen l; ret (concat o).

  (** What the caller sees. *)
  Definition see (s : store) (x : stat addr) : stat (dict V) :=
    match x with One a => One (heap s a) | Many l => Many (map (heap s) l) end.
  Definition see_output (s : store) (o : list (stat addr) * list (stat addr)) :=
    (map (see s) (fst o), map (see s) (snd o)).
End Stats.

Arguments One {T}. Arguments Many {T}.
Arguments update {V}. Arguments kwargs {V}. Arguments mkSt {V}. Arguments heap {V}. Arguments next {V}.
Arguments attr {V}. Arguments start {V}. Arguments alloc {V}. Arguments write {V}.
Arguments set_statistics {V}. Arguments method {V}. Arguments latest {V}. Arguments collect {V}.
Arguments NoData {V}. Arguments Weighed {V}. Arguments optional {V}. Arguments weigh_and_filter {V}.
Arguments mkCl {V}. Arguments handled {V}. Arguments imputed {V}. Arguments smoothed {V}.
Arguments pre_exp {V}. Arguments expanded {V}. Arguments pre_inf {V}. Arguments fitted {V}.
Arguments removed {V}. Arguments post {V}. Arguments remove_influence {V}. Arguments smoothing {V}.
Arguments preprocess {V}. Arguments assemble {T}. Arguments mkRun {V}. Arguments training {V}.
Arguments injected {V}. Arguments extended {V}. Arguments tested {V}. Arguments elapsed {V}.
Arguments testing {V}. Arguments execute {V}. Arguments Run {V}. Arguments Fails {V}. Arguments Call {V}.
Arguments Enter {V}. Arguments happen {V}. Arguments history {V}. Arguments see {V}. Arguments see_output {V}.
