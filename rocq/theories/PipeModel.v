(** * Model of hrosailing/pipeline/pipeline.py

    The components are arbitrary: every call of a component may read and change a common state
    [W] (the attributes of all component objects) and may raise.  After an exception the state
    is dropped. *)

From Coq Require Import String.
From Coq Require Import List Bool Arith ZArith.
From Verif Require Import Py Dict DataModel WPointsModel.
Import ListNotations.
Open Scope string_scope.
Open Scope list_scope.
Open Scope nat_scope.

(** ** Keyword handling *)

(** [_set_with_default], first loop: the aliases.  pipeline.py 485-488.  [for key in
    list(dict_.keys())]: the keys before the loop. *)
Definition resolve_aliases {V} (aliases : dict string) (d : dict V) : dict V :=
  fold_left (fun acc k =>
    match dget k aliases with
    | Some full => match dget k acc with Some v => dset full v acc | None => acc end
    | None => acc
    end) (dkeys d) d.

(** [_set_with_default] and [_switch_default].  pipeline.py 485-493: the attributes that are
    set, in this order. *)
Definition set_with_default {V} (d : dict V) (keys : list string) (defaults : list V) (aliases : dict string) : dict V :=
  let d' := resolve_aliases aliases d in
  map (fun kd => (fst kd, match dget (fst kd) d' with Some v => v | None => snd kd end)) (combine keys defaults).

(** The keywords of [execute].  pipeline.py 297-314. *)
Definition enabling_keys : list string :=
  ["smoothing"; "pre_expander_weighing"; "pre_expander_filtering"; "pre_influence_weighing";
   "pre_influence_filtering"; "post_weighing"; "post_filtering"; "injecting"; "testing"].
Definition enabling_aliases : dict string :=
  [("pre_weighing", "pre_influence_weighing"); ("pre_filtering", "pre_influence_filtering");
   ("weighing", "post_weighing"); ("filtering", "post_filtering")].

(** The keywords of [__init__].  pipeline.py 184-206. *)
Definition component_keys : list string :=
  ["data_handler"; "imputator"; "smoother"; "pre_expander_weigher"; "pre_expander_filter"; "expander";
   "pre_influence_weigher"; "pre_influence_filter"; "influence_model"; "post_weigher"; "post_filter";
   "injector"; "extension"; "quality_assurance"].
Definition component_aliases : dict string :=
  [("filter", "post_filter"); ("weigher", "post_weigher"); ("pre_filter", "pre_influence_filter");
   ("pre_weigher", "pre_influence_weigher")].

(** The switches as attributes of the pipeline. *)
Record switches := mkSw {
  smoothing : bool; pre_exp_weighing : bool; pre_exp_filtering : bool; pre_inf_weighing : bool;
  pre_inf_filtering : bool; post_weighing : bool; post_filtering : bool; injecting : bool; testing : bool }.

(** pipeline.py 316-319: reading the switches; [has_test] is [test_data is not None]. *)
Definition read_switches (enabling : dict bool) (has_test : bool) : switches :=
  let s := set_with_default enabling enabling_keys (repeat true (length enabling_keys)) enabling_aliases in
  let g k := match dget k s with Some b => b | None => true end in
  mkSw (g "smoothing") (g "pre_expander_weighing") (g "pre_expander_filtering") (g "pre_influence_weighing")
       (g "pre_influence_filtering") (g "post_weighing") (g "post_filtering") (g "injecting") (g "testing" && has_test).

(** ** The run *)

Section Pipe.
  (** [W]: state of the components; [V]: values of statistics; [Raw]: input fields; [A]: rows
      of arrays; [U]: entries of dictionaries; [Wt]: weights with [wone] the weight 1;
      [Pol]: polar diagrams. *)
  Variables (W V Raw A U Wt Pol : Type) (wone : Wt).

  (** A component: its method and [get_latest_statistics]. *)
  Record comp (X Y : Type) := mkC { run : X -> W -> result (Y * W); stats : W -> dict V }.
  Arguments run {X Y} c. Arguments stats {X Y} c. Arguments mkC {X Y}.

  (** The attribute [data_handler]: a DataHandler, a list or tuple of them, or an iterator,
      whose remaining handlers are part of the state.  [isinstance(..., pc.DataHandler)] tells
      the first from the others. *)
  Inductive handlers := HOne (h : comp Raw Data) | HList (hs : list (comp Raw Data)) | HIter.

  (** The state: of the components, and the handlers the iterator has not given out yet. *)
  Record pstate := mkS { world : W; rest : list (comp Raw Data) }.

  Notation pd := (pdata A U). Notation wp := (wpoints A U Wt).

  (** The pipeline's components.  pipeline.py 166-209. *)
  Record pipeline := mkP {
    data_handler : handlers; imputator : comp Data Data; smoother : comp Data Data;
    pre_exp_weigher : comp pd (list Wt); pre_exp_filter : comp (list Wt) (list bool);
    expander : comp Data Data;
    pre_inf_weigher : comp pd (list Wt); pre_inf_filter : comp (list Wt) (list bool);
    influence : comp Data pd; influence_fit : Data -> W -> result (unit * W);
    post_weigher : comp pd (list Wt); post_filter : comp (list Wt) (list bool);
    injector : comp wp wp; extension : comp wp Pol;
    quality_check : Pol -> pd -> W -> result (dict V * W) }.

  (** A statistic: of one call, or numbered by the data fields. *)
  Inductive stat := Flat (d : dict V) | PerField (l : list (dict V)).

  (** [Statistics].  pipeline.py 20-44. *)
  Record statistics := mkSt {
    s_data_handler : stat; s_imputator : stat; s_smoother : stat; s_pre_expanding_weigher : stat;
    s_pre_expanding_filter : stat; s_expander : stat; s_pre_influence_weigher : stat;
    s_pre_influence_filter : stat; s_influence_model : stat; s_post_weigher : stat; s_post_filter : stat;
    s_injector : stat; s_extension : stat; s_quality_assurance : stat }.

  (** [_EMPTY_STATISTIC].  pipeline.py 47-49. *)
  Definition empty_statistics : statistics :=
    mkSt (Flat []) (Flat []) (Flat []) (Flat []) (Flat []) (Flat []) (Flat []) (Flat []) (Flat []) (Flat [])
         (Flat []) (Flat []) (Flat []) (Flat []).

  (** [_collect] and [_collector_fun].  pipeline.py 522-529. *)
  Definition collect {X Y} (c : comp X Y) (x : X) (w : W) : result (Y * dict V * W) :=
    do r <- run c x w; Ok (fst r, stats c (snd r), snd r).

  (** The comprehension of [_map] and of [_handle_data].  pipeline.py 509-511, 496-505. *)
  Fixpoint map_fields {X Y} (m : X -> W -> result (Y * W)) (data : list X) (w : W) : result (list Y * W) :=
    match data with
    | [] => Ok ([], w)
    | x :: r => do y <- m x w; do ys <- map_fields m r (snd y); Ok (fst y :: fst ys, snd ys)
    end.

  (** [_list_statistics] unpacks [zip( *pipe_output)], which has no first entry if there are no
      data fields: ValueError.  pipeline.py 513-519. *)
  Definition nonempty {X} (l : list X) : result (list X) := match l with [] => Raise ValueError | _ => Ok l end.

  (** [_map] with [_collector_fun].  pipeline.py 509-529. *)
  Definition map_collect {X Y} (c : comp X Y) (data : list X) (w : W) : result (list Y * stat * W) :=
    do o <- map_fields (fun x w => do r <- collect c x w; Ok (fst (fst r), snd (fst r), snd r)) data w;
    do out <- nonempty (fst o);
    Ok (map fst out, PerField (map snd out), snd o).

  (** [_handle_data].  pipeline.py 495-507.  [next] of a list raises TypeError, of an exhausted
      iterator StopIteration. *)
  Fixpoint handle_iter (data : list Raw) (s : pstate) : result (list (Data * dict V) * pstate) :=
    match data with
    | [] => Ok ([], s)
    | x :: r =>
        match rest s with
        | [] => Raise StopIteration
        | h :: hs =>
            do y <- collect h x (world s);
            do ys <- handle_iter r (mkS (snd y) hs);
            Ok (fst y :: fst ys, snd ys)
        end
    end.

  Definition handle_data (p : pipeline) (data : list Raw) (s : pstate) : result (list Data * stat * pstate) :=
    match data_handler p with
    | HOne h =>
        do r <- map_collect h data (world s);
        Ok (fst (fst r), snd (fst r), mkS (snd r) (rest s))
    | HList _ => match data with [] => Raise ValueError | _ => Raise TypeError end
    | HIter =>
        do o <- handle_iter data s;
        do out <- nonempty (fst o);
        Ok (map fst out, PerField (map snd out), snd o)
    end.

  (** [_is_empty_data].  pipeline.py 532-539. *)
  Definition is_empty_data (d : pd) : bool :=
    match d with
    | PData d => (n_rows d =? 0)%Z
    | PArr rows => length rows =? 0
    | PDict _ => false
    end.

  (** [AllOneWeigher.weigh].  processing/weigher.py 201-213. *)
  Definition all_one (d : pd) : result (list Wt) :=
    match d with
    | PArr rows => Ok (repeat wone (length rows))
    | PData d => Ok (repeat wone (Z.to_nat (n_rows d)))
    | PDict _ => Raise AttributeError
    end.

  (** [_weigh_and_filter] and [_filter_data].  pipeline.py 542-568. *)
  Definition weigh_and_filter (weigher : comp pd (list Wt)) (filter_ : comp (list Wt) (list bool))
      (weighing filtering : bool) (data : pd) (w : W) : result (wp * dict V * dict V * W) :=
    if is_empty_data data then Ok (mkWP data [], [], [], w)
    else
      do ws <- (if weighing then collect weigher data w else do l <- all_one data; Ok (l, [], w));
      let '(weights, wstat, w1) := ws in
      do weighed <- wp_new data (WList weights);
      if filtering then
        do m <- collect filter_ (wweights weighed) w1;
        let '(mask, fstat, w2) := m in
        do out <- wp_mask weighed mask;
        Ok (out, wstat, fstat, w2)
      else Ok (weighed, wstat, [], w1).

  (** [_map] of [_weigh_and_filter].  pipeline.py 399-412, 421-434, 542-561. *)
  Definition map_weigh (weigher : comp pd (list Wt)) (filter_ : comp (list Wt) (list bool))
      (weighing filtering : bool) (data : list Data) (w : W) : result (list wp * stat * stat * W) :=
    do o <- map_fields (fun x w => do r <- weigh_and_filter weigher filter_ weighing filtering (PData x) w;
                                   let '(out, ws, fs, w') := r in Ok (out, ws, fs, w')) data w;
    do out <- nonempty (fst o);
    Ok (map (fun t => fst (fst t)) out, PerField (map (fun t => snd (fst t)) out), PerField (map snd out), snd o).

  (** [weighted_point.data] of weighted [Data]. *)
  Definition the_data (p : wp) : result Data :=
    match wdata p with PData d => Ok d | _ => Raise TypeError end.

  (** [dict.update]. *)
  Definition dupdate (d e : dict V) : dict V := fold_left (fun acc kv => dset (fst kv) (snd kv) acc) e d.

  (** [_preprocess].  pipeline.py 384-483.  Simplified: [influence_statistics.update] also
      changes the dictionary inside the influence model, which matters only if that model does
      not set its statistics at its next call (see StatsModel.v); [influence_fit_statistics] are the statistics of
      the influence model after fitting. *)
  Definition preprocess (p : pipeline) (sw : switches) (data : list Raw) (fitting : bool) (s : pstate)
    : result (wp * statistics * pstate) :=
    do h <- handle_data p data s;
    let '(d0, s_h, s1) := h in
    let r1 := rest s1 in
    do i <- map_collect (imputator p) d0 (world s1);
    let '(d1, s_i, w) := i in
    do sm <- (if smoothing sw then map_collect (smoother p) d1 w else Ok (d1, Flat [], w));
    let '(d2, s_s, w) := sm in
    do pe <- map_weigh (pre_exp_weigher p) (pre_exp_filter p) (pre_exp_weighing sw) (pre_exp_filtering sw) d2 w;
    let '(d3, s_ew, s_ef, w) := pe in
    do d3 <- mapM the_data d3;
    do ex <- map_collect (expander p) d3 w;
    let '(d4, s_e, w) := ex in
    do pi <- map_weigh (pre_inf_weigher p) (pre_inf_filter p) (pre_inf_weighing sw) (pre_inf_filtering sw) d4 w;
    let '(d5, s_pw, s_pf, w) := pi in
    do d5 <- mapM the_data d5;
    do joined <- concatenate d5;
    do f <- (if fitting then do r <- influence_fit p joined w; Ok (stats (influence p) (snd r), snd r) else Ok ([], w));
    let '(fit_stats, w) := f in
    do rem <- collect (influence p) joined w;
    let '(d6, s_inf, w) := rem in
    do po <- weigh_and_filter (post_weigher p) (post_filter p) (post_weighing sw) (post_filtering sw) d6 w;
    let '(out, s_ow, s_of, w) := po in
    Ok (out, mkSt s_h s_i s_s s_ew s_ef s_e s_pw s_pf (Flat (dupdate s_inf fit_stats)) (Flat s_ow) (Flat s_of)
                  (Flat []) (Flat []) (Flat []), mkS w r1).

  (** [PipelineOutput].  pipeline.py 52-69. *)
  Record output := mkO { diagram : Pol; training_statistics : statistics; test_statistics : statistics }.

  (** [execute] after the switches have been read.  pipeline.py 321-382.  [elapsed] is the
      execution time; the empty points of 336-339 are added by [extend], which leaves an array
      as it is. *)
  Definition execute (p : pipeline) (sw : switches) (training : list Raw) (test : list Raw) (elapsed : V) (s : pstate)
    : result (output * pstate) :=
    do pr <- preprocess p sw training true s;
    let '(pts, st, s1) := pr in
    if is_empty_data (wdata pts) then Raise RuntimeError
    else
      do inj <- (if injecting sw then collect (injector p) pts (world s1) else Ok (mkWP (PArr []) [], [], world s1));
      let '(new, s_inj, w) := inj in
      do pts <- wp_extend pts new;
      do ext <- collect (extension p) pts w;
      let '(pol, s_ext, w) := ext in
      do q <- (if testing sw then
                 do t <- preprocess p sw test false (mkS w (rest s1));
                 let '(tpts, tst, s2) := t in
                 do qa <- quality_check p pol (wdata tpts) (world s2);
                 Ok (tst, fst qa, mkS (snd qa) (rest s2))
               else Ok (empty_statistics, [], mkS w (rest s1)));
      let '(tst, qst, s3) := q in
      Ok (mkO pol
            (mkSt (s_data_handler st) (s_imputator st) (s_smoother st) (s_pre_expanding_weigher st)
                  (s_pre_influence_filter st) (s_expander st) (s_pre_influence_weigher st)
                  (s_pre_influence_filter st) (s_influence_model st) (s_post_weigher st) (s_post_filter st)
                  (Flat s_inj) (Flat s_ext) (Flat (dset "execution time" elapsed qst)))
            tst, s3).
End Pipe.

Arguments run {W V X Y} c. Arguments stats {W V X Y} c. Arguments mkC {W V X Y}.
Arguments HOne {W V Raw}. Arguments HList {W V Raw}. Arguments HIter {W V Raw}.
Arguments mkS {W V Raw}. Arguments world {W V Raw}. Arguments rest {W V Raw}.
Arguments mkP {W V Raw A U Wt Pol}.
Arguments data_handler {W V Raw A U Wt Pol}. Arguments imputator {W V Raw A U Wt Pol}.
Arguments smoother {W V Raw A U Wt Pol}. Arguments pre_exp_weigher {W V Raw A U Wt Pol}.
Arguments pre_exp_filter {W V Raw A U Wt Pol}. Arguments expander {W V Raw A U Wt Pol}.
Arguments pre_inf_weigher {W V Raw A U Wt Pol}. Arguments pre_inf_filter {W V Raw A U Wt Pol}.
Arguments influence {W V Raw A U Wt Pol}. Arguments influence_fit {W V Raw A U Wt Pol}.
Arguments post_weigher {W V Raw A U Wt Pol}. Arguments post_filter {W V Raw A U Wt Pol}.
Arguments injector {W V Raw A U Wt Pol}. Arguments extension {W V Raw A U Wt Pol}.
Arguments quality_check {W V Raw A U Wt Pol}.
Arguments Flat {V}. Arguments PerField {V}. Arguments mkSt {V}.
Arguments s_data_handler {V}. Arguments s_imputator {V}. Arguments s_smoother {V}.
Arguments s_pre_expanding_weigher {V}. Arguments s_pre_expanding_filter {V}. Arguments s_expander {V}.
Arguments s_pre_influence_weigher {V}. Arguments s_pre_influence_filter {V}. Arguments s_influence_model {V}.
Arguments s_post_weigher {V}. Arguments s_post_filter {V}. Arguments s_injector {V}.
Arguments s_extension {V}. Arguments s_quality_assurance {V}. Arguments empty_statistics {V}.
Arguments mkO {V Pol}. Arguments diagram {V Pol}. Arguments training_statistics {V Pol}. Arguments test_statistics {V Pol}.
Arguments collect {W V X Y}. Arguments map_fields {W X Y}. Arguments map_collect {W V X Y}.
Arguments handle_iter {W V Raw}. Arguments handle_data {W V Raw A U Wt Pol}.
Arguments is_empty_data {A U}. Arguments all_one {A U Wt}. Arguments weigh_and_filter {W V A U Wt}.
Arguments map_weigh {W V A U Wt}. Arguments the_data {A U Wt}. Arguments dupdate {V}.
Arguments preprocess {W V Raw A U Wt Pol}. Arguments execute {W V Raw A U Wt Pol}.
