(** * What a run of the pipeline should do, as a relation between inputs and outputs *)

From Coq Require Import String.
From Coq Require Import List Bool Arith ZArith.
From Verif Require Import Py Dict DataModel WPointsModel PipeModel.
Import ListNotations.
Open Scope string_scope.
Open Scope list_scope.
Open Scope nat_scope.

Section Spec.
  Context {W V Raw A U Wt Pol : Type}.
  Variable wone : Wt.

  (** One call of a component with the statistics it reports afterwards. *)
  Inductive call {X Y} (c : comp W V X Y) (x : X) (w : W) : Y -> dict V -> W -> Prop :=
  | Called : forall y w', run c x w = Ok (y, w') -> call c x w y (stats c w') w'.

  (** The component is called once per data field, in order. *)
  Inductive each {X Y} (c : comp W V X Y) : list X -> W -> list Y -> list (dict V) -> W -> Prop :=
  | EachNil : forall w, each c [] w [] [] w
  | EachCons : forall x xs w y st w1 ys sts w2,
      call c x w y st w1 -> each c xs w1 ys sts w2 -> each c (x :: xs) w (y :: ys) (st :: sts) w2.

  (** The i-th field is read by the i-th handler. *)
  Inductive each_own : list (comp W V Raw Data) -> list Raw -> W -> list Data -> list (dict V) -> W -> Prop :=
  | OwnNil : forall w, each_own [] [] w [] [] w
  | OwnCons : forall h hs x xs w y st w1 ys sts w2,
      call h x w y st w1 -> each_own hs xs w1 ys sts w2 -> each_own (h :: hs) (x :: xs) w (y :: ys) (st :: sts) w2.

  (** Number of data points. *)
  Definition points (d : pdata A U) : nat :=
    match d with PArr rows => length rows | PData d => Z.to_nat (n_rows d) | PDict _ => 0 end.
  Definition no_points (d : pdata A U) : Prop :=
    match d with PArr rows => rows = [] | PData d => n_rows d = 0%Z | PDict _ => False end.

  (** Weighing: with the weigher, or the weight 1 for every point. *)
  Inductive weighed (on : bool) (c : comp W V (pdata A U) (list Wt)) (d : pdata A U) (w : W) : list Wt -> dict V -> W -> Prop :=
  | WOn : forall l st w', on = true -> call c d w l st w' -> weighed on c d w l st w'
  | WOff : on = false -> weighed on c d w (repeat wone (points d)) [] w.

  (** Filtering: with the filter's mask, or nothing at all. *)
  Inductive filtered (on : bool) (c : comp W V (list Wt) (list bool)) (p : wpoints A U Wt) (w : W) : wpoints A U Wt -> dict V -> W -> Prop :=
  | FOn : forall m st w' q, on = true -> call c (wweights p) w m st w' -> wp_mask p m = Ok q -> filtered on c p w q st w'
  | FOff : on = false -> filtered on c p w p [] w.

  (** A weighing and filtering stage; without points there is nothing to do. *)
  Inductive stage (won fon : bool) (cw : comp W V (pdata A U) (list Wt)) (cf : comp W V (list Wt) (list bool))
      (d : pdata A U) (w : W) : wpoints A U Wt -> dict V -> dict V -> W -> Prop :=
  | StEmpty : no_points d -> stage won fon cw cf d w (mkWP d []) [] [] w
  | StPoints : forall l ws w1 q fs w2, ~ no_points d ->
      weighed won cw d w l ws w1 -> filtered fon cf (mkWP d l) w1 q fs w2 ->
      stage won fon cw cf d w q ws fs w2.

  (** The stage for every data field; the weights are forgotten. *)
  Inductive stages (won fon : bool) (cw : comp W V (pdata A U) (list Wt)) (cf : comp W V (list Wt) (list bool))
    : list Data -> W -> list Data -> list (dict V) -> list (dict V) -> W -> Prop :=
  | StsNil : forall w, stages won fon cw cf [] w [] [] [] w
  | StsCons : forall d ds w d' q ws fs w1 ds' wss fss w2,
      stage won fon cw cf (PData d) w (mkWP (PData d') q) ws fs w1 ->
      stages won fon cw cf ds w1 ds' wss fss w2 ->
      stages won fon cw cf (d :: ds) w (d' :: ds') (ws :: wss) (fs :: fss) w2.

  (** Reading the fields. *)
  Inductive handled (p : pipeline W V Raw A U Wt Pol) (fields : list Raw) (s : pstate W V Raw)
    : list Data -> list (dict V) -> pstate W V Raw -> Prop :=
  | HandledOne : forall h ds sts w', data_handler p = HOne h -> each h fields (world s) ds sts w' ->
      handled p fields s ds sts (mkS w' (rest s))
  | HandledIter : forall used left ds sts w', data_handler p = HIter -> rest s = used ++ left ->
      each_own used fields (world s) ds sts w' -> handled p fields s ds sts (mkS w' left).

  (** The statistics of the influence model: those of the call, overwritten by those of the fit. *)
  Definition merged (st fit res : dict V) : Prop :=
    forall k, dget k res = match dget k fit with Some v => Some v | None => dget k st end.

  (** The preprocessing in the documented order. *)
  Inductive preprocessed (p : pipeline W V Raw A U Wt Pol) (sw : switches) (fields : list Raw) (fitting : bool)
      (s : pstate W V Raw) : wpoints A U Wt -> statistics V -> pstate W V Raw -> Prop :=
  | Pre : forall d0 t0 s1 d1 t1 w1 d2 t2 w2 d3 t3 u3 w3 d4 t4 w4 d5 t5 u5 w5 joined tf w6 d6 t6 t6' w7 out t7 u7 w8,
      handled p fields s d0 t0 s1 ->
      each (imputator p) d0 (world s1) d1 t1 w1 ->
      (if smoothing sw then exists l, each (smoother p) d1 w1 d2 l w2 /\ t2 = PerField l
       else d2 = d1 /\ t2 = Flat [] /\ w2 = w1) ->
      stages (pre_exp_weighing sw) (pre_exp_filtering sw) (pre_exp_weigher p) (pre_exp_filter p) d2 w2 d3 t3 u3 w3 ->
      each (expander p) d3 w3 d4 t4 w4 ->
      stages (pre_inf_weighing sw) (pre_inf_filtering sw) (pre_inf_weigher p) (pre_inf_filter p) d4 w4 d5 t5 u5 w5 ->
      concatenate d5 = Ok joined ->
      (if fitting then exists r, influence_fit p joined w5 = Ok (r, w6) /\ tf = stats (influence p) w6
       else tf = [] /\ w6 = w5) ->
      call (influence p) joined w6 d6 t6 w7 -> merged t6 tf t6' ->
      stage (post_weighing sw) (post_filtering sw) (post_weigher p) (post_filter p) d6 w7 out t7 u7 w8 ->
      preprocessed p sw fields fitting s out
        (mkSt (PerField t0) (PerField t1) t2 (PerField t3) (PerField u3) (PerField t4) (PerField t5) (PerField u5)
              (Flat t6') (Flat t7) (Flat u7) (Flat []) (Flat []) (Flat [])) (mkS w8 (rest s1)).

  (** A whole run with the diagram, the training statistics as they should be, and the test
      statistics. *)
  Inductive executed (p : pipeline W V Raw A U Wt Pol) (sw : switches) (training test : list Raw) (elapsed : V)
      (s : pstate W V Raw) : Pol -> statistics V -> statistics V -> pstate W V Raw -> Prop :=
  | Exec : forall pts st s1 all ti w1 pol te w2 tst tq s2,
      preprocessed p sw training true s pts st s1 ->
      ~ no_points (wdata pts) ->
      (if injecting sw then exists new, call (injector p) pts (world s1) new ti w1 /\ wp_extend pts new = Ok all
       else all = pts /\ ti = [] /\ w1 = world s1) ->
      call (extension p) all w1 pol te w2 ->
      (if testing sw then exists tpts s3 w4, preprocessed p sw test false (mkS w2 (rest s1)) tpts tst s3 /\
         quality_check p pol (wdata tpts) (world s3) = Ok (tq, w4) /\ s2 = mkS w4 (rest s3)
       else tst = empty_statistics /\ tq = [] /\ s2 = mkS w2 (rest s1)) ->
      executed p sw training test elapsed s pol
        (mkSt (s_data_handler st) (s_imputator st) (s_smoother st) (s_pre_expanding_weigher st)
              (s_pre_expanding_filter st) (s_expander st) (s_pre_influence_weigher st) (s_pre_influence_filter st)
              (s_influence_model st) (s_post_weigher st) (s_post_filter st) (Flat ti) (Flat te)
              (Flat (dset "execution time" elapsed tq)))
        tst s2.
End Spec.
