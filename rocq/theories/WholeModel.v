(** * The pipeline with its default components: from the data as read to a polar table

    pipeline.py 166-209: FillLocalImputator, LazySmoother, LazyExpander,
    IdentityInfluenceModel, ZeroInjector(500) and TableExtension as modelled in ImputModel,
    InfluenceModel, InjectModel and ExtModel; the handler, the weighers, the filters and the
    quality assurance are arbitrary.  Statistics are left out. *)

From Coq Require Import String.
From Coq Require Import List Bool Arith ZArith QArith Reals Qreals.
From Verif Require Import Py Num Dict NhoodModel InterpModel TableModel WindModel InfluenceModel InjectModel ExtModel
  DataModel WPointsModel ImputModel PipeModel.
Import ListNotations.
Open Scope string_scope.
Open Scope list_scope.
Open Scope R_scope.

(** An entry as number of an array.  Simplified: None and values which are no numbers raise
    TypeError here, in the code when they are first used as numbers. *)
Definition real_of (c : cell) : result R :=
  match c with
  | Some (VFloat q) | Some (VNpFloat q) | Some (VDecimal q) => Ok (Q2R q)
  | Some (VInt z) => Ok (IZR z)
  | _ => Raise TypeError
  end.

(** The columns [_get_true_wind_data] reads.  models/influencemodel.py 230-245. *)
Definition used_columns (d : Data) : list string :=
  let speed := if dmem "BSP" (cols d) then "BSP" else "SOG" in
  if dmem "TWA" (cols d) && dmem "TWS" (cols d) then ["TWS"; "TWA"; speed]
  else if dmem "AWA" (cols d) && dmem "AWS" (cols d) then ["AWS"; "AWA"; speed]
  else [].
Definition used_data (d : Data) : result idata :=
  mapM (fun k => do c <- get_col d k; do l <- mapM real_of c; Ok (k, PyList l)) (used_columns d).

(** [IdentityInfluenceModel.remove_influence].  models/influencemodel.py 86-104, 230-245.
    Simplified: an angle that is nan raises. *)
Definition wind_row (r : out_row) : result (pt3 R) :=
  match r with (s, Some a, b) => Ok (s, a, b) | _ => Raise ValueError end.
Definition identity_rows (d : Data) : result (list (pt3 R)) :=
  do i <- used_data d;
  do w <- identity_remove i;
  match w with W2 rows => mapM wind_row rows | _ => Raise TypeError end.

(** The default fill functions and the default time difference, two minutes in microseconds.
    processing/imputator.py 130-137. *)
Definition default_fill_before (name : string) (right : pyval) (mu : Q) : cell := Some right.
Definition default_fill_between (name : string) (left right : pyval) (mu : Q) : cell := Some left.
Definition default_fill_after (name : string) (left : pyval) (mu : Q) : cell := Some left.
Definition default_max_diff : Z := (2 * 60 * 1000 * 1000)%Z.
Definition default_impute (d : Data) : result Data :=
  do r <- fill_local default_fill_before default_fill_between default_fill_after default_max_diff d; Ok (fst r).

(** [Ball(radius=1)] and [ArithmeticMeanInterpolator(params=(50,))].  extensions.py 82-83,
    neighbourhood.py 66-75, interpolator.py 195-214. *)
Definition default_nhood : list (R * R) -> result mask :=
  ball_contains std_norm_all (fun v => do l <- std_norm_all [v]; py_nth l 0) 1.
Definition default_interp : list (pt3 R) -> list R -> R * R -> result R :=
  amean std_norm_all 1 (default_distr [50]).

Section Whole.
  (** [W]: state of the arbitrary components; [V]: values of statistics; [Raw]: input fields;
      [U]: entries of dictionaries. *)
  Variables (W V Raw U : Type).
  Notation pd := (pdata (pt3 R) U). Notation wp := (wpoints (pt3 R) U R).

  Definition silent {X Y} (f : X -> result Y) : comp W V X Y :=
    mkC (fun x w => do y <- f x; Ok (y, w)) (fun _ => []).

  (** pipeline.py 331-334, injector.py 61-110. *)
  Definition inject_zeros (n : Z) (p : wp) : result wp :=
    do r <- zero_inject n (match wdata p with PArr rows => InjRows rows | _ => InjOther end);
    Ok (mkWP (PArr (fst (fst r))) (snd (fst r))).

  (** pipeline.py 343-345, extensions.py 90-120. *)
  Definition extend_table (p : wp) : result (table R) :=
    match wdata p with
    | PArr pts => table_process WMinMax default_nhood default_interp pts (wweights p)
    | _ => Raise TypeError
    end.

  (** [PolarPipeline()] with other handlers, weighers, filters and quality assurance.
      pipeline.py 166-209. *)
  Definition default_pipeline (h : handlers W V Raw)
      (w1 : comp W V pd (list R)) (f1 : comp W V (list R) (list bool))
      (w2 : comp W V pd (list R)) (f2 : comp W V (list R) (list bool))
      (w3 : comp W V pd (list R)) (f3 : comp W V (list R) (list bool))
      (qc : table R -> pd -> W -> result (dict V * W)) : pipeline W V Raw (pt3 R) U R (table R) :=
    mkP h (silent default_impute) (silent Ok) w1 f1 (silent Ok) w2 f2
      (silent (fun d => do rows <- identity_rows d; Ok (PArr rows))) (fun _ w => Ok (tt, w)) w3 f3
      (silent (inject_zeros 500)) (silent extend_table) qc.
End Whole.
Arguments silent {W V X Y}.
Arguments inject_zeros {U}.
Arguments extend_table {U}.
Arguments default_pipeline {W V Raw U}.
