(** * [PolarPipeline()]: all components are the default ones except the handler

    pipeline.py 166-209: [CylindricMeanWeigher()] and [QuantileFilter()] as modelled in WeigherModel
    and FilterModel, the other components as in WholeModel.  The handler and the quality assurance are
    arbitrary.  Statistics are left out. *)

From Coq Require Import String.
From Coq Require Import List Bool Arith ZArith QArith Reals Qreals.
From Verif Require Import Py Num Dict InterpModel TableModel InfluenceModel DataModel WPointsModel PipeModel WeigherModel FilterModel WholeModel.
Import ListNotations.
Open Scope string_scope.
Open Scope list_scope.
Open Scope R_scope.

(** A column as the weighers see it: floats or something else.  data.py 48-58 ([numerical] takes the
    columns of type float).  Simplified: a column of floats with gaps counts as something else. *)
Definition weigher_column (d : Data) (k : string) (col : list cell) : column :=
  match dget k (types d), mapM real_of col with
  | Some (Some TFloat), Ok l => CFloat l
  | _, _ => COther (length col)
  end.
Definition weigher_data (d : Data) : fdata := map (fun kc => (fst kc, weigher_column d (fst kc) (snd kc))) (cols d).

Section Full.
  (** [W]: state of the handler and the quality assurance; [V]: values of statistics; [Raw]: input
      fields; [U]: entries of dictionaries. *)
  Variables (W V Raw U : Type).
  Notation pd := (pdata (pt3 R) U).

  (** The state: the objects of the three weighers besides.  pipeline.py 171, 174, 177. *)
  Record fstate := mkF { others : W; weigher1 : mean_weigher; weigher2 : mean_weigher; weigher3 : mean_weigher }.

  (** What [weigh] is given. *)
  Definition as_points (x : pd) : result points :=
    match x with
    | PArr rows => Ok (PArray (map row_of rows))
    | WPointsModel.PData d => Ok (PData (weigher_data d))
    | PDict _ => Raise AttributeError
    end.

  (** [CylindricMeanWeigher.weigh].  weigher.py 271-306. *)
  Definition mean_component (get : fstate -> mean_weigher) (set : mean_weigher -> fstate -> fstate)
    : comp fstate V pd (list R) :=
    mkC (fun x s => do p <- as_points x;
                    do l <- snd (mean_weigh (get s) p);
                    Ok (l, set (fst (mean_weigh (get s) p)) s)) (fun _ => []).

  (** [QuantileFilter().filter].  filter.py 76, 86-103. *)
  Definition quantile_component : comp fstate V (list R) (list bool) :=
    silent (fun l => Ok (quantile_filter 50 (WArray l))).

  Definition handler_component (h : comp W V Raw Data) : comp fstate V Raw Data :=
    mkC (fun x s => do r <- run h x (others s); Ok (fst r, mkF (snd r) (weigher1 s) (weigher2 s) (weigher3 s)))
        (fun s => stats h (others s)).

  (** pipeline.py 166-209. *)
  Definition standard_pipeline (h : comp W V Raw Data) (qc : table R -> pd -> fstate -> result (dict V * fstate))
    : pipeline fstate V Raw (pt3 R) U R (table R) :=
    default_pipeline (HOne (handler_component h))
      (mean_component weigher1 (fun w s => mkF (others s) w (weigher2 s) (weigher3 s))) quantile_component
      (mean_component weigher2 (fun w s => mkF (others s) (weigher1 s) w (weigher3 s))) quantile_component
      (mean_component weigher3 (fun w s => mkF (others s) (weigher1 s) (weigher2 s) w)) quantile_component qc.

  (** The state of a new pipeline: [CylindricMeanWeigher()] three times.  weigher.py 252-263. *)
  Definition fresh (x : W) : result fstate :=
    do w <- mean_new (1 / 20) None None; Ok (mkF x w w w).
End Full.
Arguments mkF {W}. Arguments others {W}. Arguments weigher1 {W}. Arguments weigher2 {W}. Arguments weigher3 {W}.
Arguments as_points {U}. Arguments mean_component {W V U}. Arguments quantile_component {W V}.
Arguments handler_component {W V Raw}. Arguments standard_pipeline {W V Raw U}. Arguments fresh {W}.
