(** * Model of hrosailing/processing/regressor.py *)

From Coq Require Import List Bool Arith ZArith Reals.
From Verif Require Import Py Num ModelFunModel.
Import ListNotations.
Open Scope R_scope.

(** [_determine_params] with the wind (0, 0).  regressor.py 244-253. *)
Fixpoint determine_params (fuel : nat) (f : mfunc) (params : list R) : result (list R) :=
  match mcall f 0 0 params with
  | Ok _ => Ok params
  | Raise NonFinite => Ok params (* nan or inf is a value *)
  | Raise IndexError | Raise TypeError =>
      match fuel with
      | O => Raise OutOfFuel
      | S n => determine_params n f (params ++ [1])
      end
  | Raise e => Raise e
  end.

(** [LeastSquareRegressor.__init__]: the initial values.  regressor.py 165-191. *)
Definition lsq_init (fuel : nat) (f : mfunc) (init_vals : option (list R)) : result (list R) :=
  match init_vals with
  | Some v => Ok v
  | None => if positional f <? 3 then determine_params fuel f [] else Ok (repeat 1 (positional f))
  end.

Section Fit.
  (** The optimisation of [scipy.optimize.curve_fit] after the first evaluation. *)
  Variable solve : mfunc -> list (R * R) -> list R -> list R -> result (list R).

  (** [fit].  regressor.py 213-242: [curve_fit] first evaluates the function at the initial
      values. *)
  Definition lsq_fit (f : mfunc) (init : list R) (data : list (R * R * R)) : result (list R) :=
    let X := map (fun r => (fst (fst r), snd (fst r))) data in
    let y := map snd data in
    do _ <- mapM (fun w => mcall f (fst w) (snd w) init) X;
    solve f X y init.

  (** [ODRegressor.fit] before the optimisation.  regressor.py 110-142; [width] is the number
      of columns. *)
  Definition odr_fit (f : mfunc) (init : list R) (width : nat) (data : list (R * R * R)) : result (list R) :=
    if negb (width =? 3) then Raise ValueError
    else match data with
         | [] => Raise ValueError
         | _ =>
             let X := map (fun r => (fst (fst r), snd (fst r))) data in
             do _ <- mapM (fun w => mcall f (fst w) (snd w) init) X;
             solve f X (map snd data) init
         end.
End Fit.
