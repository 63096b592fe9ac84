(** * Model of hrosailing/processing/injector.py *)

From Coq Require Import List Bool Arith ZArith.
From Verif Require Import Py Num BaseModel.
Import ListNotations.

(** The attribute [data] of the points: something that is no array, an array that is not of
    shape (n, 3), or the rows. *)
Inductive inj_data (T : Type) := InjOther | InjShape | InjRows (rows : list (T * T * T)).
Arguments InjOther {T}.
Arguments InjShape {T}.
Arguments InjRows {T}.

Section Inject.
  Context {T : Type} `{Num T}.

  (** [ZeroInjector.inject].  injector.py 61-110.  The result: the points, their weights and
      the statistic.  The check in line 93 looks at the transposed array and never applies; no
      rows are refused by [min]. *)
  Definition zero_inject (n_zeros : Z) (data : inj_data T) : result (list (T * T * T) * list T * Z) :=
    match data with
    | InjOther => Raise TypeError
    | InjShape => Raise ValueError
    | InjRows rows =>
        do lo <- nminimum (map (fun r => fst (fst r)) rows);
        do hi <- nmaximum (map (fun r => fst (fst r)) rows);
        if Z.ltb n_zeros 0 then Raise ValueError
        else
          let n := Z.to_nat n_zeros in
          let ws := linspace lo hi n in
          Ok (map (fun w => (w, nofZ 0, nofZ 0)) ws ++ map (fun w => (w, nofZ 360, nofZ 0)) ws,
              repeat (nofZ 1) (2 * n), (2 * n_zeros)%Z)
    end.
End Inject.
