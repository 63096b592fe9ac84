(** * Model of /repo/hrosailing/pipeline/quality_assurance.py *)

From Coq Require Import List Bool Arith ZArith.
From Verif Require Import Py Num WPointsModel InterpModel TableModel CloudModel BaseModel ExtModel.
Import ListNotations.
Open Scope list_scope.

Section QA.
  Context {T : Type} `{Num T}.
  (** The polar diagram as a function; a call may raise. *)
  Variable diagram : T -> T -> result T.

  (** [np.mean(l)]; of an empty list numpy delivers nan (no exception). *)
  Definition np_mean (l : list T) : result T :=
    np_div (nsum l) (nofZ (Z.of_nat (length l))).

  (** [abs(bsp - polar_diagram(ws, wa))] for all test points
      (quality_assurance.py:65 and 107). *)
  Definition differences (test_data : list (pt3 T)) : result (list T) :=
    mapM (fun p => do v <- diagram (pws p) (pwa p); Ok (nabs (pbs p - v)%num)) test_data.

  (** The figures of quality_assurance.py:66-71. *)
  Record minimal_figures := mkMin {
    max_error : T; min_error : T; average_error : T; average_quadratic_error : T
  }.

  Definition square (x : T) : T := (x * x)%num.

  (** quality_assurance.py:49-72 [MinimalQualityAssurance.check]. *)
  Definition minimal_check (test_data : list (pt3 T)) : result minimal_figures :=
    do diffs <- differences test_data;
    do hi <- nmaximum diffs;
    do lo <- nminimum diffs;
    do av <- np_mean diffs;
    do sq <- np_mean (map square diffs);
    Ok (mkMin hi lo av sq).

  (** core/computing.py:190-207 [safe_operation]; nan passes through. *)
  Definition safe_operation {A B} (op : A -> result B) (v : A) : result (option B) :=
    match op v with
    | Ok x => Ok (Some x)
    | Raise ValueError | Raise TypeError | Raise IndexError | Raise KeyError | Raise ZeroDivisionError => Ok None
    | Raise e => Raise e
    end.

  (** [abs(polar_diagram(ws, wa))] for 20 wind speeds and the angles 0 and 360
      (quality_assurance.py:108-112). *)
  Definition zero_values : result (list T) :=
    mapM (fun sa => do v <- diagram (fst sa) (snd sa); Ok (nabs v))
      (flat_map (fun ws => map (fun wa => (ws, wa)) [nofZ 0; nofZ 360]) (linspace (nofZ 0) (nofZ 20) 20)).

  (** An entry of [tested_tuples]: smallest ([None] = inf) and largest boat
      speed seen at a rounded wind (quality_assurance.py:113-119). *)
  Definition seen := ((Z * Z) * (option T * T))%type.

  Definition same_wind (a b : Z * Z) : bool := (fst a =? fst b)%Z && (snd a =? snd b)%Z.

  (** [min(bsp, prev_min)]: the first of equal ones. *)
  Definition min_seen (bsp : T) (prev : option T) : T :=
    match prev with None => bsp | Some m => if nltb m bsp then m else bsp end.

  (** One step of the loop of quality_assurance.py:114-119. *)
  Fixpoint note (key : Z * Z) (bsp : T) (l : list seen) : list seen :=
    match l with
    | [] => [(key, (Some (min_seen bsp None), nmax bsp (nofZ 0)))]
    | (k, (lo, hi)) :: r =>
        if same_wind k key then (k, (Some (min_seen bsp lo), nmax bsp hi)) :: r
        else (k, (lo, hi)) :: note key bsp r
    end.

  Definition tested_tuples (test_data : list (pt3 T)) : list seen :=
    fold_left (fun l p => note (py_round (pws p), py_round (pwa p)) (pbs p) l) test_data [].

  (** [bsp_max - bsp_min] (quality_assurance.py:137-140); the smallest is never
      inf since every entry has seen a point. *)
  Definition spread (s : seen) : T :=
    match snd s with (Some lo, hi) => (hi - lo)%num | (None, hi) => hi end.

  (** The figures of quality_assurance.py:121-142. *)
  Record conforming_figures := mkConf {
    c_max_error : option T; c_min_error : option T; c_average_error : option T;
    c_average_quadratic_error : option T;
    max_zero_val : option T; min_zero_val : option T; average_zero_val : option T;
    average_quadratic_zero_val : option T;
    test_covering : nat; average_local_test_data_difference : option T
  }.

  (** quality_assurance.py:85-143 [ComformingQualityAssurance.check]. *)
  Definition conforming_check (test_data : list (pt3 T)) : result conforming_figures :=
    do diffs <- differences test_data;
    do zeros <- zero_values;
    let tuples := tested_tuples test_data in
    do a <- safe_operation nmaximum diffs;
    do b <- safe_operation nminimum diffs;
    do c <- safe_operation np_mean diffs;
    do d <- safe_operation np_mean (map square diffs);
    do e <- safe_operation nmaximum zeros;
    do f <- safe_operation nminimum zeros;
    do g <- safe_operation np_mean zeros;
    do h <- safe_operation np_mean (map square zeros);
    do i <- safe_operation np_mean (map spread tuples);
    Ok (mkConf a b c d e f g h (length tuples) i).
End QA.
Arguments minimal_figures : clear implicits.
Arguments conforming_figures : clear implicits.
Arguments seen : clear implicits.
