(** * Model of hrosailing/polardiagram/_polardiagramcurve.py *)

From Coq Require Import String.
From Coq Require Import List Bool Arith ZArith Reals.
From Verif Require Import Py Num WPointsModel InterpModel BaseModel CsvModel.
Import ListNotations.
Open Scope string_scope.
Open Scope list_scope.

(** A function [f(ws, wa, *params)] with its [__name__]; it is called on one wind
    at a time. *)
Record pyfun := mkFun { f_name : string; f_call : R -> R -> list R -> result R }.

(** A curve: [_f], [_params], [_rad].  _polardiagramcurve.py 57-68. *)
Record curve := mkCurve { c_fun : pyfun; c_params : list R; c_rad : bool }.

(** [_check_enough_params].  _polardiagramcurve.py 116-122. *)
Definition check_enough_params (f : pyfun) (params : list R) : result bool :=
  match f_call f 1%R 1%R params with
  | Ok _ => Ok true
  | Raise IndexError | Raise TypeError => Ok false
  | Raise e => Raise e
  end.

(** [__init__] for a callable [f].  _polardiagramcurve.py 57-68. *)
Definition curve_new (f : pyfun) (params : list R) (radians : bool) : result curve :=
  do ok <- check_enough_params f params;
  if ok then Ok (mkCurve f params radians) else Raise ValueError.

Definition rad2deg (x : R) : R := (x * 180 / PI)%R.
Definition deg2rad (x : R) : R := (x * PI / 180)%R.

(** [__call__] on one wind.  _polardiagramcurve.py 130-145. *)
Definition curve_call (c : curve) (ws wa : R) : result R :=
  if nltb ws (nofZ 0) then Raise ValueError
  else
    let wa := if c_rad c then deg2rad (nmod (rad2deg wa) (nofZ 360)) else nmod wa (nofZ 360) in
    f_call (c_fun c) ws wa (c_params c).

(** [ws_to_slices].  _polardiagramcurve.py 103-114; [self(ws_, wa_ls)] is
    evaluated angle by angle. *)
Definition curve_slices (c : curve) (wa_resolution : nat) (ws : list R) : result (list (list (pt3 R))) :=
  mapM (fun s => mapM (fun a => do b <- curve_call c s a; Ok (s, a, b))
                      (linspace (nofZ 0) (nofZ 360) wa_resolution)) ws.

(** [sym_func] of [symmetrize].  _polardiagramcurve.py 209-212. *)
Definition sym_fun (f : pyfun) : pyfun :=
  mkFun "sym_func" (fun ws wa params =>
    do y <- f_call f ws wa params;
    do y_symm <- f_call f ws (360 - wa)%R params;
    Ok (1 / 2 * (y + y_symm))%R).

(** [symmetrize].  _polardiagramcurve.py 204-216. *)
Definition curve_symmetrize (c : curve) : result curve :=
  curve_new (sym_fun (c_fun c)) (c_params c) (c_rad c).

Section Csv.
  Variable show : R -> string.
  Variable lit : string -> result R.
  (** [MODEL_FUNCTIONS]. *)
  Variable functions : string -> option pyfun.

  (** [to_csv].  _polardiagramcurve.py 165-189. *)
  Definition curve_to_csv (c : curve) : list (list string) :=
    [["PolarDiagramCurve"]; ["Function"; f_name (c_fun c)];
     ["Radians"; if c_rad c then "True" else "False"];
     "Parameters" :: map show (c_params c)].

  (** [literal_eval] of the radians entry; other values are rejected here. *)
  Definition lit_bool (s : string) : result bool :=
    if String.eqb s "True" then Ok true
    else if String.eqb s "False" then Ok false else Raise ValueError.

  (** [__from_csv__], called with the rows after the first one.
      _polardiagramcurve.py 191-202. *)
  Definition curve_from_csv (rows : list (list string)) : result curve :=
    do (r, rows) <- next_row rows;
    match r with
    | _ :: name :: _ =>
        do (r, rows) <- next_row rows;
        match r with
        | _ :: b :: _ =>
            do rad <- lit_bool b;
            do (r, rows) <- next_row rows;
            do params <- mapM lit (tl r);
            match functions name with
            | None => Raise RuntimeError
            | Some f => curve_new f params rad
            end
        | _ => Raise IndexError
        end
    | _ => Raise IndexError
    end.
End Csv.
