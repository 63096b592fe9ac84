(** * Model of hrosailing/core/modelfunctions

    One wind at a time, over the reals.  A missing parameter raises IndexError, a division
    by zero gives nan or inf ([NonFinite]). *)

From Coq Require Import List Bool Arith ZArith Reals.
From Verif Require Import Py Num.
Import ListNotations.
Open Scope R_scope.

(** A model function: the number of positional parameters, [ws] and [wa] included, whether it
    takes [*params], and the values. *)
Record mfunc := mkMF { positional : nat; variadic : bool; body : R -> R -> list R -> result R }.

(** The call [f(ws, wa, *params)]. *)
Definition mcall (f : mfunc) (ws wa : R) (params : list R) : result R :=
  let given := (2 + length params)%nat in
  if given <? positional f then Raise TypeError
  else if (positional f <? given) && negb (variadic f) then Raise TypeError
  else body f ws wa params.

(** [polynomial_function].  _models2d.py 6-15. *)
Definition polynomial_function (x : R) (params : list R) (deg : nat) : result R :=
  do ts <- mapM (fun i => do p <- py_nth params i; Ok (p * x ^ i)) (seq 0 (deg + 1));
  Ok (nsum ts).

(** [inverted_shifted_parabola].  _models2d.py 26-37. *)
Definition inverted_shifted_parabola (x : R) (params : list R) : result R :=
  do a0 <- py_nth params 0; do a2 <- py_nth params 2; do a1 <- py_nth params 1;
  Ok (a0 * x + a2 * ((x - a1) * (x - a1))).

(** [concave_function].  _models2d.py 40-80. *)
Definition concave_function (x : R) (params : list R) (downturn sat_limit : bool) : result R :=
  if sat_limit && downturn then
    do a2 <- py_nth params 2; do a0 <- py_nth params 0; do a1 <- py_nth params 1; do a3 <- py_nth params 3;
    Ok (a2 - a0 * exp (a1 - x) - a3 * (x * x))
  else if sat_limit then
    do a2 <- py_nth params 2; do a0 <- py_nth params 0; do a1 <- py_nth params 1;
    Ok (a2 - a0 * exp (a1 - x))
  else if downturn then
    do a0 <- py_nth params 0; do a1 <- py_nth params 1; do a2 <- py_nth params 2;
    polynomial_function x [a0; a1; - a2] 2
  else Raise ValueError.

(** [s_shaped].  _models2d.py 83-105. *)
Definition s_shaped (x : R) (params : list R) (downturn : bool) : result R :=
  do a2 <- py_nth params 2; do a0 <- py_nth params 0; do a1 <- py_nth params 1;
  let val := a2 / (1 + exp (a0 - a1 * x)) in
  if downturn then do a3 <- py_nth params 3; Ok (val - a3 * (x * x)) else Ok val.

(** [gaussian_model].  _models2d.py 115-136. *)
Definition gaussian_model (x : R) (params : list R) (offset : bool) : result R :=
  do a0 <- py_nth params 0; do a1 <- py_nth params 1; do a2 <- py_nth params 2;
  do q <- np_div (- (1 / 2) * ((x - a1) * (x - a1))) a2;
  let val := a0 * exp q in
  if offset then do a3 <- py_nth params 3; Ok (val + a3) else Ok val.

(** [inverted_parabola].  _models2d.py 18-23. *)
Definition inverted_parabola (x : R) (params : list R) : result R :=
  do a1 <- py_nth params 1; do a2 <- py_nth params 2; do a0 <- py_nth params 0;
  Ok (a1 + a2 * ((x - a0) * (x - a0))).

(** [gmm_model].  _models2d.py 139-144. *)
Definition gmm_model (x : R) (params : list R) : result R :=
  do g1 <- gaussian_model x params false;
  do g2 <- gaussian_model x (skipn 3 params) false;
  do a6 <- py_nth params 6;
  Ok (g1 + g2 + a6).

(** [np.power(b, x)] for floats: a negative base needs a whole exponent. *)
Definition np_power (b x : R) : result R :=
  if Rltb 0 b then Ok (exp (x * ln b))
  else if Reqb b 0 then (if Rltb 0 x then Ok 0 else if Reqb x 0 then Ok 1 else Raise NonFinite)
  else if Reqb x (IZR (Int_part x))
       then Ok ((if Z.even (Int_part x) then 1 else -1) * exp (x * ln (- b)))
       else Raise NonFinite.

(** [gompertz_model].  _models2d.py 108-112. *)
Definition gompertz_model (x : R) (params : list R) (neg : bool) : result R :=
  do a2 <- py_nth params 2; do a0 <- py_nth params 0; do a1 <- py_nth params 1;
  do q <- np_power (if neg then - a1 else a1) x;
  Ok (a2 * exp (- a0 * q)).

(** [ws_times_wa].  modelfunctions/__init__.py 16-33. *)
Definition times (ws wa scal : R) : R := scal * ws * wa.
Definition ws_times_wa : mfunc :=
  mkMF 3 false (fun ws wa params => do s <- py_nth params 0; Ok (times ws wa s)).

(** [params[i], ..., params[i+n-1]]. *)
Definition pars (params : list R) (i n : nat) : result (list R) := mapM (py_nth params) (seq i n).

(** [ws_concave_dt_wa].  modelfunctions/__init__.py 36-55. *)
Definition ws_concave_dt_wa : mfunc :=
  mkMF 2 true (fun ws wa params =>
    do p <- pars params 0 3; do a <- concave_function ws p true false;
    do p <- pars params 3 3; do b <- inverted_shifted_parabola wa p;
    do s <- py_nth params 6;
    do p <- pars params 7 3; do c <- inverted_shifted_parabola (360 - wa) p;
    do s' <- py_nth params 10;
    Ok (a + b + times ws wa s + c + times ws (360 - wa) s')).

(** [ws_wa_s_dt].  modelfunctions/__init__.py 58-79. *)
Definition ws_wa_s_dt : mfunc :=
  mkMF 2 true (fun ws wa params =>
    do p <- pars params 0 4; do a <- s_shaped ws p true;
    do p <- pars params 4 4; do b <- s_shaped wa p true;
    do s <- py_nth params 8;
    do p <- pars params 9 4; do c <- s_shaped (360 - wa) p true;
    do s' <- py_nth params 13;
    Ok (a + b + times ws wa s + c + times ws (360 - wa) s')).

(** [ws_s_dt_wa_gauss].  modelfunctions/__init__.py 82-101. *)
Definition ws_s_dt_wa_gauss : mfunc :=
  mkMF 2 true (fun ws wa params =>
    do p <- pars params 0 4; do a <- s_shaped ws p true;
    do p <- pars params 4 3; do b <- gaussian_model wa p false;
    do p <- pars params 7 3; do c <- gaussian_model (360 - wa) p false;
    Ok (a + b + c)).

(** [ws_s_s_dt_wa_gauss_comb].  modelfunctions/__init__.py 104-125. *)
Definition ws_s_s_dt_wa_gauss_comb : mfunc :=
  mkMF 2 true (fun ws wa params =>
    do p <- pars params 0 4; do a <- s_shaped ws p true;
    do p <- pars params 4 3; do b <- gaussian_model wa p false;
    do s <- py_nth params 7;
    do p <- pars params 8 3; do c <- gaussian_model (360 - wa) p false;
    do s' <- py_nth params 11;
    Ok (a + b + times ws wa s + c + times ws (360 - wa) s')).

(** [ws_s_wa_gauss].  modelfunctions/__init__.py 128-147: slices of the parameters. *)
Definition ws_s_wa_gauss : mfunc :=
  mkMF 2 true (fun ws wa params =>
    do a <- s_shaped ws (firstn 4 params) true;
    do b <- gaussian_model wa (firstn 4 (skipn 4 params)) false;
    do c <- gaussian_model (360 - wa) (firstn 4 (skipn 8 params)) false;
    Ok (a + b + c)).

(** [ws_s_wa_gauss_and_square].  modelfunctions/__init__.py 150-177. *)
Definition ws_s_wa_gauss_and_square : mfunc :=
  mkMF 2 true (fun ws wa params =>
    do p <- pars params 0 4; do a <- s_shaped ws p true;
    do p <- pars params 4 3; do b <- gaussian_model wa p false;
    do p <- pars params 7 3; do c <- gaussian_model (360 - wa) p false;
    Ok ((a + ws * (b + c)) * wa * (360 - wa))).
