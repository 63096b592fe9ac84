(** * Model of the [__repr__] methods

    The texts that [repr] gives for the components of processing/ and for curves, and what
    evaluating such a text as Python code does, restricted to one call whose arguments are numbers
    and names.

    Simplifications: how numbers and matrices are printed and how a word is evaluated are
    parameters; of a norm only its identity and its [__name__] are represented. *)

From Coq Require Import String Ascii.
From Coq Require Import List Bool Arith ZArith Reals.
From Verif Require Import Py Num NhoodModel InterpModel FilterModel CurveModel.
Import List ListNotations.
Open Scope string_scope.
Open Scope list_scope.

(** A callable; [None] if it has no [__name__] (for example [functools.partial] objects). *)
Record norm := mkNorm { n_id : nat; n_name : option string }.

(** The printed attributes of the objects, as the constructors leave them:
    neighbourhood.py 74-75, 138-143, 231-234, 299-300; interpolator.py 94-95, 371-374; filter.py 81,
    133-134; weigher.py 260-263, 392-399.  The neighbourhood of the Shepard interpolator and the
    distribution of [ArithmeticMeanInterpolator] are left out, so is [Polytope]. *)
Inductive comp :=
| OBall (n : norm) (radius : R)
| OScalingBall (min_pts : Z) (n : norm)
| OEllipsoid (inverse : (R * R) * (R * R)) (n : norm) (radius : R)
| OCuboid (n : norm) (size : R)
| OIdw (p : nat) (n : norm)
| OShepard (tol slope : R) (n : norm)
| OBilinear
| OQuantile (percent : R)
| OBound (lower upper : R)
| OMean (radius : R) (n : option norm) (dims : option (list string))
| OMember (radius length : R) (n : norm) (dims : option (list string)).

(** [x.__name__]. *)
Definition dunder_name (n : option norm) : result string :=
  match n with
  | Some n => match n_name n with Some s => Ok s | None => Raise AttributeError end
  | None => Raise AttributeError
  end.

Section Texts.
  Variable show : R -> string.
  Variable show_int : Z -> string.
  Variable show_mat : (R * R) * (R * R) -> string.

  (** neighbourhood.py 77-78, 145-148, 236-240, 302-303; interpolator.py 97-98, 376-380, 502-503;
      filter.py 83-84, 136-137; weigher.py 265-269, 401-405.  The two sizes of a cuboid, a tuple,
      are printed as one word. *)
  Definition repr (o : comp) : result string :=
    match o with
    | OBall n r => do s <- dunder_name (Some n); Ok ("Ball(norm=" ++ s ++ ", radius=" ++ show r ++ ")")%string
    | OScalingBall k n => do s <- dunder_name (Some n); Ok ("ScalingBall(min_pts=" ++ show_int k ++ ", norm=" ++ s ++ ")")%string
    | OEllipsoid t n r =>
        do s <- dunder_name (Some n);
        Ok ("Ellipsoid(lin_trans=" ++ show_mat t ++ ", norm=" ++ s ++ ", radius=" ++ show r ++ ")")%string
    | OCuboid n d => do s <- dunder_name (Some n); Ok ("Cuboid(norm=" ++ s ++ ", attributes=" ++ show d ++ ")")%string
    | OIdw p n => do s <- dunder_name (Some n); Ok ("IDWInterpolator(p=" ++ show_int (Z.of_nat p) ++ ", norm=" ++ s ++ ")")%string
    | OShepard t sl n =>
        do s <- dunder_name (Some n);
        Ok ("ShepardInterpolator( tol=" ++ show t ++ ", slope_scal=" ++ show sl ++ ", norm=" ++ s ++ ")")%string
    | OBilinear => Ok "BilinearGridInterpolator()"
    | OQuantile p => Ok ("QuantileFilter(percent=" ++ show p ++ ")")%string
    | OBound lo up => Ok ("BoundFilter(upper_bound=" ++ show up ++ ", lower_bound=" ++ show lo ++ ")")%string
    | OMean r n _ => do s <- dunder_name n; Ok ("CylindricMeanWeigher(radius=" ++ show r ++ ", norm=" ++ s ++ ")")%string
    | OMember r l n _ =>
        do s <- dunder_name (Some n);
        Ok ("CylindricMemberWeigher(radius=" ++ show r ++ ",length=" ++ show l ++ ", norm=" ++ s ++ ")")%string
    end.

  (** [str] of a tuple of numbers without its parentheses. *)
  Fixpoint join (l : list string) : string :=
    match l with [] => "" | [s] => s | s :: r => (s ++ ", " ++ join r)%string end.
  Definition tuple_inside (l : list R) : string :=
    match l with [x] => (show x ++ ",")%string | _ => join (map show l) end.

  (** [PolarDiagramCurve.__repr__].  _polardiagramcurve.py 124-128. *)
  Definition repr_curve (c : curve) : string :=
    ("PolarDiagramCurve(f=" ++ f_name (c_fun c) ++ ", " ++ tuple_inside (c_params c) ++ ", radians=" ++
     (if c_rad c then "True" else "False") ++ ")")%string.
End Texts.

(* ---- evaluating ---- *)

(** Why the evaluation of a text fails. *)
Inductive failure := BadSyntax | BadName | BadCall (e : exn).
Inductive outcome A := Value (a : A) | Failed (f : failure).
Arguments Value {A}.
Arguments Failed {A}.
Definition obind {A B} (o : outcome A) (k : A -> outcome B) : outcome B :=
  match o with Value a => k a | Failed f => Failed f end.
Notation "'let?' x := e 'in' k" := (obind e (fun x => k)) (at level 200, x pattern, e at level 100, k at level 200).
Definition called {A} (r : result A) : outcome A := match r with Ok a => Value a | Raise e => Failed (BadCall e) end.

(** The text before the first [c] and the text behind it. *)
Fixpoint cut (c : ascii) (s : string) : option (string * string) :=
  match s with
  | EmptyString => None
  | String a r =>
      if Ascii.eqb a c then Some ("", r)
      else match cut c r with Some (x, y) => Some (String a x, y) | None => None end
  end.
(** The pieces between the commas. *)
Fixpoint pieces (s : string) : list string :=
  match s with
  | EmptyString => [""]
  | String a r =>
      if Ascii.eqb a ","%char then "" :: pieces r
      else match pieces r with h :: t => String a h :: t | [] => [String a ""] end
  end.
Fixpoint lstrip (s : string) : string :=
  match s with String a r => if Ascii.eqb a " "%char then lstrip r else s | EmptyString => "" end.

(** The arguments between the parentheses: keywords and words.  An empty word is no argument, and a
    positional argument must not follow a keyword. *)
Fixpoint arguments (l : list string) (keyword_seen : bool) : outcome (list (option string * string)) :=
  match l with
  | [] => Value []
  | p :: r =>
      let p := lstrip p in
      match cut "="%char p with
      | Some (k, v) => let? a := arguments r true in Value ((Some k, v) :: a)
      | None =>
          if String.eqb p "" then Failed BadSyntax
          else if keyword_seen then Failed BadSyntax
          else let? a := arguments r false in Value ((None, p) :: a)
      end
  end.

(** [name(arguments)]. *)
Definition parse_call (s : string) : outcome (string * list (option string * string)) :=
  match cut "("%char s with
  | None => Failed BadSyntax
  | Some (name, rest) =>
      match cut ")"%char rest with
      | Some (inside, "") =>
          if String.eqb inside "" then Value (name, [])
          else let? a := arguments (pieces inside) false in Value (name, a)
      | _ => Failed BadSyntax
      end
  end.

(** The values of words. *)
Inductive value := VNum (x : R) | VInt (z : Z) | VMat (m : (R * R) * (R * R)) | VNorm (n : norm).

Section Eval.
  Variable word_value : string -> option value.

  Definition evaluate (s : string) : outcome value :=
    match word_value s with Some v => Value v | None => Failed BadName end.

  (** Binding of the arguments to the parameters of a constructor: positional ones in order; an
      unknown keyword, an argument given twice or too many arguments are a TypeError. *)
  Fixpoint bind (params : list string) (bound : list (string * value)) (l : list (option string * string)) :
      outcome (list (string * value)) :=
    match l with
    | [] => Value bound
    | (k, w) :: r =>
        let? v := evaluate w in
        match k with
        | Some k =>
            if existsb (String.eqb k) params && negb (existsb (fun b => String.eqb k (fst b)) bound)
            then bind params ((k, v) :: bound) r else Failed (BadCall TypeError)
        | None =>
            match nth_error params (length bound) with
            | Some k => bind params ((k, v) :: bound) r
            | None => Failed (BadCall TypeError)
            end
        end
    end.

  Definition given (k : string) (b : list (string * value)) : option value :=
    match find (fun kv => String.eqb k (fst kv)) b with Some kv => Some (snd kv) | None => None end.
  (** A number; a word of another kind is a TypeError when it is compared. *)
  Definition number (k : string) (b : list (string * value)) (default : option R) : outcome R :=
    match given k b, default with
    | Some (VNum x), _ | None, Some x => Value x
    | _, _ => Failed (BadCall TypeError)
    end.
  Definition integer (k : string) (b : list (string * value)) (default : option Z) : outcome Z :=
    match given k b, default with
    | Some (VInt x), _ | None, Some x => Value x
    | _, _ => Failed (BadCall TypeError)
    end.
  Definition callable (b : list (string * value)) (default : norm) : outcome norm :=
    match given "norm" b with
    | Some (VNorm n) => Value n
    | None => Value default
    | _ => Failed (BadCall TypeError)
    end.

  (** The default norms: [scaled_euclidean_norm], [np.abs], and the norm the member weigher makes. *)
  Variable scaled absolute standard : norm.

  (** The constructors: neighbourhood.py 66-75, 130-143, 212-234, 294-300; interpolator.py 86-95,
      356-374; filter.py 76-81, 128-134; weigher.py 252-263, 384-399.  The Shepard interpolator
      needs a neighbourhood, for which there is no value here. *)
  Definition construct (name : string) (args : list (option string * string)) : outcome comp :=
    if String.eqb name "Ball" then
      let? b := bind ["radius"; "norm"] [] args in
      let? r := number "radius" b (Some 0.05%R) in let? n := callable b scaled in
      let? r := called (ball_new r) in Value (OBall n r)
    else if String.eqb name "ScalingBall" then
      let? b := bind ["min_pts"; "norm"] [] args in
      let? k := integer "min_pts" b None in let? n := callable b scaled in
      let? k := called (scaling_ball_new k) in Value (OScalingBall k n)
    else if String.eqb name "Ellipsoid" then
      let? b := bind ["lin_trans"; "norm"; "radius"] [] args in
      let? m := match given "lin_trans" b with
                | Some (VMat m) => Value (Some m) | None => Value None | _ => Failed (BadCall TypeError) end in
      let? n := callable b scaled in let? r := number "radius" b (Some 0.05%R) in
      let? e := called (ellipsoid_new m r) in Value (OEllipsoid (fst e) n (snd e))
    else if String.eqb name "Cuboid" then
      let? b := bind ["norm"; "dimensions"] [] args in
      let? n := callable b absolute in let? d := number "dimensions" b (Some 0.05%R) in Value (OCuboid n d)
    else if String.eqb name "IDWInterpolator" then
      let? b := bind ["p"; "norm"] [] args in
      let? p := integer "p" b (Some 2%Z) in let? n := callable b scaled in
      let? p := called (idw_new p) in Value (OIdw p n)
    else if String.eqb name "ShepardInterpolator" then
      let? b := bind ["neighbourhood"; "tol"; "slope"; "norm"] [] args in Failed (BadCall TypeError)
    else if String.eqb name "BilinearGridInterpolator" then
      let? b := bind [] [] args in Value OBilinear
    else if String.eqb name "QuantileFilter" then
      let? b := bind ["percent"] [] args in
      let? p := number "percent" b (Some 50%R) in let? p := called (quantile_new p) in Value (OQuantile p)
    else if String.eqb name "BoundFilter" then
      let? b := bind ["lower_bound"; "upper_bound"] [] args in
      let? lo := number "lower_bound" b (Some 0.5%R) in let? up := number "upper_bound" b (Some 1%R) in
      let? lu := called (bound_new lo up) in Value (OBound (fst lu) (snd lu))
    else if String.eqb name "CylindricMeanWeigher" then
      let? b := bind ["radius"; "norm"; "dimensions"] [] args in
      let? r := number "radius" b (Some 0.05%R) in
      let? n := match given "norm" b with
                | Some (VNorm n) => Value (Some n) | None => Value None | _ => Failed (BadCall TypeError) end in
      if nleb r (nofZ 0) then Failed (BadCall ValueError) else Value (OMean r n None)
    else if String.eqb name "CylindricMemberWeigher" then
      let? b := bind ["radius"; "length"; "norm"; "dimensions"] [] args in
      let? r := number "radius" b (Some 0.05%R) in let? l := number "length" b (Some 0.05%R) in
      let? n := callable b standard in
      if nleb r (nofZ 0) then Failed (BadCall ValueError)
      else if nltb l (nofZ 0) then Failed (BadCall ValueError) else Value (OMember r l n None)
    else Failed BadName.

  (** [eval(text)]. *)
  Definition eval_text (s : string) : outcome comp :=
    let? (name, args) := parse_call s in construct name args.
End Eval.
