(** * Model of the fuzzy logic in hrosailing/processing/weigher.py *)

From Coq Require Import String Ascii.
From Coq Require Import List Bool Arith ZArith Reals.
From Verif Require Import Py Num.
Import ListNotations.
Open Scope string_scope.
Open Scope list_scope.

(** What a truth function is applied to: a number or an object with items (a row of a
    [Data] object, a dictionary).  Simplified: keys are strings. *)
Inductive input := INum (x : R) | IItems (items : list (string * input)).

(** [x[item]]. *)
Definition get_item (x : input) (item : string) : result input :=
  match x with
  | INum _ => Raise TypeError
  | IItems l => match find (fun kv => String.eqb (fst kv) item) l with
                | Some kv => Ok (snd kv)
                | None => Raise KeyError
                end
  end.

(** Arithmetic with the input. *)
Definition as_num (x : input) : result R :=
  match x with INum v => Ok v | IItems _ => Raise TypeError end.

(** A [FuzzyBool] is its truth function.  weigher.py 614-619.  Its text [repr] is the
    function [text] below. *)
Definition fbool := input -> result R.

(** [FuzzyBool.__getitem__].  weigher.py 636-642. *)
Definition fb_item (f : fbool) (item : string) : fbool :=
  fun x => do y <- get_item x item; f y.

(** [FuzzyBool.fuzzy_and]: the first entry of the column-wise minimum of the two stacked
    values.  weigher.py 648-667.  Truth values are numbers. *)
Definition fb_and (one other : fbool) : fbool :=
  fun x => do a <- one x; do b <- other x; Ok (nmin a b).

(** [FuzzyBool.fuzzy_or].  weigher.py 670-689. *)
Definition fb_or (one other : fbool) : fbool :=
  fun x => do a <- one x; do b <- other x; Ok (nmax a b).

(** [FuzzyBool.fuzzy_not].  weigher.py 692-704. *)
Definition fb_not (one : fbool) : fbool := fun x => do a <- one x; Ok (1 - a)%R.

(** [FuzzyBool.sigmoid].  weigher.py 707-737.  Overflow of the exponential function is
    not modelled. *)
Definition sigmoid (center sharpness sigma : R) : fbool :=
  fun x => do v <- as_num x; Ok (1 / (1 + exp (sigma * sharpness * (v - center))))%R.

(** [FuzzyVariable]: [key], [_sharpness], [_next_sharpness].  weigher.py 802-805. *)
Record fvar := mkVar { fv_key : option string; fv_sharpness : R; fv_next : R }.

(** [__init__].  weigher.py 802-805. *)
Definition var_new (sharpness : R) (key : option string) : fvar := mkVar key sharpness sharpness.

(** The property [sharpness]: reading it resets the next sharpness.  weigher.py 807-812. *)
Definition read_sharpness (v : fvar) : R * fvar :=
  (fv_next v, mkVar (fv_key v) (fv_sharpness v) (fv_sharpness v)).

(** [_truth].  weigher.py 814-819. *)
Definition var_truth (v : fvar) (other sigma : R) : fbool * fvar :=
  let (s, v') := read_sharpness v in
  let sig := sigmoid other s sigma in
  (match fv_key v with None => sig | Some k => fb_item sig k end, v').

(** [__gt__], [__lt__], [__ge__], [__le__].  weigher.py 821-835. *)
Definition var_gt (v : fvar) (other : R) : fbool * fvar := var_truth v other (-1)%R.
Definition var_lt (v : fvar) (other : R) : fbool * fvar := var_truth v other 1%R.
Definition var_ge (v : fvar) (other : R) : fbool * fvar := var_gt v other.
Definition var_le (v : fvar) (other : R) : fbool * fvar := var_lt v other.

(** [__eq__].  weigher.py 837-840. *)
Definition var_eq (v : fvar) (other : R) : fbool * fvar :=
  let (l, v1) := var_lt v other in
  let (g, v2) := var_gt v1 other in
  (fb_and l g, v2).

(** [__getitem__]: a new variable; reading the sharpness resets the old one.
    weigher.py 842-843. *)
Definition var_item (v : fvar) (item : string) : fvar * fvar :=
  let (s, v') := read_sharpness v in (var_new s (Some item), v').

(** [__call__].  weigher.py 845-847. *)
Definition var_call (v : fvar) (sharpness : R) : fvar :=
  mkVar (fv_key v) (fv_sharpness v) sharpness.

(** [FuzzyWeigher.weigh] on the rows of the data.  weigher.py 880-896. *)
Definition fuzzy_weigh (fuzzy : fbool) (rows : list input) : result (list R) := mapM fuzzy rows.

(* ------------------------------------------------------------------ *)
(** ** Python expressions over one variable *)

Inductive cmp := Clt | Cle | Cgt | Cge | Ceq.

(** The expressions of the documentation (weigher.py 764-781): a comparison
    [x op a], [x(s) op a], [x[key] op a], [x[key](s) op a], the connectives and
    [expression[key]]. *)
Inductive fexpr :=
| FCmp (key : option string) (s : option R) (op : cmp) (a : R)
| FAnd (e1 e2 : fexpr)
| FOr (e1 e2 : fexpr)
| FNot (e : fexpr)
| FItem (e : fexpr) (key : string).

Definition var_cmp (v : fvar) (op : cmp) (a : R) : fbool * fvar :=
  match op with
  | Clt => var_lt v a | Cle => var_le v a | Cgt => var_gt v a | Cge => var_ge v a | Ceq => var_eq v a
  end.

(** Python evaluates the expression from left to right; the variable is shared. *)
Fixpoint build (v : fvar) (e : fexpr) : fbool * fvar :=
  match e with
  | FCmp None s op a =>
      let v1 := match s with None => v | Some s => var_call v s end in
      var_cmp v1 op a
  | FCmp (Some k) s op a =>
      let (w, v1) := var_item v k in
      let w1 := match s with None => w | Some s => var_call w s end in
      (fst (var_cmp w1 op a), v1)
  | FAnd e1 e2 => let (f, v1) := build v e1 in let (g, v2) := build v1 e2 in (fb_and f g, v2)
  | FOr e1 e2 => let (f, v1) := build v e1 in let (g, v2) := build v1 e2 in (fb_or f g, v2)
  | FNot e1 => let (f, v1) := build v e1 in (fb_not f, v1)
  | FItem e1 k => let (f, v1) := build v e1 in (fb_item f k, v1)
  end.

(* ------------------------------------------------------------------ *)
(** ** Texts *)

(** [" " in s]. *)
Fixpoint has_blank (s : string) : bool :=
  match s with
  | EmptyString => false
  | String c r => Ascii.eqb c " "%char || has_blank r
  end.

(** [f"({s})" if " " in s else s].  weigher.py 751-752. *)
Definition bracket (s : string) : string := if has_blank s then ("(" ++ s ++ ")")%string else s.

(** [FuzzyVariable.__str__].  weigher.py 849-852. *)
Definition var_text (key : option string) : string :=
  match key with None => "x" | Some k => ("x[" ++ k ++ "]")%string end.

(** [<=] is [<] and [>=] is [>].  weigher.py 831-835. *)
Definition cmp_text (op : cmp) : string :=
  match op with Clt | Cle => "<" | Cgt | Cge => ">" | Ceq => "==" end.

(** The text of the result of an expression: weigher.py 621-624, 626-629, 631-634,
    641, 739-753 ([_concat_repr]), 823, 828, 839.  [number] is the text of a number;
    numbers are floats. *)
Section Text.
  Variable number : R -> string.

  Fixpoint text (e : fexpr) : string :=
    match e with
    | FCmp key _ op a => (var_text key ++ " " ++ cmp_text op ++ " " ++ number a)%string
    | FAnd e1 e2 => (bracket (text e1) ++ " & " ++ bracket (text e2))%string
    | FOr e1 e2 => (bracket (text e1) ++ " | " ++ bracket (text e2))%string
    | FNot e1 => ("~(" ++ text e1 ++ ")")%string
    | FItem e1 k => (text e1 ++ "[" ++ k ++ "]")%string
    end.
End Text.
