(** * Model of /repo/hrosailing/core/data.py, class [WeightedPoints] (593-665) *)

From Coq Require Import String.
From Coq Require Import List Bool Arith ZArith Lia.
From Verif Require Import Py Dict DataModel.
Import ListNotations.
Open Scope list_scope.
Open Scope nat_scope.

(** The attribute [data] (data.py:600-605): an array given by its rows, a
    dictionary of lists or a [Data] object.  [A] is the type of a row, [V] of a
    dictionary entry.  Simplified: that all rows of an array have the same
    width is not represented, so the ValueError of [np.row_stack] for arrays of
    different width (data.py:663) is not modelled. *)
Inductive pdata (A V : Type) :=
| PArr (rows : list A)
| PDict (d : dict (list V))
| PData (d : Data).
Arguments PArr {A V} rows.
Arguments PDict {A V} d.
Arguments PData {A V} d.

(** The argument [weights] (data.py:607-614). *)
Inductive pweights (W : Type) := WScalar (w : W) | WList (l : list W).
Arguments WScalar {W} w.
Arguments WList {W} l.

(** The object: data.py:617-626 ([data], [weights]). *)
Record wpoints (A V W : Type) := mkWP { wdata : pdata A V; wweights : list W }.
Arguments mkWP {A V W}.
Arguments wdata {A V W}.
Arguments wweights {A V W}.

(** data.py:617-626 [__init__].  [len(data)] of a [Data] object raises
    TypeError since the class has no [__len__]; [list(data.values())[0]] of an
    empty dictionary raises IndexError. *)
Definition wp_new {A V W} (data : pdata A V) (weights : pweights W)
  : result (wpoints A V W) :=
  match weights with
  | WScalar w =>
      do n <- match data with
              | PDict [] => Raise IndexError
              | PDict ((_, v) :: _) => Ok (length v)
              | PData _ => Raise TypeError
              | PArr rows => Ok (length rows)
              end;
      Ok (mkWP data (repeat w n))
  | WList l => Ok (mkWP data l)
  end.

(** [array[mask]] of numpy for a boolean mask: a mask of another length raises
    IndexError. *)
Definition np_mask {X} (l : list X) (m : list bool) : result (list X) :=
  if length l =? length m then Ok (mask_list l m) else Raise IndexError.

(** data.py:628-638 [__getitem__]. *)
Definition wp_mask {A V W} (p : wpoints A V W) (m : list bool) : result (wpoints A V W) :=
  match wdata p with
  | PDict d =>
      do d' <- mapM (fun kv => do v <- np_mask (snd kv) m; Ok (fst kv, v)) d;
      do w <- np_mask (wweights p) m;
      wp_new (PDict d') (WList w)
  | PArr rows =>
      do r <- np_mask rows m;
      do w <- np_mask (wweights p) m;
      wp_new (PArr r) (WList w)
  | PData d =>
      do w <- np_mask (wweights p) m;
      wp_new (PData (mask_rows d m)) (WList w)
  end.

(** data.py:640-665 [extend]; different kinds of [data] end in a TypeError or
    AttributeError of the operands, modelled as TypeError. *)
Definition wp_extend {A V W} (p q : wpoints A V W) : result (wpoints A V W) :=
  match wdata p, wdata q with
  | PDict d, PDict e =>
      Ok (mkWP (PDict (flat_map (fun kv => match dget (fst kv) e with
                                           | Some v => [(fst kv, snd kv ++ v)]
                                           | None => []
                                           end) d))
               (wweights p ++ wweights q))
  | PData d, PData e =>
      do c <- concatenate [d; e]; Ok (mkWP (PData c) (wweights p ++ wweights q))
  | PArr r, PArr s => Ok (mkWP (PArr (r ++ s)) (wweights p ++ wweights q))
  | _, _ => Raise TypeError
  end.
