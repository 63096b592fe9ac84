(** * Model of hrosailing/polardiagram/_basepolardiagram.py *)

From Coq Require Import List Bool Arith ZArith.
From Verif Require Import Py Num WPointsModel InterpModel.
Import ListNotations.

(** The argument [ws] of [get_slices]: nothing, a Python number, an iterable of
    numbers (a sequence that supports slicing), an iterable of other things or
    something else.  _basepolardiagram.py 100-116. *)
Inductive ws_arg (T : Type) := WNone | WNum (x : T) | WList (l : list T) | WItems | WOther.
Arguments WNone {T}.
Arguments WNum {T}.
Arguments WList {T}.
Arguments WItems {T}.
Arguments WOther {T}.

(** The argument [wind] of [get_points]: an array of the given dimensions, a
    tuple or something else.  _basepolardiagram.py 130-151.  Numbers in a tuple
    are one-element lists (meshgrid).  [WindVector] is a one-dimensional array. *)
Inductive wind_arg (T : Type) :=
| WindRows (rows : list (list T)) (width : nat) | WindVector
| WindTuple (parts : list (list T)) | WindOther.
Arguments WindRows {T}.
Arguments WindVector {T}.
Arguments WindTuple {T}.
Arguments WindOther {T}.

Section Base.
  Context {T : Type} `{Num T}.

  (** [np.linspace(a, b, n)]. *)
  Definition linspace (a b : T) (n : nat) : list T :=
    match n with
    | O => []
    | S O => [a]
    | S m => map (fun i => (a + nofZ (Z.of_nat i) * ((b - a) / nofZ (Z.of_nat m)))%num) (seq 0 m) ++ [b]
    end.

  (** [_get_windspeeds].  _basepolardiagram.py 100-128. *)
  Definition get_windspeeds (default : list T) (ws : ws_arg T) (n_steps : option Z) : result (list T) :=
    let go l :=
      match n_steps with
      | None => Ok l
      | Some n =>
          if Z.leb n 0 then Raise ValueError
          else
            let gaps := concat (map (fun ab => removelast (linspace (fst ab) (snd ab) (Z.to_nat n + 2)))
                                    (combine l (tl l))) in
            match rev l with
            | [] => Raise IndexError
            | x :: _ => Ok (gaps ++ [x])
            end
      end in
    match ws with
    | WNone => go default
    | WNum x => Ok [x]
    | WList l => go l
    | WItems | WOther => Raise TypeError
    end.

  (** Columns of a list of rows: [wind.T] for an array of two rows. *)
  Definition two_rows (rows : list (list T)) : list (T * T) :=
    match rows with [a; b] => combine a b | _ => [] end.

  (** [_get_wind].  _basepolardiagram.py 130-151. *)
  Definition get_wind (w : wind_arg T) : result (list (T * T)) :=
    match w with
    | WindRows rows width =>
        if Nat.eqb width 2 then
          Ok (map (fun r => (nth 0 r (nofZ 0), nth 1 r (nofZ 0))) rows)
        else if Nat.eqb (length rows) 2 then Ok (two_rows rows)
        else Raise ValueError
    | WindVector => Raise IndexError
    | WindTuple parts =>
        match parts with
        | [ws; wa] => Ok (flat_map (fun a => map (fun s => (s, a)) ws) wa)
        | _ => Raise ValueError
        end
    | WindOther => Raise TypeError
    end.

  (** [get_points].  _basepolardiagram.py 190-218; [call] is [self.__call__].
      The names in line 217 are swapped but the positions are right. *)
  Definition get_points (call : T -> T -> result T) (default : list (pt3 T))
      (w : option (wind_arg T)) : result (list (pt3 T)) :=
    match w with
    | None => Ok default
    | Some w =>
        do wind <- get_wind w;
        mapM (fun sa => do b <- call (fst sa) (snd sa); Ok (fst sa, snd sa, b)) wind
    end.
End Base.
