(** * What the wind and norm properties say *)

From Coq Require Import List Bool Arith ZArith Reals.
From Verif Require Import Py Num Trig WindModel.
Import ListNotations.
Open Scope R_scope.

(** Reading of a (speed, angle in degrees) pair as a plane vector. *)
Definition along (s a : R) : R := s * cos (deg2rad a).
Definition across (s a : R) : R := s * sin (deg2rad a).

(** The other direction of conversion. *)
Definition opposite (d : wind_dir) : wind_dir :=
  match d with TO_TRUE => TO_APPARENT | TO_APPARENT => TO_TRUE end.

(** Sum and multiple of vectors. *)
Definition vadd (u v : list R) : list R := map (fun p => fst p + snd p) (combine u v).
Definition vscale (c : R) (v : list R) : list R := map (Rmult c) v.

