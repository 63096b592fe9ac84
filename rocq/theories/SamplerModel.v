(** * Model of hrosailing/processing/sampler.py

    Points are pairs of reals.  The convex hull of scipy and the random numbers of numpy
    are parameters. *)

From Coq Require Import List Bool Arith ZArith Reals.
From Verif Require Import Py Num.
Import ListNotations.
Open Scope R_scope.

Notation pt := (R * R)%type.

(** A row of [ConvexHull.equations]: [a x + b y <= - c]. *)
Notation ineq := (R * R * R)%type.

Definition holds (q : ineq) (p : pt) : bool :=
  let '(a, b, c) := q in Rleb (a * fst p + b * snd p) (- c).
(** The mask of sampler.py 87 and 272 for one point. *)
Definition inside (qs : list ineq) (p : pt) : bool := forallb (fun q => holds q p) qs.

(** [np.linalg.norm(p - q)]. *)
Definition dist (p q : pt) : R :=
  sqrt ((fst p - fst q) * (fst p - fst q) + (snd p - snd q) * (snd p - snd q)).

(* ---- UniformRandomSampler ---- *)

(** The constructors.  sampler.py 51-55, 120-124, 189-193. *)
Definition sampler_new (n_samples : Z) : result nat :=
  if (n_samples <=? 0)%Z then Raise ValueError else Ok (Z.to_nat n_samples).

Section Samplers.
  (** [rng.uniform(low, high, count)] in the given call. *)
  Variable uniform : nat -> R -> R -> nat -> list R.
  (** [ConvexHull]: equations and volume; it raises for degenerate points. *)
  Variable hull : list pt -> result (list ineq * R).

  (** The loop [while len(samples) < n_samples].  sampler.py 79-88; [it] counts the calls
      of the random generator. *)
  Fixpoint uniform_loop (fuel it n : nat) (qs : list ineq) (wsb wab : R * R) (samples : list pt) : result (list pt) :=
    if n <=? length samples then Ok samples
    else match fuel with
         | O => Raise OutOfFuel
         | S f =>
             let m := (n - length samples)%nat in
             let ws := uniform it (fst wsb) (snd wsb) m in
             let wa := uniform (S it) (fst wab) (snd wab) m in
             let wind := combine ws wa in
             uniform_loop f (S (S it)) n qs wsb wab (samples ++ filter (inside qs) wind)
         end.

  (** [_create_bounds].  sampler.py 93-96. *)
  Definition create_bounds (pts : list pt) : result ((R * R) * (R * R)) :=
    do a <- nminimum (map fst pts);
    do b <- nmaximum (map fst pts);
    do c <- nminimum (map snd pts);
    do d <- nmaximum (map snd pts);
    Ok ((a, b), (c, d)).

  (** [UniformRandomSampler.sample].  sampler.py 57-90. *)
  Definition uniform_sample (fuel n : nat) (pts : list pt) : result (list pt) :=
    do qv <- hull pts;
    do b <- create_bounds pts;
    uniform_loop fuel 0 n (fst qv) (fst b) (snd b) [].

  (* ---- rescaling ---- *)

  (** [_binary_rescale].  sampler.py 240-261: before each evaluation of the loop condition,
      [gen t] is the current sample. *)
  Fixpoint rescale (fuel n : nat) (gen : R -> list pt) (lb : R) (ub : option R) (t : R) : result (list pt) :=
    let s := gen t in
    if length s =? n then Ok s
    else match fuel with
         | O => Raise OutOfFuel
         | S f =>
             if n <? length s then
               match ub with
               | None => rescale f n gen t None (t * 2)
               | Some u => rescale f n gen t (Some u) ((u + t) / 2)
               end
             else rescale f n gen lb (Some t) ((t + lb) / 2)
         end.
  Definition binary_rescale (fuel n : nat) (gen : R -> list pt) (start : R) : result (list pt) :=
    rescale fuel n gen 0 None start.

  (** [_sample_generator].  sampler.py 264-275. *)
  Definition sample_generator (base : list pt) (mid : pt) (qs : list ineq) (t : R) : list pt :=
    filter (inside qs) (map (fun p => (fst mid + t * fst p, snd mid + t * snd p)) base).

  (* ---- the enclosing circle ---- *)

  Notation circle := (pt * R)%type.

  (** The circle with the two points as a diameter.  sampler.py 324-328. *)
  Definition two_circle (p q : pt) : circle :=
    (((fst p + fst q) / 2, (snd p + snd q) / 2), dist p q / 2).

  Definition det3 (a1 b1 c1 a2 b2 c2 a3 b3 c3 : R) : R :=
    a1 * (b2 * c3 - b3 * c2) - b1 * (a2 * c3 - a3 * c2) + c1 * (a2 * b3 - a3 * b2).

  (** [_small_circle].  sampler.py 316-344.  The inverse of the matrix is written with
      Cramer's rule; [LinAlgError] is a vanishing determinant. *)
  Definition small_circle (pts : list pt) : result circle :=
    match pts with
    | [] => Ok ((0, 0), 0)
    | [p] => Ok (p, 0)
    | [p; q] => Ok (two_circle p q)
    | [p0; p1; p2] =>
        let s p := - (fst p * fst p + snd p * snd p) in
        let d := det3 1 (- fst p0) (- snd p0) 1 (- fst p1) (- snd p1) 1 (- fst p2) (- snd p2) in
        if Reqb d 0 then
          let try_ e a b (k : result circle) :=
            let c := two_circle a b in
            if Rleb (dist e (fst c)) (snd c) then Ok c else k in
          try_ p0 p1 p2 (try_ p1 p0 p2 (try_ p2 p0 p1 (Raise RuntimeError)))
        else
          let a := det3 (s p0) (- fst p0) (- snd p0) (s p1) (- fst p1) (- snd p1) (s p2) (- fst p2) (- snd p2) / d in
          let b := det3 1 (s p0) (- snd p0) 1 (s p1) (- snd p1) 1 (s p2) (- snd p2) / d in
          let c := det3 1 (- fst p0) (s p0) 1 (- fst p1) (s p1) 1 (- fst p2) (s p2) / d in
          Ok ((b / 2, c / 2), sqrt (b * b / 4 + c * c / 4 - a))
    | _ => Raise ValueError
    end.

  (** [_is_in_circle].  sampler.py 310-313. *)
  Definition is_in_circle (p : pt) (c : circle) (eps : R) : bool := Rltb (dist p (fst c)) (snd c + eps).

  (** The loop of [_make_circle].  sampler.py 286-305. *)
  Fixpoint circle_loop (fuel : nat) (eps : R) (pts : list pt) (k : list nat) (c : circle) (i j : nat) : result circle :=
    match nth_error pts i with
    | None => Ok c
    | Some p =>
        match fuel with
        | O => Raise OutOfFuel
        | S f =>
            if is_in_circle p c eps then circle_loop f eps pts k c (S i) (Nat.max (S i) j)
            else
              let k' := if i =? j then [i] else filter (fun t => i <? t) k ++ [i] in
              do c' <- small_circle (map (fun t => nth t pts (0, 0)) k');
              circle_loop f eps pts k' c' 0 j
        end
    end.

  (** [_make_circle] after the shuffling.  sampler.py 278-307. *)
  Definition make_circle (fuel : nat) (eps : R) (shuffled : list pt) : result circle :=
    do c <- small_circle [];
    circle_loop fuel eps shuffled [] c 0 0.

  (* ---- spirals ---- *)

  (** [int(np.pi * r**2 * n_samples / vol) + 10].  sampler.py 151, 224. *)
  Definition spiral_size (r vol : R) (n : nat) : nat :=
    (Z.to_nat (Int_part (PI * (r * r) * INR n / vol)) + 10)%nat.

  (** The base set of [FibonacciSampler].  sampler.py 154-158. *)
  Definition fibonacci_spiral (ub : nat) : list pt :=
    map (fun i => let beta := 2 * PI * INR i * / ((1 + sqrt 5) / 2) in
                  let radius := sqrt (INR i / INR ub) in
                  (radius * cos beta, radius * sin beta)) (seq 1 (ub - 1)).

  (** The arc values of [ArchimedeanSampler].  sampler.py 228-230. *)
  Fixpoint arc_values (k : nat) (b : R) : list R :=
    match k with O => [b] | S k' => b :: arc_values k' (b + 8 / (b + 2)) end.
  (** sampler.py 232-233. *)
  Definition archimedean_spiral (ub : nat) : list pt :=
    map (fun b => (b * cos b, b * sin b)) (arc_values ub 0).

  (** [FibonacciSampler.sample] (sampler.py 126-166) and [ArchimedeanSampler.sample]
      (195-237), which differ in the base set and in the check of the number of points. *)
  Definition spiral_sample (spiral : nat -> list pt) (need : nat) (fuel1 fuel2 n : nat) (eps : R)
    (pts shuffled : list pt) : result (list pt) :=
    if length pts <? need then Raise ValueError
    else
      do c <- make_circle fuel1 eps shuffled;
      do qv <- hull pts;
      let base := spiral (spiral_size (snd c) (snd qv) n) in
      binary_rescale fuel2 n (sample_generator base (fst c) (fst qv)) (snd c).
  Definition fibonacci_sample := spiral_sample fibonacci_spiral 0.
  Definition archimedean_sample := spiral_sample archimedean_spiral 2.
End Samplers.
