(** * Model of /repo/hrosailing/models/globe_model.py

    Exact real numbers; latitudes and longitudes in degrees. *)

From Coq Require Import List Bool Arith ZArith Reals.
From Verif Require Import Py Num Trig BaseModel.
Import ListNotations.
Open Scope R_scope.

(** [np.arctan2(y, x)] (exact: signed zeros are not modelled). *)
Definition atan2 (y x : R) : R :=
  if Rltb 0 x then atan (y / x)
  else if Rltb x 0 then (if Rltb y 0 then atan (y / x) - PI else atan (y / x) + PI)
  else if Rltb 0 y then PI / 2
  else if Rltb y 0 then - (PI / 2)
  else 0.

(** [np.arcsin], [np.arccos]: nan outside of [-1, 1]. *)
Definition np_arcsin (z : R) : result R :=
  if Rleb (-1) z && Rleb z 1 then Ok (asin z) else Raise NonFinite.
Definition np_arccos (z : R) : result R :=
  if Rleb (-1) z && Rleb z 1 then Ok (acos z) else Raise NonFinite.

(** [np.tan]; where the cosine vanishes there is no tangent (floating point
    numbers deliver some huge value instead). *)
Definition np_tan (x : R) : result R :=
  if Reqb (cos x) 0 then Raise NonFinite else Ok (tan x).

(** A position: latitude and longitude.  A vector with three coordinates. *)
Definition pos := (R * R)%type.
Definition v3 := (R * R * R)%type.

Definition scale3 (c : R) (p : v3) : v3 := let '(x, y, z) := p in (c * x, c * y, c * z).
Definition add3 (p q : v3) : v3 :=
  let '(x, y, z) := p in let '(x', y', z') := q in (x + x', y + y', z + z').
Definition dot3 (p q : v3) : R :=
  let '(x, y, z) := p in let '(x', y', z') := q in x * x' + y * y' + z * z'.
(** [np.cross]. *)
Definition cross3 (p q : v3) : v3 :=
  let '(x, y, z) := p in let '(x', y', z') := q in
  (y * z' - z * y', z * x' - x * z', x * y' - y * x').
(** [np.linalg.norm]. *)
Definition norm3 (p : v3) : R := sqrt (dot3 p p).

(** [_on_ball] of one position.  globe_model.py 309-314.  Positions with other
    than two coordinates are not modelled. *)
Definition on_ball (p : pos) : v3 :=
  let lat := deg2rad (fst p) in let lon := deg2rad (snd p) in
  (cos lat * cos lon, cos lat * sin lon, sin lat).

(** [_on_lat_lon] of one point.  globe_model.py 317-320. *)
Definition on_lat_lon (p : v3) : result pos :=
  let '(x, y, z) := p in
  do a <- np_arcsin z; Ok (rad2deg a, rad2deg (atan2 y x)).

(** [_angle].  globe_model.py 323-329. *)
Definition angle (p q : v3) : result R :=
  do a <- np_div (dot3 p q) (norm3 p);
  do b <- np_div a (norm3 q);
  np_arccos b.

(** [points / self._earth_radius] for one point. *)
Definition div3 (p : v3) (r : R) : result v3 :=
  let '(x, y, z) := p in
  do a <- np_div x r; do b <- np_div y r; do c <- np_div z r; Ok (a, b, c).

(** ** [SphericalGlobe] with earth radius [r] *)

(** [SphericalGlobe.project].  globe_model.py 246-252. *)
Definition sph_project (r : R) (pts : list pos) : list v3 := map (fun p => scale3 r (on_ball p)) pts.

(** [SphericalGlobe.lat_lon].  globe_model.py 254-262. *)
Definition sph_lat_lon (r : R) (pts : list v3) : result (list pos) :=
  mapM (fun p => do q <- div3 p r; on_lat_lon q) pts.

(** [SphericalGlobe.distance].  globe_model.py 264-273. *)
Definition sph_distance (r : R) (a b : pos) : result R :=
  do t <- angle (on_ball a) (on_ball b); Ok (r * t).

(** [SphericalGlobe.shortest_projected_path].  globe_model.py 275-300.  The
    inverse of [[1, cos t], [0, sin t]] is [[1, - cos t / sin t], [0, 1 / sin t]]
    (LinAlgError if singular, which is decided exactly here), [proj2] drops the
    third column of [proj3].  [res] below zero (ValueError of [linspace]) is not
    modelled; [res = 0] gives an empty array that cannot be multiplied. *)
Definition sph_projected_path (s e : v3) (res : nat) : result (list v3) :=
  do t <- angle s e;
  if Reqb (sin t) 0 then Raise LinAlgError
  else
    let col2 := add3 (scale3 (- cos t / sin t) s) (scale3 (1 / sin t) e) in
    match res with
    | O => Raise ValueError
    | _ => Ok (map (fun w => add3 (scale3 (cos w) s) (scale3 (sin w) col2)) (linspace 0 t res))
    end.

(** [GlobeModel.shortest_path].  globe_model.py 107-138. *)
Definition sph_shortest_path (r : R) (a b : pos) (res : nat) : result (list pos) :=
  match sph_project r [a; b] with
  | [s; e] => do path <- sph_projected_path s e res; sph_lat_lon r path
  | _ => Raise ValueError
  end.

(** ** [FlatMercatorProjection] *)

(** A matrix, given by its three columns. *)
Definition mat3 := (v3 * v3 * v3)%type.

Definition mat_vec (m : mat3) (p : v3) : v3 :=
  let '(c1, c2, c3) := m in let '(x, y, z) := p in
  add3 (add3 (scale3 x c1) (scale3 y c2)) (scale3 z c3).

Definition transpose3 (m : mat3) : mat3 :=
  let '((a, b, c), (d, e, f), (g, h, i)) := m in ((a, d, g), (b, e, h), (c, f, i)).

(** [np.linalg.inv]: the rows of the inverse are cross products of columns
    divided by the determinant. *)
Definition mat_inv (m : mat3) : result mat3 :=
  let '(c1, c2, c3) := m in
  let det := dot3 c1 (cross3 c2 c3) in
  if Reqb det 0 then Raise LinAlgError
  else Ok (transpose3 (scale3 (1 / det) (cross3 c2 c3), scale3 (1 / det) (cross3 c3 c1),
                       scale3 (1 / det) (cross3 c1 c2))).

Record flat := mkFlat { fm_mat : mat3; fm_inv : mat3; fm_radius : R }.

(** [FlatMercatorProjection.__init__].  globe_model.py 158-167: the columns of
    the matrix are zero, east and pole. *)
Definition flat_new (pole zero : pos) (r : R) : result flat :=
  let p := on_ball pole in
  let z := on_ball zero in
  let east := cross3 p z in
  let m := (z, east, p) in
  do i <- mat_inv m; Ok (mkFlat m i r).

(** The defaults [virt_northpole=(90, 0), virt_zero=(0, 0), earth_radius=3440]. *)
Definition flat_default : result flat := flat_new (90, 0) (0, 0) 3440.

(** [_transform_coordinates] of one position.  globe_model.py 169-174. *)
Definition flat_transform (m : mat3) (p : pos) : result pos := on_lat_lon (mat_vec m (on_ball p)).

(** [FlatMercatorProjection.project].  globe_model.py 176-195. *)
Definition flat_project1 (f : flat) (p : pos) : result (R * R) :=
  do q <- flat_transform (fm_mat f) p;
  do t <- np_tan (deg2rad (fst q));
  Ok (fm_radius f * deg2rad (snd q), fm_radius f * arcsinh t).
Definition flat_project (f : flat) (pts : list pos) : result (list (R * R)) :=
  mapM (flat_project1 f) pts.

(** [FlatMercatorProjection.lat_lon].  globe_model.py 197-208. *)
Definition flat_lat_lon1 (f : flat) (p : R * R) : result pos :=
  do x <- np_div (fst p) (fm_radius f);
  do y <- np_div (snd p) (fm_radius f);
  do a <- np_arcsin (tanh y);
  flat_transform (fm_inv f) (rad2deg a, rad2deg x).
Definition flat_lat_lon (f : flat) (pts : list (R * R)) : result (list pos) :=
  mapM (flat_lat_lon1 f) pts.

(** [FlatMercatorProjection.distance].  globe_model.py 210-217. *)
Definition flat_distance (f : flat) (a b : pos) : result R :=
  do p <- flat_project1 f a;
  do q <- flat_project1 f b;
  Ok (sqrt ((fst p - fst q) * (fst p - fst q) + (snd p - snd q) * (snd p - snd q))).

(** [FlatMercatorProjection.shortest_projected_path].  globe_model.py 219-225:
    [np.linspace] of two points. *)
Definition flat_projected_path (s e : R * R) (res : nat) : list (R * R) :=
  combine (linspace (fst s) (fst e) res) (linspace (snd s) (snd e) res).

(** [GlobeModel.shortest_path].  globe_model.py 107-138. *)
Definition flat_shortest_path (f : flat) (a b : pos) (res : nat) : result (list pos) :=
  do l <- flat_project f [a; b];
  match l with
  | [s; e] => flat_lat_lon f (flat_projected_path s e res)
  | _ => Raise ValueError
  end.
