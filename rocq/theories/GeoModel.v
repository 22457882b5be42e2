(** Model of geography/spherical.py and of the spherical part of geography/conversions.py.

    Numbers are Coq's real numbers: rounding is not modelled, nor signed zeros.  Division
    by zero and arguments outside the domain of a function are errors as in Python.  Units
    are those of UnitsModel.  Points are tuples of latitude and longitude in degrees
    (_convert_geo, geo_types.py:24-35, has turned other objects into such). *)
From Coq Require Import Reals List Bool String QArith Qreals.
From Verif Require UnitsModel.
Import ListNotations.
Open Scope bool_scope.
Open Scope R_scope.

Inductive err := DivisionErr | ValueErr.
Inductive res (A : Type) := Ok (x : A) | Err (e : err).
Arguments Ok {A}. Arguments Err {A}.
Definition bind {A B} (x : res A) (f : A -> res B) : res B := match x with Ok a => f a | Err e => Err e end.
Notation "'do' x <- e ; k" := (bind e (fun x => k)) (at level 200, x name, right associativity).

Definition Rleb (a b : R) : bool := if Rle_dec a b then true else false.
Definition Rltb (a b : R) : bool := if Rlt_dec a b then true else false.
Definition Rzero (a : R) : bool := if Req_EM_T a 0 then true else false.

(** ** math *)
Definition rdiv (a b : R) : res R := if Rzero b then Err DivisionErr else Ok (a / b).
Definition rsqrt (a : R) : res R := if Rleb 0 a then Ok (sqrt a) else Err ValueErr.
Definition rasin (a : R) : res R := if Rleb (-1) a && Rleb a 1 then Ok (asin a) else Err ValueErr.
Definition racos (a : R) : res R := if Rleb (-1) a && Rleb a 1 then Ok (acos a) else Err ValueErr.
Definition atan2 (y x : R) : R :=
  if Rltb 0 x then atan (y / x) else
  if Rltb x 0 then (if Rleb 0 y then atan (y / x) + PI else atan (y / x) - PI) else
  if Rltb 0 y then PI / 2 else if Rltb y 0 then - (PI / 2) else 0.
Definition radians (d : R) : R := d * (PI / 180).
Definition degrees (r : R) : R := r * (180 / PI).
(** a % b for b > 0 *)
Definition rmod (a b : R) : R := a - b * IZR (Int_part (a / b)).
(** unit_convert, convert.py:57-91 (UnitsModel): a factor, if there is one *)
Definition unit_convert (v : R) (ufrom uto : string) : res R :=
  match UnitsModel.unit_convert 1 ufrom uto with Some f => Ok (v * Q2R f) | None => Err ValueErr end.

Definition vec := (R * R * R)%type.
(** _vector_dot, math_utils.py:47-57 *)
Definition vdot (a b : vec) : R := let '(ax, ay, az) := a in let '(bx, by_, bz) := b in ax * bx + ay * by_ + az * bz.
(** Latitude and longitude *)
Definition point := (R * R)%type.
(** spherical_radius, conversions.py:13 *)
Definition EARTH : R := 6378137.

(** ** Conversions *)
(** SphericalConversions._lla2ecef, conversions.py:160-182; degrees in *)
Definition lla2ecef (lla : vec) : vec :=
  let '(lat, lon, ht) := lla in
  let rad_lat := radians lat in
  let rad_lon := radians lon in
  let rad := EARTH + ht in
  let clat := cos rad_lat in
  (rad * cos rad_lon * clat, rad * clat * sin rad_lon, rad * sin rad_lat).
(** SphericalConversions._ecef2lla, conversions.py:198-229; degrees out.  p / cos(lat) is
    computed in the second case as well, but not used; with floats cos(lat) is never 0. *)
Definition ecef2lla (ecef : vec) : vec :=
  let '(x, y, z) := ecef in
  let lon := atan2 y x in
  let p := sqrt (x ^ 2 + y ^ 2) in
  let lat := atan2 z p in
  let h := if Rltb (Rabs x) 1 && Rltb (Rabs y) 1 then Rabs z - EARTH else p / cos lat - EARTH in
  (degrees lat, degrees lon, h).

(** ** Distance and bearing *)
(** Spherical._bearing and bearing, spherical.py:22-57 *)
Definition bearing (origin destination : point) : R :=
  let lat1 := radians (fst origin) in let lon1 := radians (snd origin) in
  let lat2 := radians (fst destination) in let lon2 := radians (snd destination) in
  rmod (degrees (atan2 (sin (lon2 - lon1) * cos lat2)
                       (cos lat1 * sin lat2 - sin lat1 * cos lat2 * cos (lon2 - lon1)))) 360.
(** Spherical.distance, spherical.py:280-305 *)
Definition distance (loc1 loc2 : point) (units : string) : res R :=
  let lat1 := radians (fst loc1) in let lon1 := radians (snd loc1) in
  let lat2 := radians (fst loc2) in let lon2 := radians (snd loc2) in
  let a := sin (0.5 * (lat2 - lat1)) ^ 2 + cos lat1 * cos lat2 * sin (0.5 * (lon2 - lon1)) ^ 2 in
  do s <- rsqrt a; do c <- rsqrt (1 - a);
  unit_convert (EARTH * 2 * atan2 s c) "m" units.
(** Spherical.point_from_bearing_dist, spherical.py:329-365 *)
Definition point_from_bearing_dist (p : point) (bearing_ dist_ : R) (units : string) : res point :=
  let b := radians bearing_ in
  do dist <- unit_convert dist_ units "m";
  let lat1 := radians (fst p) in let lon1 := radians (snd p) in
  do lat2 <- rasin (sin lat1 * cos (dist / EARTH) + cos lat1 * sin (dist / EARTH) * cos b);
  let lon2 := lon1 + atan2 (sin b * sin (dist / EARTH) * cos lat1) (cos (dist / EARTH) - sin lat1 * sin lat2) in
  Ok (degrees lat2, degrees lon2).

(** ** Paths *)
(** Spherical._point_along and point_along, spherical.py:60-114 *)
Definition point_along (origin destination : point) (f : R) : res point :=
  let lat1 := radians (fst origin) in let lon1 := radians (snd origin) in
  let lat2 := radians (fst destination) in let lon2 := radians (snd destination) in
  do dm <- distance origin destination "m";
  let d := dm / EARTH in
  do a <- rdiv (sin ((1 - f) * d)) (sin d);
  do b <- rdiv (sin (f * d)) (sin d);
  let x := a * cos lat1 * cos lon1 + b * cos lat2 * cos lon2 in
  let y := a * cos lat1 * sin lon1 + b * cos lat2 * sin lon2 in
  let z := a * sin lat1 + b * sin lat2 in
  do p <- rsqrt (x ^ 2 + y ^ 2);
  Ok (degrees (atan2 z p), degrees (atan2 y x)).
(** Spherical._ll2cart, spherical.py:117-131, radius 1 *)
Definition ll2cart (p : point) : vec :=
  let theta := radians (snd p) in let lam := radians (fst p) in
  (cos theta * cos lam, sin theta * cos lam, sin lam).
Definition combine3 (s : R) (v : vec) (t : R) (w : vec) : vec :=
  let '(vx, vy, vz) := v in let '(wx, wy, wz) := w in (s * vx + t * wx, s * vy + t * wy, s * vz + t * wz).
Definition close (v w : vec) : bool :=
  let '(vx, vy, vz) := v in let '(wx, wy, wz) := w in
  Rleb (Rabs (vx - wx)) (1 / 100000000) && Rleb (Rabs (vy - wy)) (1 / 100000000) && Rleb (Rabs (vz - wz)) (1 / 100000000).
(** The parameter of the end of the path and the direction in which it leaves,
    spherical.py:203-226 *)
Definition path_angle (v1 v2 : vec) : res (R * vec) :=
  let d := vdot v1 v2 in
  do q <- rdiv (-1) ((d - 1) * (d + 1));
  do common <- rsqrt q;
  let alpha := - d * common in let beta := common in
  let a := fst (fst v1) in
  let d := fst (fst v2) in
  let lead := a * alpha + beta * d in
  let sqrt_inner := a ^ 2 * alpha ^ 2 + a ^ 2 + 2 * a * alpha * beta * d + beta ^ 2 * d ^ 2 - d ^ 2 in
  if Rltb sqrt_inner 0 then Err ValueErr else
  do h <- rdiv (lead + sqrt sqrt_inner) (a + d);
  let t := 2 * atan h in
  let w := combine3 alpha v1 beta v2 in
  if close (combine3 (cos t) v1 (sin t) w) v2 then Ok (t, w) else
  do h' <- rdiv (lead - sqrt sqrt_inner) (a + d);
  Ok (2 * atan h', w).
(** The points in space: radius 1; spherical.py:228-234 *)
Definition ecef_points (v1 v2 : vec) (n : nat) : res (list vec) :=
  if (n <? 2)%nat then Err ValueErr else
  do tw <- path_angle v1 v2;
  let '(t, w) := tw in
  Ok (map (fun i => let ti := t / INR n * INR i in combine3 (cos ti) v1 (sin ti) w) (seq 0 (S n))).
(** geo_linspace_with_ecef and geo_linspace, spherical.py:151-238 *)
Definition geo_linspace_with_ecef (start finish : point) (n : nat) : res (list point * list vec) :=
  do l <- ecef_points (ll2cart start) (ll2cart finish) n;
  Ok (map (fun e => let '(lat, lon, _) := ecef2lla e in (lat, lon)) l, l).
Definition geo_linspace (start finish : point) (n : nat) : res (list point) :=
  do r <- geo_linspace_with_ecef start finish n; Ok (fst r).
(** ecef_and_geo_linspace, spherical.py:460-487 *)
Definition alts (start_alt finish_alt : R) (n : nat) : list R :=
  map (fun i => start_alt + (finish_alt - start_alt) * INR i / INR n) (seq 0 (S n)).
Definition ecef_and_geo_linspace (start finish : point) (start_alt finish_alt : R) (n : nat) : res (list vec * list vec) :=
  do r <- geo_linspace_with_ecef start finish n;
  let lla := map (fun e => (fst (fst e), snd (fst e), snd e)) (List.combine (fst r) (alts start_alt finish_alt n)) in
  Ok (map lla2ecef lla, lla).
(** ecef_linspace, spherical.py:431-457: lats, lons = <list of points> unpacks only a list
    of two *)
Definition ecef_linspace (start finish : point) (start_alt finish_alt : R) (n : nat) : res (list vec) :=
  do l <- geo_linspace start finish n;
  match l with
  | [lats; lons] => Ok (map lla2ecef (map (fun e => (fst (fst e), snd (fst e), snd e))
      (List.combine (List.combine [fst lats; snd lats] [fst lons; snd lons]) (alts start_alt finish_alt n))))
  | _ => Err ValueErr
  end.
(** geo_circle, spherical.py:241-277 *)
Fixpoint all_ok {A B} (f : A -> res B) (l : list A) : res (list B) :=
  match l with [] => Ok [] | x :: l' => do y <- f x; do r <- all_ok f l'; Ok (y :: r) end.
Definition geo_circle (center : point) (radius : R) (units : string) (n : nat) : res (list point) :=
  all_ok (fun i => do f <- rdiv (INR i) (INR n); point_from_bearing_dist center (f * 360) radius units) (seq 0 (S n)).

(** ** Cross track *)
(** cross_track_distance, spherical.py:368-394 *)
Definition cross_track_distance (origin destination p : point) (units : string) : res R :=
  do dm <- distance origin p "m";
  let delta_1_3 := dm / EARTH in
  let theta_1_3 := radians (bearing origin p) in
  let theta_1_2 := radians (bearing origin destination) in
  do s <- rasin (sin delta_1_3 * sin (theta_1_3 - theta_1_2));
  unit_convert (Rabs (s * EARTH)) "m" units.
(** cross_track_point, spherical.py:397-428 *)
Definition cross_track_point (origin destination p : point) : res point :=
  do dm <- distance origin p "m";
  let delta_1_3 := dm / EARTH in
  let theta_1_3 := radians (bearing origin p) in
  let theta_1_2 := radians (bearing origin destination) in
  do d <- rasin (sin delta_1_3 * sin (theta_1_3 - theta_1_2));
  do q <- rdiv (cos delta_1_3) (cos d);
  do c <- racos q;
  point_from_bearing_dist origin (degrees theta_1_2) (c * EARTH) "m".
