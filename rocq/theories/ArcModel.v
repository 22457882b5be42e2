(** Model of motion/great_circle_calcs.py and of analytical_intersection of
    motion/geodetic_model.py.

    Numbers are Coq's real numbers, with errors as in GeoModel.  Points of
    great_circle_calcs are latitude and longitude in radians (to_radians has been called;
    for a point in radians it changes nothing).  lru_cache is left out: the functions
    depend on their arguments only. *)
From Coq Require Import Reals List Bool String.
From Verif Require Import PairModel GeoModel.
Import ListNotations.
Open Scope bool_scope.
Open Scope R_scope.

(** get_dist_rad, great_circle_calcs.py:20-34 *)
Definition get_dist_rad (p1 p2 : point) : res R :=
  do s <- rsqrt (sin ((fst p1 - fst p2) / 2) ^ 2 + cos (fst p1) * cos (fst p2) * sin ((snd p1 - snd p2) / 2) ^ 2);
  do a <- rasin s; Ok (2 * a).
(** get_course_rad, great_circle_calcs.py:37-57: from north toward west *)
Definition get_course_rad (p1 p2 : point) : res R :=
  do d <- get_dist_rad p1 p2;
  do q <- rdiv (sin (fst p2) - sin (fst p1) * cos d) (sin d * cos (fst p1));
  do c <- racos q;
  Ok (if Rltb (sin (snd p2 - snd p1)) 0 then c else 2 * PI - c).
(** get_pos_from_points_and_distance, great_circle_calcs.py:60-85 *)
Definition get_pos (p1 p2 : point) (dist : R) : res point :=
  do tc <- get_course_rad p1 p2;
  do lat <- rasin (sin (fst p1) * cos dist + cos (fst p1) * sin dist * cos tc);
  let dlon := atan2 (sin tc * sin dist * cos (fst p1)) (cos dist - sin (fst p1) * sin lat) in
  Ok (lat, rmod (snd p1 - dlon + PI) (2 * PI) - PI).
(** get_great_circle_points, great_circle_calcs.py:88-142.  [if dp:] is false for None and
    for 0. *)
Definition get_great_circle_points (pa pb pd : point) (dist : R) : res (option ((point * point) * (R * R))) :=
  do course_ad <- get_course_rad pa pd;
  do course_ab <- get_course_rad pa pb;
  let a := course_ad - course_ab in
  do b <- get_dist_rad pa pd;
  let r := sqrt (cos b ^ 2 + sin b ^ 2 * cos a ^ 2) in
  let atd := atan2 (sin b * cos a) (cos b) in
  do dist_ab <- get_dist_rad pa pb;
  if Rltb (r ^ 2) (cos dist ^ 2) then Ok None else
  do q <- rdiv (cos dist) r;
  do dp <- racos q;
  if Rzero dp then Ok None else
  let d1 := atd - dp in
  let d2 := atd + dp in
  if Rltb dist_ab d1 || Rltb d2 0 then Ok None else
  do p1 <- get_pos pa pb d1;
  do p2 <- get_pos pa pb d2;
  Ok (Some ((p1, p2), (d1, d2))).

(** A GeodeticLocation in degrees: latitude, longitude, altitude *)
Definition loc := (R * R * R)%type.
Definition alt (l : loc) : R := snd l.
(** to_radians and to_degrees, data_types.py:365-391, without the altitude *)
Definition to_radians (l : loc) : point := (radians (fst (fst l)), radians (snd (fst l))).
Definition to_degrees (p : point) (h : R) : loc := (degrees (fst p), degrees (snd p), h).
(** The crossing at the distance [d] (radians), geodetic_model.py:168-184 and 195-204 *)
Definition crossing_at (start : loc) (p : point) (d path_dist alt_change_per_dist earth_rad speed : R) (dist_units altitude_units : string) : res (loc * R) :=
  do f <- rdiv d path_dist;
  let alt_i := alt start + f * alt_change_per_dist in
  do half <- unit_convert (0.5 * (alt start + alt_i)) altitude_units dist_units;
  let d_m := d * (earth_rad + half) in
  do t <- rdiv d_m speed;
  Ok (to_degrees p alt_i, t).
(** analytical_intersection, geodetic_model.py:98-207.  Places, times and kinds are zipped;
    without intersection the lists of places and times are empty and the kinds not used.
    The units are those of the stage. *)
Definition analytical (dist_units altitude_units : string) (start finish : loc) (speed : R) (sensor : loc) (radius : R)
  : res (list (loc * R * kind) * R) :=
  do earth_rad <- unit_convert EARTH "m" dist_units;
  let average_path_height := (alt start + alt finish) / 2 in
  do average <- unit_convert average_path_height altitude_units dist_units;
  do adjusted <- rsqrt (radius ^ 2 - average ^ 2);
  let radius_rad := adjusted / earth_rad in
  do point_results <- get_great_circle_points (to_radians start) (to_radians finish) (to_radians sensor) radius_rad;
  do dist_start <- get_dist_rad (to_radians sensor) (to_radians start);
  do dist_finish <- get_dist_rad (to_radians sensor) (to_radians finish);
  do path_dist <- get_dist_rad (to_radians start) (to_radians finish);
  do path_time <- rdiv (path_dist * earth_rad) speed;
  match point_results with
  | None => Ok ([], -1)
  | Some ((p1, p2), (d1, d2)) =>
      do per_dist <- rdiv (alt finish - alt start) path_dist;
      do first <- (if Rltb dist_start radius_rad then Ok (start, 0, START_INSIDE) else
                   do c <- crossing_at start p1 d1 path_dist per_dist earth_rad speed dist_units altitude_units; Ok (c, ENTER));
      do second <- (if Rltb dist_finish radius_rad then Ok (finish, path_time, END_INSIDE) else
                    do c <- crossing_at start p2 d2 path_dist per_dist earth_rad speed dist_units altitude_units; Ok (c, EXIT));
      Ok ([first; second], path_time)
  end.
