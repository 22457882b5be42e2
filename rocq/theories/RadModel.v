(** Model of the form, degrees or radians, of the locations a GeodeticLocationChangingState
    moves through (states.py:740-889), beside that of subtraction of locations
    (data_types.py:379-391, 469-490), of waypoint_time_and_dist (utils.py:154-175) and of the
    rows of the location table (data_utils.py:169-171).

    The state itself is that of PathModel; what is said here is what it reads of a location.
    [k] are the degrees of a radian.  [distance], [bearing] and [travel] are the stage model's
    distance (in the stage's units), bearing and point_from_bearing_dist; all of them take
    degrees. *)
From Verif Require Import Common PathModel.

(** GeodeticLocation, data_types.py:301-329 *)
Record gloc := mkG { g_lat : Q; g_lon : Q; g_alt : Q; g_rad : bool }.

Section Rad.
Variable k : Q.
Variables distance bearing : Q * Q -> Q * Q -> Q.
Variable travel : Q * Q -> Q -> Q -> Q * Q.

(** data_types.py:379-391 *)
Definition to_degrees (g : gloc) : gloc :=
  if g_rad g then mkG (k * g_lat g) (k * g_lon g) (g_alt g) false else g.
(** (loc.lat, loc.lon), as they are *)
Definition raw (g : gloc) : Q * Q := (g_lat g, g_lon g).
(** a - b, data_types.py:469-490 *)
Definition minus (a b : gloc) : Q := distance (raw (to_degrees a)) (raw (to_degrees b)).
(** states.py:751-757 *)
Definition leg_dist (w current : gloc) : Q := distance (raw current) (raw w).
(** states.py:860-884: the new location is made without in_radians *)
Definition leg_point (p q : gloc) (f : Q) : gloc :=
  let '(lat, lon) := travel (raw p) (bearing (raw p) (raw q)) (f * distance (raw p) (raw q)) in
  mkG lat lon (g_alt p + (g_alt q - g_alt p) * f) false.
Definition gstep : pst gloc -> pop gloc -> pst gloc * pout gloc := pstep leg_dist leg_point geo_tol.
Definition grun : pst gloc -> list (pop gloc) -> pst gloc := prun leg_dist leg_point geo_tol.
(** utils.py:154-175 *)
Definition time_and_dist (start : gloc) (wps : list gloc) (speed : Q) : option (Q * Q) := waypoint_time_and_dist minus start wps speed.
(** Lat, Lon and Alt in the location table, data_utils.py:169-171 *)
Definition cells (g : gloc) : Q * Q * Q := (g_lat g, g_lon g, g_alt g).
End Rad.
