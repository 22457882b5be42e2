(** Vocabulary for the ellipsoidal earth: the ellipsoid itself, and Vincenty's formulas as
    trigonometric series on the auxiliary sphere. *)
From Coq Require Import Reals List.
From Verif Require Import GeoSpec.
Import ListNotations.
Open Scope R_scope.

(** The ellipsoid of WGS84, in metres. *)
Definition MAJOR : R := 6378137.
Definition FLAT : R := 1000000000 / 298257223563.
Definition MINOR : R := MAJOR - MAJOR * FLAT.
Definition on_ellipsoid (v : space) : Prop :=
  let '(x, y, z) := v in (x / MAJOR) ^ 2 + (y / MAJOR) ^ 2 + (z / MINOR) ^ 2 = 1.
(** [n] is normal to the ellipsoid at [v], outward. *)
Definition normal_at (v n : space) : Prop :=
  let '(x, y, z) := v in exists k, 0 < k /\ n = (k * (x / MAJOR ^ 2), k * (y / MAJOR ^ 2), k * (z / MINOR ^ 2)).
(** The position of latitude, longitude and altitude: go up from the point of the ellipsoid
    whose normal has this latitude and longitude. *)
Definition position (lat lon h : R) (v : space) : Prop :=
  exists f, on_ellipsoid f /\ normal_at f (up (lat, lon)) /\ v = mix 1 f h (up (lat, lon)).

(** ** The auxiliary sphere *)
(** Stretching the unit sphere gives the ellipsoid; the parametric latitude of a place is
    the latitude of the point of the sphere which is stretched to it (radians). *)
Definition stretch (v : space) : space := let '(x, y, z) := v in (MAJOR * x, MAJOR * y, MINOR * z).
Definition parametric (p : place) : R := atan ((1 - FLAT) * tan (deg (fst p))).
Definition to_degrees (r : R) : R := r * 180 / PI.
Definition on_sphere (p : place) : place := (to_degrees (parametric p), snd p).
(** Clairaut's constant of the geodesic that leaves a place with a bearing: the sine of its
    bearing at the equator. *)
Definition clairaut (p : place) (b : R) : R := cos (parametric p) * sin (deg b).
(** The place is [s1] beyond the crossing of the equator. *)
Definition node (p : place) (b s1 : R) : Prop :=
  let cos_a := sqrt (1 - clairaut p b ^ 2) in
  sin (parametric p) = cos_a * sin s1 /\ cos (parametric p) * cos (deg b) = cos_a * cos s1.
(** ** Vincenty's series, as sums of sines *)
Definition ksq (sa : R) : R := (1 - sa ^ 2) * ((MAJOR ^ 2 - MINOR ^ 2) / MINOR ^ 2).
Definition VA (k : R) : R := 1 + k / 4 - 3 * k ^ 2 / 64 + 5 * k ^ 3 / 256 - 175 * k ^ 4 / 16384.
Definition VB (k : R) : R := k / 4 - k ^ 2 / 8 + 37 * k ^ 3 / 512 - 47 * k ^ 4 / 1024.
Definition VD (k s1 sg : R) : R :=
  VB k * sin sg * cos (2 * s1 + sg) + VB k ^ 2 / 8 * sin (2 * sg) * cos (4 * s1 + 2 * sg) +
  VB k ^ 3 / 24 * sin (3 * sg) * cos (6 * s1 + 3 * sg).
(** The length in metres of the geodesic whose image on the sphere has length [sg]. *)
Definition arc_length (sa s1 sg : R) : R := MINOR * VA (ksq sa) * (sg - VD (ksq sa) s1 sg).
(** By how much the difference in longitude on the earth falls short of that on the sphere. *)
Definition VC (sa : R) : R := let c := 1 - sa ^ 2 in FLAT / 4 * c + FLAT ^ 2 / 4 * c - 3 * FLAT ^ 2 / 16 * c ^ 2.
Definition shortfall (sa s1 sg : R) : R :=
  (1 - VC sa) * FLAT * sa * (sg + VC sa * sin sg * cos (2 * s1 + sg) + VC sa ^ 2 / 2 * sin (2 * sg) * cos (4 * s1 + 2 * sg)).
(** [q] is reached from [p] by a geodesic of [metres] leaving with bearing [b], up to
    [dm] in the length and [dl] in the longitude (radians), by Vincenty's formulas. *)
Definition latitude_by (p : place) (b metres dm : R) (q : place) (s1 sg lam : R) : Prop :=
  node p b s1 /\ Rabs (arc_length (clairaut p b) s1 sg - metres) <= dm /\
  position (fst q) (snd p + to_degrees lam) 0 (stretch (travel (on_sphere p) b sg)).
Definition longitude_by (p : place) (b dl : R) (q : place) (s1 sg lam : R) : Prop :=
  Rabs (deg (snd q - snd p) - (lam - shortfall (clairaut p b) s1 sg)) <= dl.
Definition minus (v w : space) : space := mix 1 v (-1) w.
