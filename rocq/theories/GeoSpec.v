(** Vocabulary for geometry on the sphere: directions, angles, travel. *)
From Coq Require Import Reals List String.
Import ListNotations.
Open Scope R_scope.

Definition space := (R * R * R)%type.
Definition place := (R * R)%type.
Definition dot (a b : space) : R := let '(ax, ay, az) := a in let '(bx, by_, bz) := b in ax * bx + ay * by_ + az * bz.
Definition mix (s : R) (v : space) (t : R) (w : space) : space :=
  let '(vx, vy, vz) := v in let '(wx, wy, wz) := w in (s * vx + t * wx, s * vy + t * wy, s * vz + t * wz).
Definition length3 (v : space) : R := sqrt (dot v v).
Definition deg (d : R) : R := d * PI / 180.
(** The direction from the centre to a place given in degrees; the directions north and
    east at it. *)
Definition up (p : place) : space :=
  let '(lat, lon) := p in (cos (deg lat) * cos (deg lon), cos (deg lat) * sin (deg lon), sin (deg lat)).
Definition north (p : place) : space :=
  let '(lat, lon) := p in (- (sin (deg lat) * cos (deg lon)), - (sin (deg lat) * sin (deg lon)), cos (deg lat)).
Definition east (p : place) : space := let '(lat, lon) := p in (- sin (deg lon), cos (deg lon), 0).
Definition same_place (p q : place) : Prop := up p = up q.
Definition opposite (p q : place) : Prop := up p = mix (-1) (up q) 0 (up q).
(** The angle of two places at the centre. *)
Definition angle (p q : place) : R := acos (dot (up p) (up q)).
(** The direction reached by going over an angle along the great circle that leaves with a
    bearing. *)
Definition heading (p : place) (b : R) : space := mix (cos (deg b)) (north p) (sin (deg b)) (east p).
Definition travel (p : place) (b : R) (delta : R) : space := mix (cos delta) (up p) (sin delta) (heading p b).
(** Metres. *)
Definition RADIUS : R := 6378137.
Definition is_unit (u : string) (metres : R) : Prop :=
  In (u, metres) [("m"%string, 1); ("km"%string, 1000); ("mi"%string, 1000 / 0.62137119223);
                  ("nmi"%string, 1000 / 0.539957); ("ft"%string, 1000 / 0.62137119223 / 5280)].
(** Between the poles. *)
Definition between_poles (p : place) : Prop := -90 < fst p < 90.
Definition on_earth (p : place) : Prop := -90 <= fst p <= 90.
(** On the great circle that leaves [p] toward [b]. *)
Definition on_circle (p : place) (b : R) (x : place) : Prop := exists t, up x = travel p b t.
(** The great circle through two places: the plane through them and the centre. *)
Definition volume (u v w : space) : R :=
  let '(ux, uy, uz) := u in let '(vx, vy, vz) := v in let '(wx, wy, wz) := w in
  ux * (vy * wz - vz * wy) - uy * (vx * wz - vz * wx) + uz * (vx * wy - vy * wx).
Definition in_line (p q x : place) : Prop := volume (up p) (up q) (up x) = 0.
(** Ahead of [p] for one who leaves it with a bearing. *)
Definition ahead (p : place) (b : R) (x : place) : Prop := 0 <= dot (up x) (heading p b).
Definition first3 (v : space) : R := fst (fst v).
(** Coordinate by coordinate within 1e-8. *)
Definition near (v w : space) : Prop :=
  let '(vx, vy, vz) := v in let '(wx, wy, wz) := w in
  Rabs (vx - wx) <= 1 / 100000000 /\ Rabs (vy - wy) <= 1 / 100000000 /\ Rabs (vz - wz) <= 1 / 100000000.
(** A chain of points on the great circle of [p] and [q], from [p] to [q], all steps alike:
    [s] is the angle of one step. *)
Definition evenly (p q : place) (n : nat) (s : R) (l : list place) : Prop :=
  List.length l = S n /\
  (forall x, nth_error l 0 = Some x -> same_place x p) /\
  (forall x, nth_error l n = Some x -> near (up x) (up q)) /\
  (forall i x, nth_error l i = Some x -> in_line p q x) /\
  (forall i j x y, nth_error l i = Some x -> nth_error l j = Some y -> angle x y = s * Rabs (INR i - INR j)).
(** The cylinder around the axis in which altitudes are read off the axis. *)
Definition near_axis (v : space) : Prop := let '(x, y, _) := v in Rabs x < 1 /\ Rabs y < 1.
