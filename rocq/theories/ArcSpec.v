(** Vocabulary for motion along great circles past a range. *)
From Coq Require Import Reals List.
From Verif Require Import GeoSpec.
Open Scope R_scope.

(** The angle between a place and a direction; the direction, after an angle [t], of one
    who leaves [a] along the great circle toward [b]. *)
Definition angle_to (c : place) (v : space) : R := acos (dot (up c) v).
Definition toward (a b : place) (w : space) : Prop :=
  dot w w = 1 /\ dot (up a) w = 0 /\ up b = mix (cos (angle a b)) (up a) (sin (angle a b)) w.
Definition along (a : place) (w : space) (t : R) : space := mix (cos t) (up a) (sin t) w.
Definition rad (p : place) : place := (deg (fst p), deg (snd p)).
Definition at_height (p : place) (h : R) : R * R * R := (fst p, snd p, h).
Definition ground (l : R * R * R) : place := fst l.
