(** Vocabulary for straight motion past a sphere: Euclid's distance, uniform motion. *)
From Coq Require Import Reals List.
From Verif Require Import PairModel.
Import ListNotations.
Open Scope R_scope.

Definition point := (R * R * R)%type.
(** The square of the distance of two points. *)
Definition gap2 (a b : point) : R :=
  let '(ax, ay, az) := a in let '(bx, by_, bz) := b in (ax - bx) ^ 2 + (ay - by_) ^ 2 + (az - bz) ^ 2.
Definition apart (a b : point) : R := sqrt (gap2 a b).
(** Between [a] (u = 0) and [b] (u = 1), or beyond. *)
Definition between (a b : point) (u : R) : point :=
  let '(ax, ay, az) := a in let '(bx, by_, bz) := b in (ax + u * (bx - ax), ay + u * (by_ - ay), az + u * (bz - az)).
(** Where one that goes from [a] toward [b] with a speed is after a time. *)
Definition going (a b : point) (speed t : R) : point := between a b (t * speed / apart a b).
(** On the surface of an ellipsoid. *)
Definition on_ellipsoid (center radii p : point) : Prop :=
  let '(cx, cy, cz) := center in let '(rx, ry, rz) := radii in let '(x, y, z) := p in
  ((x - cx) / rx) ^ 2 + ((y - cy) / ry) ^ 2 + ((z - cz) / rz) ^ 2 = 1.

(** The time a path takes, and where the mover is. *)
Fixpoint lasts (speed : R) (a : point) (ws : list point) : R :=
  match ws with [] => 0 | b :: ws' => apart a b / speed + lasts speed b ws' end.
Fixpoint place (speed : R) (a : point) (ws : list point) (t : R) : point :=
  match ws with
  | [] => a
  | b :: ws' => if Rle_dec t (apart a b / speed) then going a b speed t else place speed b ws' (t - apart a b / speed)
  end.
Definition inside (center : point) (radius : R) (p : point) : Prop := apart p center <= radius.
(** The leg from [a] to [b] never comes into range. *)
Definition misses (center : point) (radius : R) (a b : point) : Prop :=
  forall u, 0 <= u <= 1 -> ~ inside center radius (between a b u).
(** Every leg after one that misses misses, too. *)
Fixpoint all_miss (center : point) (radius : R) (a : point) (ws : list point) : Prop :=
  match ws with [] => True | b :: ws' => misses center radius a b /\ all_miss center radius b ws' end.
Fixpoint no_gap (center : point) (radius : R) (a : point) (ws : list point) : Prop :=
  match ws with
  | [] => True
  | b :: ws' => (misses center radius a b -> all_miss center radius b ws') /\ no_gap center radius b ws'
  end.
(** No waypoint is on the sphere, none is repeated at once. *)
Fixpoint clear (center : point) (radius : R) (a : point) (ws : list point) : Prop :=
  apart a center <> radius /\
  match ws with [] => True | b :: ws' => a <> b /\ clear center radius b ws' end.

(** A time is in one of the crossings. *)
Definition within (l : list (crossing R)) (t : R) : Prop :=
  exists k1 t1 k2 t2, In ((k1, t1), (k2, t2)) l /\ t1 <= t <= t2.
(** Crossings follow each other, from [lo] to [hi]; they begin with an entry and end with
    an exit, but the first may begin with the path and the last end with it. *)
Fixpoint ordered (first : bool) (lo hi : R) (l : list (crossing R)) : Prop :=
  match l with
  | [] => True
  | ((k1, t1), (k2, t2)) :: l' =>
      (k1 = ENTER /\ lo < t1 \/ first = true /\ k1 = START_INSIDE /\ t1 = lo) /\
      t1 <= t2 /\
      (k2 = EXIT /\ t2 < hi \/ l' = [] /\ k2 = END_INSIDE /\ t2 = hi) /\
      ordered false t2 hi l'
  end.
(** At entries and exits the mover, which is at [pos t] at time [t], is at the radius. *)
Definition touches (center : point) (radius : R) (pos : R -> point) (l : list (crossing R)) : Prop :=
  forall k1 t1 k2 t2, In ((k1, t1), (k2, t2)) l ->
    (k1 = ENTER -> apart (pos t1) center = radius) /\ (k2 = EXIT -> apart (pos t2) center = radius).
