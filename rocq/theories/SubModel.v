(** Model of motion/geodetic_model.py: _to_tuple and subdivide_intersection, on top of the
    model of geography/intersections.py (CrossModel.v).

    [G] are GeodeticLocations, [P] the (lat, lon, altitude in metres) tuples the
    intersection function works on; [to_tuple] and [of_tuple] convert (degrees and units of
    altitude, modelled elsewhere), [minus p q] is p - q, the distance in the stage's units.
    [inside c r p]: p is not further than r from c.  The stage's intersection_model is
    get_intersection_locations. *)
From Coq Require Import Qround.
From Verif Require Import Common CrossModel.

(** The words in the list of types: a CrossingCondition's kind, or "Bad". *)
Inductive word := Kind (k : kind) | Bad.
Section Sub.
Variables G P : Type.
(** geodetic_model.py:19-33 *)
Variable to_tuple : G -> P.
(** geodetic_model.py:84-86 *)
Variable of_tuple : P -> G.
Variable minus : G -> G -> Q.
Variable inside : P -> Q -> P -> bool.
Variable gdist : P -> P -> Q.
Variable line : P -> P -> nat -> list P.
(** subdivide_intersection, geodetic_model.py:36-95: the places, times and types of the
    crossings of the leg and its path time. *)
Definition subdivide (start finish : G) (speed : Q) (sensor : G) (radius : Q) : outcome (list G * list Q * list word * Q) :=
  if Qeqb speed 0 then Err DivZero else
  let path_time := minus finish start / speed in
  match get_intersections P (inside (to_tuple sensor) radius) gdist line (to_tuple start) (to_tuple finish) 9260 [10; 20] with
  | Err e => Err e
  | OutOfFuel => OutOfFuel
  | Ok [] => Ok ([], [], [Bad; Bad], 0)
  | Ok l =>
      let locs := map (fun c => of_tuple (c_begin P c)) l in
      Ok (locs, map (fun x => minus x start / speed) locs, map (fun c => Kind (c_kind P c)) l, path_time)
  end.
End Sub.
