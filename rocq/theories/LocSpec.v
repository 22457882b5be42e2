(** Vocabulary for locations. *)
From Coq Require Import Reals List Bool String.
From Verif Require Import GeoSpec LocModel.
Import ListNotations.
Open Scope R_scope.

(** A sequence of attempts to assign attributes, with the errors they raise. *)
Fixpoint assign (o : obj) (ops : list (string * aval)) : obj * list (option exn) :=
  match ops with
  | [] => (o, [])
  | (n, v) :: l =>
      match setattr o n v with
      | Ret o' => let '(e, r) := assign o' l in (e, None :: r)
      | Raise x => let '(e, r) := assign o l in (e, Some x :: r)
      end
  end.
(** The straight distance of two points; the point of a cartesian location, heights in
    altitude units multiplied by a factor. *)
Definition apart_by (u v : space) : R := length3 (mix 1 u (-1) v).
Definition spot (f : R) (c : cart) : space := (cx c, cy c, if use_alt c then cz c * f else cz c).
(** The factor from one unit to another, to a millionth. *)
Definition factor (from to : string) (f : R) : Prop :=
  exists k m, is_unit from k /\ is_unit to m /\ 0 < f /\ Rabs (f - k / m) <= k / m / 1000000.
(** Latitude and longitude in degrees. *)
Definition in_degrees (g : geo) : place :=
  if in_rad g then (glat g * 180 / PI, glon g * 180 / PI) else (glat g, glon g).
