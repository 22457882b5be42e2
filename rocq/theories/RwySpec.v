(** Where a traveller is, exactly: what location changing states should give when times are binary fractions. *)
From Verif Require Import Common.
Section Where.
Variables (P : Type) (dist : P -> P -> Q).
(** A time [e] > 0 after departing from [c] at [speed], the traveller is between [x] and [y], and [f] is the part of the time
    between them that has passed. *)
Fixpoint whereat (speed : Q) (c : P) (wps : list P) (e : Q) (x y : P) (f : Q) : Prop :=
  match wps with
  | [] => False
  | w :: wps' => (x = c /\ y = w /\ 0 < e /\ e <= dist w c / speed /\ f * (dist w c / speed) == e) \/
                 (dist w c / speed < e /\ whereat speed w wps' (e - dist w c / speed) x y f)
  end.
(** Something holds of the time of each leg. *)
Fixpoint legs_all (I : Q -> Prop) (speed : Q) (c : P) (wps : list P) : Prop :=
  match wps with [] => True | w :: wps' => I (dist w c / speed) /\ legs_all I speed w wps' end.
End Where.
