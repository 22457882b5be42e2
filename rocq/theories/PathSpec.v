(** Vocabulary for the location changing states: arc length along a list of
    waypoints, written on the waypoints alone. *)
From Verif Require Import Common PathModel.

Section PathSpec.
Variable P : Type.
Variable dist : P -> P -> Q.
Variable along : P -> P -> Q -> P.

(** Length of the first [n] legs of the path that starts at [a]. *)
Fixpoint travelled (a : P) (wps : list P) (n : nat) : Q :=
  match n, wps with
  | S n', w :: wps' => dist w a + travelled w wps' n'
  | _, _ => 0
  end.
Definition path_length (a : P) (wps : list P) : Q := travelled a wps (length wps).

(** [p] lies on leg [i] of the path (or beyond its end by at most [slack]), at
    arc length [s] from the start. *)
Definition on_leg (a : P) (wps : list P) (i : nat) (s slack : Q) (p : P) : Prop :=
  exists u v f, nth_error (a :: wps) i = Some u /\ nth_error wps i = Some v /\
    p = along u v f /\ 0 < f /\
    travelled a wps i + f * dist v u == s /\ s <= travelled a wps (S i) + slack.

(** Operations that do not start or end the motion. *)
Definition looks (o : pop P) : Prop :=
  match o with PRead | PRemaining | PTime _ => True | _ => False end.
Definition looks_or_assigns (o : pop P) : Prop :=
  match o with PAssign _ => True | _ => looks o end.
(** ... and never starts it again *)
Definition no_start (o : pop P) : Prop := match o with PActivate _ _ => False | _ => True end.
End PathSpec.
Arguments travelled {P}. Arguments path_length {P}. Arguments on_leg {P}.
Arguments looks {P}. Arguments looks_or_assigns {P}. Arguments no_start {P}.

Definition pt_eq (p q : pt) : Prop := px p == px q /\ py p == py q /\ pz p == pz q.
