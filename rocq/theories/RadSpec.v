(** Places, whatever the form they are given in. *)
From Verif Require Import Common PathModel RadModel.

Definition same (p q : Q * Q) : Prop := fst p == fst q /\ snd p == snd q.
Section RadSpec.
Variable k : Q.
(** Latitude and longitude in degrees *)
Definition place (g : gloc) : Q * Q := ((if g_rad g then k else 1) * g_lat g, (if g_rad g then k else 1) * g_lon g).
End RadSpec.

(** The same numbers, taken as degrees *)
Definition as_deg (g : gloc) : gloc := mkG (g_lat g) (g_lon g) (g_alt g) false.
Definition op_deg (o : pop gloc) : pop gloc :=
  match o with
  | PActivate sp wps => PActivate sp (map as_deg wps)
  | PAssign p => PAssign (as_deg p)
  | PDeactivate => PDeactivate | PRead => PRead | PRemaining => PRemaining | PTime t => PTime t
  end.
Definition out_deg (r : pout gloc) : pout gloc :=
  match r with
  | PVal p => PVal (as_deg p)
  | PRest l => PRest (map as_deg l)
  | POk => POk | PSim => PSim | PZero => PZero | PIllegal => PIllegal
  end.
(** The answers to a series of operations *)
Fixpoint answers (step : pst gloc -> pop gloc -> pst gloc * pout gloc) (s : pst gloc) (os : list (pop gloc)) : list (pout gloc) :=
  match os with [] => [] | o :: os' => snd (step s o) :: answers step (fst (step s o)) os' end.
