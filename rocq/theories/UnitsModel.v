(** Model of units/convert.py, of the unit handling of Wait (events.py:166-206) and
    of UpstageBase.pretty_now (base.py:340-370).

    Numbers are exact rationals (python: floats), strings are ASCII.  The text
    layout of pretty_now is left out: its parts are returned as numbers. *)
From Coq Require Import String Ascii Qround.
From Verif Require Import Common.
Open Scope string_scope.

(** str.lower() on ASCII *)
Definition lower_ascii (a : ascii) : ascii :=
  let n := nat_of_ascii a in
  if ((65 <=? n) && (n <=? 90))%nat then ascii_of_nat (n + 32) else a.
Fixpoint lower (s : string) : string :=
  match s with
  | EmptyString => EmptyString
  | String a s' => String (lower_ascii a) (lower s')
  end.

(** dict lookup: KeyError is None *)
Fixpoint lookup {V : Type} (d : list (string * V)) (k : string) : option V :=
  match d with
  | [] => None
  | (x, v) :: d' => if String.eqb x k then Some v else lookup d' k
  end.
(** d[k] = v *)
Fixpoint store {V : Type} (d : list (string * V)) (k : string) (v : V) : list (string * V) :=
  match d with
  | [] => [(k, v)]
  | (x, y) :: d' => if String.eqb x k then (x, v) :: d' else (x, y) :: store d' k v
  end.

Definition row := list (string * Q).
(** convert.py:7-32 *)
Definition km_mi : Q := 62137119223 # 100000000000.
Definition km_nmi : Q := 539957 # 1000000.
Definition mi_nmi : Q := 868976 # 1000000.
Definition conversions0 : list (string * row) :=
  [ ("m", [("km", 1 / 1000); ("mi", 1 / 1000 * km_mi); ("nmi", 1 / 1000 * km_nmi); ("m", 1)]);
    ("km", [("km", 1); ("mi", km_mi); ("nmi", km_nmi); ("m", 1000)]);
    ("mi", [("km", 1 / km_mi); ("mi", 1); ("nmi", mi_nmi); ("m", 1 / km_mi * 1000)]);
    ("nmi", [("km", 1 / km_nmi); ("mi", 1 / mi_nmi); ("nmi", 1); ("m", 1 / km_nmi * 1000)]);
    ("s", [("hr", 1 / (60 * 60)); ("min", 1 / 60); ("s", 1)]);
    ("min", [("hr", 1 / 60); ("min", 1); ("s", 60)]);
    ("hr", [("hr", 1); ("min", 60); ("s", 60 * 60)]);
    ("day", [("hr", 24); ("week", 1 / 7); ("min", 24 * 60); ("s", 24 * 3600)]);
    ("week", [("day", 7); ("hr", 7 * 24); ("min", 7 * 24 * 60); ("s", 7 * 24 * 3600)]) ].

(** convert.py:34-46 *)
Definition DISTANCE_UNITS : list string := ["m"; "km"; "mi"; "nmi"; "ft"].
Definition TIME_ALTERNATES : list (string * string) :=
  [ ("seconds", "s"); ("second", "s"); ("minute", "min"); ("minutes", "min");
    ("hour", "hr"); ("hours", "hr"); ("days", "day"); ("weeks", "week") ].
Definition STANDARD_TIMES : list string := ["s"; "min"; "hr"].

(** convert.py:48-54; a KeyError here would make the import fail: None *)
Definition add_feet1 (c : option (list (string * row))) (u : string) : option (list (string * row)) :=
  match c with
  | None => None
  | Some c =>
      if String.eqb u "ft" then Some c else
      match lookup c "mi", lookup c "ft" with
      | Some mi, Some ft =>
          match lookup mi u with
          | Some x =>
              let c1 := store c "ft" (store ft u (x / 5280)) in
              match lookup c1 u with
              | Some r => Some (store c1 u (store r "ft" (1 / (x / 5280))))
              | None => None
              end
          | None => None
          end
      | _, _ => None
      end
  end.
Definition conversions : option (list (string * row)) :=
  fold_left add_feet1 DISTANCE_UNITS
    (Some (store conversions0 "ft" [("ft", 1); ("mi", 1 / 5280)])).

(** unit_convert, convert.py:57-91; None is the ValueError *)
Definition normal (u : string) : string :=
  match lookup TIME_ALTERNATES (lower u) with Some x => x | None => lower u end.
Definition unit_convert (v : Q) (ufrom uto : string) : option Q :=
  match conversions with
  | None => None
  | Some c =>
      match lookup c (normal ufrom) with
      | None => None
      | Some r => match lookup r (normal uto) with
                  | None => None
                  | Some f => Some (v * f)
                  end
      end
  end.

(** Wait(timeout, timeout_unit): events.py:166-206.  [tu] is stage.time_unit if set. *)
Inductive wait_out := Waits (t : Q) | NegativeTimeout | BadUnits.
Definition convert_time (tu unit : option string) (t : Q) : option Q :=
  match tu, unit with
  | Some b, Some u => unit_convert t u b
  | _, _ => Some t
  end.
Definition make_wait (tu : option string) (t : Q) (unit : option string) : wait_out :=
  match convert_time tu unit t with
  | None => BadUnits
  | Some x => if Qltb x 0 then NegativeTimeout else Waits x
  end.
(** Wait.from_random_uniform(low, high, unit): events.py:209-235; rng.uniform gives
    low + (high - low) * r with r the next random number. *)
Definition random_wait (tu : option string) (low high : Q) (unit : option string) (r : Q) : wait_out :=
  make_wait tu (low + (high - low) * r) unit.

(** pretty_now, base.py:340-370.  time.gmtime drops the fraction of a second and
    strftime shows the hour of the day. *)
Inductive pretty :=
| PClock (day : Z) (h m s : Z)            (* [Day d - HH:MM:SS] *)
| PCount (now : Q) (unit : string)        (* [now unit] *)
| PDays (day : Z) (rem : Q) (unit : string) (* [Day d - rem unit] *)
| PFails.
Definition pretty_now (now : Q) (tu : option string) (daily : option Q) : pretty :=
  let time_unit := match tu with None => "hr" | Some u => u end in
  let standard := match lookup TIME_ALTERNATES (lower time_unit) with Some x => x | None => time_unit end in
  if existsb (String.eqb standard) STANDARD_TIMES then
    match unit_convert now time_unit "hr" with
    | None => PFails
    | Some now_hrs =>
        let day := Qfloor (now_hrs / 24) in
        let rem_hours := now_hrs - (inject_Z day * 24) in
        let secs := Qfloor (rem_hours * 3600) in
        PClock day ((secs / 3600) mod 24) ((secs / 60) mod 60) (secs mod 60)
    end
  else match daily with
       | None => PCount now time_unit
       | Some n => if Qeqb n 0 then PFails
                   else let days := Qfloor (now / n) in
                        PDays days (now - inject_Z days * n) time_unit
       end.
