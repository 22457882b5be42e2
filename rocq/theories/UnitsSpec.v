(** What the units mean, independently of the table. *)
From Coq Require Import String Qabs.
From Verif Require Import Common UnitsModel.
Open Scope string_scope.

(** The units of the documentation (convert.py:60-71) with their size in seconds, or
    in metres by international agreement. *)
Definition seconds_of (u : string) : option Q :=
  if existsb (String.eqb u) ["s"; "second"; "seconds"] then Some 1
  else if existsb (String.eqb u) ["min"; "minute"; "minutes"] then Some 60
  else if existsb (String.eqb u) ["hr"; "hour"; "hours"] then Some 3600
  else if existsb (String.eqb u) ["day"; "days"] then Some 86400
  else if existsb (String.eqb u) ["week"; "weeks"] then Some 604800
  else None.
Definition metres_of (u : string) : option Q :=
  if String.eqb u "m" then Some 1
  else if String.eqb u "km" then Some 1000
  else if String.eqb u "mi" then Some (1609344 # 1000)
  else if String.eqb u "nmi" then Some 1852
  else if String.eqb u "ft" then Some (3048 # 10000)
  else None.
(** Units shorter than a day. *)
Definition below_day (u : string) : Prop := exists x, seconds_of (lower u) = Some x /\ x < 86400.
(** [x] and [y] differ by at most [e] times the size of [y]. *)
Definition near (e x y : Q) : Prop := Qabs (x - y) <= e * Qabs y.
