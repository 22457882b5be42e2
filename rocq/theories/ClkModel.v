(** [pretty_now] (base.py:340-370) with floats: the standard time units of UnitsModel's [pretty_now] once more, with
    every arithmetic result rounded by a function [rnd]. *)
From Coq Require Import Qround String Ascii.
From Verif Require Import Common UnitsModel.
Local Open Scope string_scope.
Section Clk.
Variable rnd : Q -> Q.
(** CONVERSIONS[unit]["hr"] of the standard units, convert.py:27-29 *)
Definition f_factor (u : string) : option Q :=
  if String.eqb u "s" then Some (rnd (1 / rnd (60 * 60))) else if String.eqb u "min" then Some (rnd (1 / 60)) else if String.eqb u "hr" then Some 1 else None.
(** base.py:350-361; the day is an integer, which becomes a float when it is subtracted.  time.gmtime drops the
    fraction of a second and strftime shows the hour of the day. *)
Definition f_clock (now factor : Q) : pretty :=
  let now_hrs := rnd (now * factor) in
  let day := Qfloor (rnd (now_hrs / 24)) in
  let rem_hours := rnd (now_hrs - rnd (inject_Z (day * 24))) in
  let secs := Qfloor (rnd (rem_hours * 3600)) in
  PClock day ((secs / 3600) mod 24) ((secs / 60) mod 60) (secs mod 60).
Definition f_pretty_now (now : Q) (tu : option string) : option pretty :=
  let time_unit := match tu with None => "hr" | Some u => u end in
  let standard := match lookup TIME_ALTERNATES (lower time_unit) with Some x => x | None => time_unit end in
  if existsb (String.eqb standard) STANDARD_TIMES then
    match f_factor (normal time_unit) with
    | None => Some PFails
    | Some f => Some (f_clock now f)
    end
  else None.                                (* base.py:362-368: other units, not modelled here *)
End Clk.
