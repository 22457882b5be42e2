(** Vocabulary for clock times. *)
From Coq Require Import Qround String Ascii.
From Verif Require Import Common UnitsModel.
Local Open Scope string_scope.
(** How many seconds a unit has. *)
Definition unit_seconds (tu : option string) : option Q :=
  match tu with
  | None => Some 3600
  | Some u => let l := lower u in
      if existsb (String.eqb l) ["s"; "second"; "seconds"] then Some 1
      else if existsb (String.eqb l) ["min"; "minute"; "minutes"] then Some 60
      else if existsb (String.eqb l) ["hr"; "hour"; "hours"] then Some 3600 else None
  end.
(** What is shown, in seconds. *)
Definition shown (p : pretty) : option Z := match p with PClock d h m s => Some (86400 * d + 3600 * h + 60 * m + s)%Z | _ => None end.
(** A time of day. *)
Definition of_day (p : pretty) : Prop := match p with PClock d h m s => (0 <= h < 24 /\ 0 <= m < 60 /\ 0 <= s < 60)%Z | _ => False end.
