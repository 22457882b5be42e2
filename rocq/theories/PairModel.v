(** Model of the crossings of a path and a range, motion/motion.py:
    SensorMotionManager._process_mover_sensor_pair.

    Times are of a type [T] that can be added: the manager is modelled with rational
    times (MotModel.v), the intersection of straight lines and spheres with real ones
    (LinModel.v).  Locations are of a type [L]; [intersection] is the intersection model
    given to the constructor: the times and kinds it returns (zipped, without the places,
    which only the debug log uses) and the time of the leg. *)
From Coq Require Import List.
Import ListNotations.

Inductive kind := ENTER | EXIT | START_INSIDE | END_INSIDE.
Inductive err := MotionErr | SimulationErr | DivisionErr.
Inductive res (A : Type) := Ok (x : A) | Err (e : err).
Arguments Ok {A}. Arguments Err {A}.
Definition kind_eqb (a b : kind) : bool :=
  match a, b with ENTER, ENTER | EXIT, EXIT | START_INSIDE, START_INSIDE | END_INSIDE, END_INSIDE => true | _, _ => false end.
(** VALID, motion.py:23-28 *)
Definition valid (a b : kind) : bool :=
  match a, b with
  | ENTER, END_INSIDE | ENTER, EXIT | START_INSIDE, END_INSIDE | START_INSIDE, EXIT => true
  | _, _ => false
  end.

Section Pair.
Variable T : Type.
Variable add : T -> T -> T.
Variable zero : T.
Variable L : Type.
Variable intersection : L -> L -> T -> L -> T -> res (list (T * kind) * T).
(** The inner loop of _process_mover_sensor_pair, motion.py:233-246.  [data] is
    inter_data with the last entry first. *)
Fixpoint collect (base : T) (l : list (T * kind)) (data : list (kind * T)) : res (list (kind * T)) :=
  match l with
  | [] => Ok data
  | (t, typ) :: l' =>
      match data with
      | (END_INSIDE, _) :: data' => if kind_eqb typ START_INSIDE then collect base l' data' else Err SimulationErr
      | _ => collect base l' ((typ, add base t) :: data)
      end
  end.
(** The outer loop, motion.py:220-247 *)
Fixpoint legs (start : T) (speed : T) (loc : L) (radius : T) (a : L) (ws : list L) (elapsed : T) (data : list (kind * T)) : res (list (kind * T)) :=
  match ws with
  | [] => Ok data
  | b :: ws' =>
      match intersection a b speed loc radius with
      | Err e => Err e
      | Ok (l, path_time) =>
          match collect (add start elapsed) l data with
          | Err e => Err e
          | Ok data' => legs start speed loc radius b ws' (add elapsed path_time) data'
          end
      end
  end.
Definition crossing := ((kind * T) * (kind * T))%type.
(** motion.py:250-255 *)
Fixpoint pair_off (l : list (kind * T)) : res (list crossing) :=
  match l with
  | [] => Ok []
  | [_] => Err SimulationErr
  | a :: b :: l' =>
      match pair_off l' with
      | Err e => Err e
      | Ok r => if valid (fst a) (fst b) then Ok ((a, b) :: r) else Err SimulationErr
      end
  end.
(** _process_mover_sensor_pair, motion.py:199-255 *)
Definition process_pair (speed : T) (ws : list L) (start : T) (sensor : L * T) : res (list crossing) :=
  match ws with
  | [] => Ok []
  | a :: ws' =>
      match legs start speed (fst sensor) (snd sensor) a ws' zero [] with
      | Err e => Err e
      | Ok data => pair_off (rev data)
      end
  end.
End Pair.
