(** Model of motion and detection with CartesianLocations whose heights may be in
    altitude units: CartesianLocationChangingState._setup, _get_index and _active
    (states.py:542-684) and cartesian_linear_intersection (cartesian_model.py:86-150).

    Locations, units and errors are those of LocModel, ray_intersection that of LinModel.
    LinModel itself takes all heights in distance units.  Numbers are real. *)
From Coq Require Import Reals List Bool String.
From Verif Require Import LocModel.
From Verif Require GeoModel PairModel LinModel.
Import ListNotations.
Open Scope bool_scope.
Open Scope R_scope.

(** What is returned or raised: an error of the locations (ZeroE: ZeroDivisionError), SimulationError or
    MotionAndDetectionError. *)
Inductive out (A : Type) := Gives (x : A) | Raises (e : exn) | Sim | Motion.
Arguments Gives {A}. Arguments Raises {A}. Arguments Sim {A}. Arguments Motion {A}.
Definition obind {A B} (x : result A) (f : A -> out B) : out B :=
  match x with Ret a => f a | Raise e => Raises e end.
Notation "'get' x := e 'in' k" := (obind e (fun x => k)) (at level 200, x name, right associativity).

(** ** Motion *)
(** The entries of path_data for one waypoint, states.py:553-571 *)
Record leg := mkLeg { g_time : R; g_start : cart; g_vector : GeoModel.vec }.
Definition div (a b : R) : result R := if LinModel.Rzero b then Raise ZeroE else Ret (a / b).
(** states.py:557-564.  (copy() of a location gives an equal one: LocModel.) *)
Fixpoint setup (st : stage) (speed : R) (current : cart) (waypoints : list cart) : out (list leg) :=
  match waypoints with
  | [] => Gives []
  | wypt :: ws =>
      get dist := cart_sub st wypt (Cart current) in
      get time := div dist speed in
      get a := as_array st wypt in
      get b := as_array st current in
      match setup st speed wypt ws with
      | Gives l => Gives (mkLeg time current (LinModel.vsub a b) :: l)
      | e => e
      end
  end.
(** _get_index, states.py:600-609 *)
Definition tolerance : R := / 10 ^ 12.
Fixpoint get_index (legs : list leg) (elapsed sum_t : R) : option (leg * R) :=
  match legs with
  | [] => None
  | l :: ls => let s := sum_t + g_time l in
               if LinModel.Rleb elapsed (s + tolerance) then Some (l, s - g_time l) else get_index ls elapsed s
  end.
(** _active once the path is set up, states.py:649-684; [value] is data["value"] *)
Definition active (st : stage) (legs : list leg) (value : cart) (elapsed : R) : out cart :=
  if GeoModel.Rltb elapsed 0 then Sim else
  if LinModel.Rzero elapsed then Gives value else
  match get_index legs elapsed 0 with
  | None => Sim
  | Some (l, wypt_start) =>
      let time_along := elapsed - wypt_start in
      get time_frac := div time_along (g_time l) in
      get a := as_array st (g_start l) in
      let '(x, y, z) := LinModel.vadd a (LinModel.vmul time_frac (g_vector l)) in
      Gives (mkCart x y z false)
  end.
(** A state that starts to move at some time and is read after [elapsed]. *)
Definition moving (st : stage) (speed : R) (value : cart) (waypoints : list cart) (elapsed : R) : out cart :=
  match setup st speed value waypoints with
  | Gives legs => active st legs value elapsed
  | Raises e => Raises e | Sim => Sim | Motion => Motion
  end.

(** ** Detection *)
(** (start.x, start.y, start.z), cartesian_model.py:112-113 and 124 *)
Definition tuple (c : cart) : LinModel.vec := (cx c, cy c, cz c).
(** CartesianLocation of three coordinates, cartesian_model.py:136 *)
Definition untuple (v : LinModel.vec) : cart := let '(x, y, z) := v in mkCart x y z false.
Definition of_pair {A} (r : PairModel.res A) : out A :=
  match r with
  | PairModel.Ok x => Gives x
  | PairModel.Err PairModel.DivisionErr => Raises ZeroE
  | PairModel.Err PairModel.MotionErr => Motion
  | PairModel.Err PairModel.SimulationErr => Sim
  end.
(** cartesian_linear_intersection, cartesian_model.py:86-150 *)
Definition detect (st : stage) (start finish : cart) (speed : R) (sensor : cart) (radius : R)
  : out (list (cart * R * PairModel.kind) * R) :=
  get path_dist := cart_sub st finish (Cart start) in
  get path_time := div path_dist speed in
  get dist_start := cart_sub st sensor (Cart start) in
  get dist_finish := cart_sub st sensor (Cart finish) in
  let start_inside := LinModel.Rleb dist_start radius in
  let finish_inside := LinModel.Rleb dist_finish radius in
  if start_inside && finish_inside then
    Gives ([(start, 0, PairModel.START_INSIDE); (finish, path_time, PairModel.END_INSIDE)], path_time)
  else
  match of_pair (LinModel.ray_intersection (tuple start) (tuple finish) (tuple sensor) (radius, radius, radius) speed) with
  | Gives found =>
      if forallb (fun f => negb (LinModel.Rleb (snd f) path_time)) found then Gives ([], -1) else
      let kept := filter (fun f => LinModel.Rleb (snd f) path_time) (LinModel.sort snd found) in
      let all := (if start_inside then [(start, 0)] else []) ++ map (fun f => (untuple (fst f), snd f)) kept ++
                 (if finish_inside then [(finish, path_time)] else []) in
      let type_start := if start_inside then PairModel.START_INSIDE else PairModel.ENTER in
      let type_end := if finish_inside then PairModel.END_INSIDE else PairModel.EXIT in
      match all with
      | [(p1, t1); (p2, t2)] => Gives ([(p1, t1, type_start); (p2, t2, type_end)], path_time)
      | _ => Motion
      end
  | Raises e => Raises e | Sim => Sim | Motion => Motion
  end.
