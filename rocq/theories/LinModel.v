(** Model of motion/cartesian_model.py and the functions of math_utils.py it uses.

    Numbers are Coq's real numbers: rounding is not modelled.  Comparisons use the
    decidability of the order of the reals, so the functions do not compute.  Division by
    zero is an error as in Python. *)
From Coq Require Import Reals List Bool.
From Verif Require Import PairModel.
Import ListNotations.
Open Scope bool_scope.
Open Scope R_scope.

(** Points and vectors, (x, y, z) *)
Definition vec := (R * R * R)%type.
Definition Rleb (a b : R) : bool := if Rle_dec a b then true else false.
Definition Rzero (a : R) : bool := if Req_EM_T a 0 then true else false.

(** _vector_subtract, _vector_add, _vector_dot, _vector_norm, math_utils.py:13-69 *)
Definition vsub (a b : vec) : vec := let '(ax, ay, az) := a in let '(bx, by_, bz) := b in (ax - bx, ay - by_, az - bz).
Definition vadd (a b : vec) : vec := let '(ax, ay, az) := a in let '(bx, by_, bz) := b in (ax + bx, ay + by_, az + bz).
Definition vdot (a b : vec) : R := let '(ax, ay, az) := a in let '(bx, by_, bz) := b in ax * bx + ay * by_ + az * bz.
Definition vnorm (a : vec) : R := let '(x, y, z) := a in sqrt (x ^ 2 + y ^ 2 + z ^ 2).
Definition vmul (t : R) (a : vec) : vec := let '(x, y, z) := a in (t * x, t * y, t * z).
(** _roots, math_utils.py:72-91 *)
Definition roots (a b c : R) : res (list R) :=
  let discriminant := b ^ 2 - 4 * a * c in
  if Rleb 0 discriminant then
    if Rzero (2 * a) then Err DivisionErr else
    Ok [(- b + sqrt discriminant) / (2 * a); (- b - sqrt discriminant) / (2 * a)]
  else Ok [].
(** _col_mat_mul, math_utils.py:94-112, with the matrix of cartesian_model.py:62-63: the
    inverses of the radii on the diagonal.  The zeros elsewhere add nothing. *)
Definition scale (a radii : vec) : vec :=
  let '(x, y, z) := a in let '(rx, ry, rz) := radii in (x * (1 / rx), y * (1 / ry), z * (1 / rz)).
(** sorted; Python's is stable as well *)
Fixpoint insert {X} (key : X -> R) (x : X) (l : list X) : list X :=
  match l with
  | [] => [x]
  | y :: l' => if Rleb (key x) (key y) then x :: l else y :: insert key x l'
  end.
Fixpoint sort {X} (key : X -> R) (l : list X) : list X :=
  match l with [] => [] | x :: l' => insert key x (sort key l') end.
(** ray_intersection, cartesian_model.py:26-83: the places and times; a single radius is
    given three times *)
Definition ray_intersection (start toward center radii : vec) (speed : R) : res (list (vec * R)) :=
  let '(rx, ry, rz) := radii in
  if Rzero rx || Rzero ry || Rzero rz then Err DivisionErr else
  let v := vsub toward start in
  let v1 := scale v radii in
  let vec1 := scale start radii in
  let vec2 := scale center radii in
  let P1 := vsub vec1 vec2 in
  let c := vnorm P1 ^ 2 - 1 in
  let b := 2 * vdot P1 v1 in
  let a := vnorm v1 ^ 2 in
  match roots a b c with
  | Err e => Err e
  | Ok rs =>
      let possible := filter (fun r => Rleb 0 r) rs in
      if Rzero speed && negb (match possible with [] => true | _ => false end) then Err DivisionErr else
      Ok (map (fun t => let loc := vadd start (vmul t v) in (loc, vnorm (vsub loc start) / speed)) (sort (fun t => t) possible))
  end.
(** CartesianLocation.__sub__, data_types.py:231-246 *)
Definition dist (a b : vec) : R := vnorm (vsub a b).
(** cartesian_linear_intersection, cartesian_model.py:86-150.  The kinds and places are
    zipped with the times; where there is no intersection the lists are empty and the
    kinds not used. *)
Definition cartesian (start finish : vec) (speed : R) (sensor_location : vec) (sensor_radius : R)
  : res (list (vec * R * kind) * R) :=
  if Rzero speed then Err DivisionErr else
  let path_time := dist finish start / speed in
  let start_inside := Rleb (dist sensor_location start) sensor_radius in
  let finish_inside := Rleb (dist sensor_location finish) sensor_radius in
  if start_inside && finish_inside then
    Ok ([(start, 0, START_INSIDE); (finish, path_time, END_INSIDE)], path_time)
  else
  match ray_intersection start finish sensor_location (sensor_radius, sensor_radius, sensor_radius) speed with
  | Err e => Err e
  | Ok found =>
      if forallb (fun f => negb (Rleb (snd f) path_time)) found then Ok ([], -1) else
      let kept := filter (fun f => Rleb (snd f) path_time) (sort snd found) in
      let all := (if start_inside then [(start, 0)] else []) ++ kept ++
                 (if finish_inside then [(finish, path_time)] else []) in
      let type_start := if start_inside then START_INSIDE else ENTER in
      let type_end := if finish_inside then END_INSIDE else EXIT in
      match all with
      | [(p1, t1); (p2, t2)] => Ok ([(p1, t1, type_start); (p2, t2, type_end)], path_time)
      | _ => Err MotionErr
      end
  end.
(** As SensorMotionManager.intersection, without the places *)
Definition intersection (start finish : vec) (speed : R) (center : vec) (radius : R) : res (list (R * kind) * R) :=
  match cartesian start finish speed center radius with
  | Err e => Err e
  | Ok (l, path_time) => Ok (map (fun x => (snd (fst x), snd x)) l, path_time)
  end.
(** _process_mover_sensor_pair with it, motion.py:199-255 *)
Definition predict (speed : R) (ws : list vec) (start : R) (sensor : vec * R) : res (list (crossing R)) :=
  process_pair R Rplus 0 vec intersection speed ws start sensor.
