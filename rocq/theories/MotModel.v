(** Model of motion/motion.py: SensorMotionManager, with the part of simpy it uses.

    Movers and sensors are numbers.  Locations are of a type [L]; [intersection] is the
    intersection model given to the constructor: the times and kinds it returns (zipped,
    without the places, which only the debug log uses) and the time of the leg.  Location
    and radius of a sensor and the detectability of a mover are part of the state.  The
    methods of sensors are recorded as outputs; that they raise or call the manager back
    is not modelled, nor is the debug log. *)
From Verif Require Import Common.
From Verif Require Export PairModel.

Definition crossing := PairModel.crossing Q.
Definition process_pair := PairModel.process_pair Q Qplus 0.

Section Mot.
Variable L : Type.
Variable intersection : L -> L -> Q -> L -> Q -> res (list (Q * kind) * Q).

(** Where a _notify process is: not begun, waiting for the entry or the exit, ended. *)
Inductive status := PInit | PEnter (due : Q) | PExit (due : Q) | PDead.
Record proc := mkP { p_m : nat; p_s : nat; p_k1 : kind; p_t1 : Q; p_k2 : kind; p_t2 : Q; p_at : status }.
(** Urgent events: the start of a process, an interrupt of it. *)
Inductive urgent_ev := UInit (p : nat) | UInterrupt (p : nat).
Inductive out := Entered (s m : nat) | Exited (s m : nat) | Raised (e : err) | Crashed (e : err).
Record st := mkSt {
  now : Q; sensor_at : nat -> L * Q; detect : nat -> option bool;
  sensors : list nat; movers : list (nat * (Q * list L * Q)); events : list (nat * list nat);
  in_view : list (nat * nat);       (* (mover, sensor) *)
  procs : list proc; urgent : list urgent_ev }.

Fixpoint mget {X} (n : nat) (d : list (nat * X)) : option X :=
  match d with [] => None | (m, x) :: d' => if Nat.eqb m n then Some x else mget n d' end.
Fixpoint mset {X} (n : nat) (x : X) (d : list (nat * X)) : list (nat * X) :=
  match d with [] => [(n, x)] | (m, y) :: d' => if Nat.eqb m n then (m, x) :: d' else (m, y) :: mset n x d' end.
Definition mdel {X} (n : nat) (d : list (nat * X)) : list (nat * X) := filter (fun e => negb (Nat.eqb (fst e) n)) d.
Definition pair_eqb (a b : nat * nat) : bool := Nat.eqb (fst a) (fst b) && Nat.eqb (snd a) (snd b).
Definition viewed (v : list (nat * nat)) (m s : nat) : bool := existsb (pair_eqb (m, s)) v.
Definition unview (v : list (nat * nat)) (m s : nat) : list (nat * nat) := filter (fun x => negb (pair_eqb (m, s) x)) v.
Definition memn (x : nat) (l : list nat) : bool := existsb (Nat.eqb x) l.
Fixpoint put_at {X} (n : nat) (x : X) (l : list X) : list X :=
  match l, n with [], _ => [] | _ :: l', O => x :: l' | y :: l', S n' => y :: put_at n' x l' end.
Definition upd {A} (f : nat -> A) (k : nat) (v : A) : nat -> A := fun j => if Nat.eqb j k then v else f j.

(** _add_to_view, motion.py:257-271 *)
Definition add_to_view (v : list (nat * nat)) (m s : nat) : list (nat * nat) := if viewed v m s then v else v ++ [(m, s)].
Definition with_proc (x : st) (i : nat) (p : proc) (a : status) (v : list (nat * nat)) (u : list urgent_ev) : st :=
  mkSt (now x) (sensor_at x) (detect x) (sensors x) (movers x) (events x) v
       (put_at i (mkP (p_m p) (p_s p) (p_k1 p) (p_t1 p) (p_k2 p) (p_t2 p) a) (procs x)) u.
(** The second half of _notify, motion.py:342-350: where the process is then, and whether
    it raised. *)
Definition after_entry (x : st) (p : proc) : status * list out :=
  if kind_eqb (p_k2 p) EXIT then
    let wait := p_t2 p - now x in
    if Qleb wait 0 then (PDead, [Crashed MotionErr]) else (PExit (now x + wait), [])
  else (PDead, []).
(** _notify from its start, motion.py:325-340 *)
Definition begin_notify (x : st) (i : nat) (p : proc) (u : list urgent_ev) : st * list out :=
  let wait := p_t1 p - now x in
  if kind_eqb (p_k1 p) START_INSIDE || Qleb wait 0 then
    let was_in := viewed (in_view x) (p_m p) (p_s p) in
    let (a, o) := after_entry x p in
    (with_proc x i p a (add_to_view (in_view x) (p_m p) (p_s p)) u,
     (if was_in then [] else [Entered (p_s p) (p_m p)]) ++ o)
  else (with_proc x i p (PEnter (now x + wait)) (in_view x) u, []).
(** _notify after the timeout of the entry, motion.py:339-350, and of the exit,
    motion.py:355-357 with _remove_from_view, motion.py:273-284 *)
Definition notify_entry (x : st) (i : nat) (p : proc) : st * list out :=
  let (a, o) := after_entry x p in
  (with_proc x i p a (add_to_view (in_view x) (p_m p) (p_s p)) (urgent x), Entered (p_s p) (p_m p) :: o).
Definition notify_exit (x : st) (i : nat) (p : proc) : st * list out :=
  (with_proc x i p PDead (unview (in_view x) (p_m p) (p_s p)) (urgent x),
   Exited (p_s p) (p_m p) :: if viewed (in_view x) (p_m p) (p_s p) then [] else [Crashed MotionErr]).

(** _schedule, motion.py:359-411 *)
Definition schedule (x : st) (m s : nat) (e : crossing) : st :=
  let '((k1, t1), (k2, t2)) := e in
  if Qleb t1 (now x) && Qltb t2 (now x) then x else
  let i := List.length (procs x) in
  let old := match mget m (events x) with Some l => l | None => [] end in
  mkSt (now x) (sensor_at x) (detect x) (sensors x) (movers x) (mset m (old ++ [i]) (events x)) (in_view x)
       (procs x ++ [mkP m s k1 t1 k2 t2 PInit]) (urgent x ++ [UInit i]).
(** The body of the loops of _find_intersections, motion.py:430-434 *)
Definition find_one (x : st) (m s : nat) : st * option err :=
  match mget m (movers x) with
  | None => (x, None)   (* not reached: the mover is always known *)
  | Some (speed, ws, start) =>
      match process_pair L intersection speed ws start (sensor_at x s) with
      | Err e => (x, Some e)
      | Ok pairs => (fold_left (fun y e => schedule y m s e) pairs x, None)
      end
  end.
Fixpoint find_all (x : st) (l : list (nat * nat)) : st * option err :=
  match l with
  | [] => (x, None)
  | (m, s) :: l' =>
      match find_one x m s with
      | (x', Some e) => (x', Some e)
      | (x', None) => find_all x' l'
      end
  end.
Definition outcome (r : st * option err) : st * list out :=
  (fst r, match snd r with Some e => [Raised e] | None => [] end).

(** _start_mover, motion.py:436-466 *)
Definition start_mover (x : st) (m : nat) (speed : Q) (ws : list L) : st * list out :=
  match detect x m with
  | None => (x, [])
  | Some false =>
      (mkSt (now x) (sensor_at x) (detect x) (sensors x) (mset m (0, [], 0) (movers x)) (events x) (in_view x) (procs x) (urgent x), [])
  | Some true =>
      match mget m (movers x) with
      | Some _ => (x, [Raised MotionErr])
      | None =>
          let x' := mkSt (now x) (sensor_at x) (detect x) (sensors x) (mset m (speed, ws, now x) (movers x)) (events x) (in_view x) (procs x) (urgent x) in
          outcome (find_all x' (map (fun s => (m, s)) (sensors x)))
      end
  end.
Definition alive (x : st) (i : nat) : bool :=
  match nth_error (procs x) i with Some p => match p_at p with PDead => false | _ => true end | None => false end.
(** _stop_mover, motion.py:115-147 *)
Definition stop_mover (x : st) (m : nat) (from_not_detectable : bool) : st * list out :=
  match detect x m with
  | None => (x, [])
  | Some detectable =>
      match mget m (movers x) with
      | None =>
          if negb detectable then (x, [])
          else if negb from_not_detectable then (x, [Raised MotionErr]) else (x, [])
      | Some _ =>
          let l := match mget m (events x) with Some l => l | None => [] end in
          (mkSt (now x) (sensor_at x) (detect x) (sensors x) (mdel m (movers x)) (mdel m (events x)) (in_view x) (procs x)
                (urgent x ++ map UInterrupt (filter (alive x) l)), [])
      end
  end.
(** _mover_not_detectable, motion.py:149-167 *)
Definition not_detectable (x : st) (m : nat) : st * list out :=
  let x' := mkSt (now x) (sensor_at x) (detect x) (sensors x) (movers x) (events x)
                 (filter (fun ms => negb (Nat.eqb (fst ms) m)) (in_view x)) (procs x) (urgent x) in
  let (x'', o) := stop_mover x' m true in
  (x'', map (fun ms => Exited (snd ms) (fst ms)) (filter (fun ms => Nat.eqb (fst ms) m) (in_view x)) ++ o).
(** add_sensor, motion.py:492-493 *)
Definition add_sensor (x : st) (s : nat) : st * list out :=
  let ss := if memn s (sensors x) then sensors x else sensors x ++ [s] in
  let x' := mkSt (now x) (sensor_at x) (detect x) ss (movers x) (events x) (in_view x) (procs x) (urgent x) in
  outcome (find_all x' (map (fun m => (fst m, s)) (movers x))).

Definition due_at (p : proc) : option Q := match p_at p with PEnter d | PExit d => Some d | _ => None end.
Inductive op :=
| Start (m : nat) (speed : Q) (ws : list L)   (* a location state is activated *)
| Stop (m : nat)                              (* it is deactivated *)
| SetDetect (m : nat) (b : bool)              (* mover.detectable = b *)
| AddSensor (s : nat)
| SetSensor (s : nat) (a : L * Q)             (* its location or radius changes *)
| Urgent                                      (* simpy processes the next urgent event *)
| Fire (i : nat)                              (* the timeout process i waits for *)
| Time (t : Q).                               (* the clock moves on *)
Definition step (x : st) (o : op) : st * list out :=
  match o with
  | Start m speed ws => start_mover x m speed ws
  | Stop m => stop_mover x m false
  | SetDetect m b => (* states.py:361-381; becoming detectable only warns, motion.py:169-195 *)
      match detect x m with
      | None => (x, [])
      | Some _ =>
          let x' := mkSt (now x) (sensor_at x) (upd (detect x) m (Some b)) (sensors x) (movers x) (events x) (in_view x) (procs x) (urgent x) in
          if b then (x', []) else not_detectable x' m
      end
  | AddSensor s => add_sensor x s
  | SetSensor s a =>
      (mkSt (now x) (upd (sensor_at x) s a) (detect x) (sensors x) (movers x) (events x) (in_view x) (procs x) (urgent x), [])
  | Urgent =>
      match urgent x with
      | [] => (x, [])
      | UInit i :: u =>
          match nth_error (procs x) i with
          | None => (x, [])
          | Some p => begin_notify x i p u
          end
      | UInterrupt i :: u => (* ignored if the process has ended *)
          match nth_error (procs x) i with
          | None => (x, [])
          | Some p => (with_proc x i p PDead (in_view x) u, [])
          end
      end
  | Fire i =>
      match urgent x, nth_error (procs x) i with
      | [], Some p =>
          match p_at p with
          | PEnter d => if Qeqb d (now x) then notify_entry x i p else (x, [])
          | PExit d => if Qeqb d (now x) then notify_exit x i p else (x, [])
          | _ => (x, [])
          end
      | _, _ => (x, [])
      end
  | Time t =>
      match urgent x with
      | [] => if Qltb (now x) t && forallb (fun p => match due_at p with Some d => Qleb t d | None => true end) (procs x)
              then (mkSt t (sensor_at x) (detect x) (sensors x) (movers x) (events x) (in_view x) (procs x) (urgent x), [])
              else (x, [])
      | _ => (x, [])
      end
  end.
(** What happened, with the time of each. *)
Fixpoint run (x : st) (ops : list op) : st * list (Q * out) :=
  match ops with
  | [] => (x, [])
  | o :: ops' =>
      let (x1, o1) := step x o in
      let (x2, o2) := run x1 ops' in (x2, map (pair (now x)) o1 ++ o2)
  end.
Definition init (a : nat -> L * Q) (d : nat -> option bool) : st := mkSt 0 a d [] [] [] [] [] [].
End Mot.
