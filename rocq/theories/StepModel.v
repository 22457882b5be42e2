(** Model of motion/stepped_motion.py: SteppedMotionManager, and of the setting of a
    DetectabilityState (states.py:361-381).

    Entities are numbers; a sensor may be detectable too.  Where entities are, the radii
    and the detectability are part of the state and may be changed at any time, as actors
    do.  [dist] is straight_line_distance and [check] the optional detection_checker of a
    sensor.  The methods of sensors are recorded as outputs; that they raise or call the
    manager back is not modelled. *)
From Verif Require Import Common.

Section Step.
Variable L : Type.
Variable dist : L -> L -> Q.
Variable check : nat -> option (L -> bool).

Inductive out := Entered (s d : nat) | Exited (s d : nat) | KeyError.
(** [detect d]: None without a DetectabilityState.  [loop]: the running loop's count of
    empty steps and when its timeout is due; [pending]: calls of run() not begun. *)
Record st := mkSt {
  pos : nat -> L; radius : nat -> Q; detect : nat -> option bool;
  sensors : list nat; detectables : list nat; in_view : list (nat * nat);
  now : Q; is_running : bool; loop : option (nat * Q); pending : nat }.

Definition pair_eqb (a b : nat * nat) : bool := Nat.eqb (fst a) (fst b) && Nat.eqb (snd a) (snd b).
Definition seen (v : list (nat * nat)) (s d : nat) : bool := existsb (pair_eqb (s, d)) v.
Definition forget (v : list (nat * nat)) (s d : nat) : list (nat * nat) := filter (fun x => negb (pair_eqb (s, d) x)) v.
Definition memn (x : nat) (l : list nat) : bool := existsb (Nat.eqb x) l.

(** _update_awareness, stepped_motion.py:92-107 *)
Definition update (v : list (nat * nat)) (s d : nat) (visible : bool) : list (nat * nat) * list out :=
  if visible then
    if seen v s d then (v, []) else (v ++ [(s, d)], [Entered s d])
  else
    if seen v s d then (forget v s d, [Exited s d]) else (v, []).
(** _test_detect, stepped_motion.py:109-124 *)
Definition test_detect (x : st) (d : nat) : bool := match detect x d with None => true | Some b => b end.
(** _detect_dist, stepped_motion.py:126-144 *)
Definition detect_dist (x : st) (s d : nat) : bool :=
  match check s with Some f => f (pos x d) | None => Qleb (dist (pos x s) (pos x d)) (radius x s) end.
(** The loops of _run_detectable, stepped_motion.py:165-171 *)
Fixpoint look_targets (x : st) (s : nat) (ds : list nat) (v : list (nat * nat)) : list (nat * nat) * list out :=
  match ds with
  | [] => (v, [])
  | d :: ds' =>
      if Nat.eqb d s then look_targets x s ds' v else
      let (v1, o1) := update v s d (detect_dist x s d) in
      let (v2, o2) := look_targets x s ds' v1 in (v2, o1 ++ o2)
  end.
Fixpoint look (x : st) (ss ds : list nat) (v : list (nat * nat)) : list (nat * nat) * list out :=
  match ss with
  | [] => (v, [])
  | s :: ss' =>
      let (v1, o1) := look_targets x s ds v in
      let (v2, o2) := look x ss' ds v1 in (v2, o1 ++ o2)
  end.
Definition with_view (x : st) (v : list (nat * nat)) : st :=
  mkSt (pos x) (radius x) (detect x) (sensors x) (detectables x) v (now x) (is_running x) (loop x) (pending x).
(** _run_detectable, stepped_motion.py:146-171; [req]: one target, or all.  The location
    of an unknown target raises KeyError before anything is checked. *)
Definition run_detectable (x : st) (req : option nat) : st * list out :=
  let ds := filter (test_detect x) (match req with Some d => [d] | None => detectables x end) in
  if forallb (fun d => memn d (detectables x)) ds then
    let (v, o) := look x (sensors x) ds (in_view x) in (with_view x v, o)
  else (x, [KeyError]).
(** _mover_not_detectable, stepped_motion.py:285-290 *)
Definition not_detectable (x : st) (d : nat) : st * list out :=
  (with_view x (filter (fun sd => negb (Nat.eqb (snd sd) d)) (in_view x)),
   map (fun sd => Exited (fst sd) (snd sd)) (filter (fun sd => Nat.eqb (snd sd) d) (in_view x))).

Definition upd {A} (f : nat -> A) (k : nat) (v : A) : nat -> A := fun j => if Nat.eqb j k then v else f j.
Definition add (l : list nat) (k : nat) : list nat := if memn k l then l else l ++ [k].
Definition del (l : list nat) (k : nat) : list nat := filter (fun j => negb (Nat.eqb j k)) l.

Inductive op :=
| Move (k : nat) (p : L)              (* an entity's location becomes p *)
| SetRadius (k : nat) (r : Q)
| SetDetect (k : nat) (b : bool)      (* actor.detectable = b *)
| AddSensor (k : nat) | AddDetectable (k : nat)
| StartMover (k : nat) | StopMover (k : nat)
| Run                                 (* manager.run() *)
| Begin                               (* simpy starts the oldest process run() made *)
| Step (queue_empty : bool)           (* the timeout of the loop is processed *)
| StepOne (k : nat)                   (* the timeout of run_particular for k *)
| Time (t : Q).                       (* the clock moves on *)
Variable timestep : Q.
Variable max_empty : nat.
Definition step (x : st) (o : op) : st * list out :=
  match o with
  | Move k p => (mkSt (upd (pos x) k p) (radius x) (detect x) (sensors x) (detectables x) (in_view x) (now x) (is_running x) (loop x) (pending x), [])
  | SetRadius k r => (mkSt (pos x) (upd (radius x) k r) (detect x) (sensors x) (detectables x) (in_view x) (now x) (is_running x) (loop x) (pending x), [])
  | SetDetect k b => (* states.py:361-381: the value is stored first *)
      let x' := mkSt (pos x) (radius x) (upd (detect x) k (Some b)) (sensors x) (detectables x) (in_view x) (now x) (is_running x) (loop x) (pending x) in
      match detect x k with
      | None => (x, [])   (* it has no such state *)
      | Some _ => if b then run_detectable x' (Some k) else not_detectable x' k
      end
  | AddSensor k => (mkSt (pos x) (radius x) (detect x) (add (sensors x) k) (detectables x) (in_view x) (now x) (is_running x) (loop x) (pending x), [])
  | AddDetectable k => (mkSt (pos x) (radius x) (detect x) (sensors x) (add (detectables x) k) (in_view x) (now x) (is_running x) (loop x) (pending x), [])
  | StartMover k => (* stepped_motion.py:300-313 *)
      (mkSt (pos x) (radius x) (detect x) (sensors x) (add (detectables x) k) (in_view x) (now x) (is_running x) (loop x)
            (if is_running x then pending x else S (pending x)), [])
  | StopMover k => (* stepped_motion.py:315-320 *)
      (mkSt (pos x) (radius x) (detect x) (sensors x) (del (detectables x) k) (in_view x) (now x) (is_running x) (loop x) (pending x), [])
  | Run => (mkSt (pos x) (radius x) (detect x) (sensors x) (detectables x) (in_view x) (now x) (is_running x) (loop x) (S (pending x)), [])
  | Begin => (* stepped_motion.py:186-194 *)
      match pending x with
      | O => (x, [])
      | S p => if is_running x
               then (mkSt (pos x) (radius x) (detect x) (sensors x) (detectables x) (in_view x) (now x) (is_running x) (loop x) p, [])
               else (mkSt (pos x) (radius x) (detect x) (sensors x) (detectables x) (in_view x) (now x) true (Some (0%nat, now x + timestep)) p, [])
      end
  | Step queue_empty => (* stepped_motion.py:195-202 *)
      match loop x with
      | None => (x, [])
      | Some (n_empty, due) =>
          if Qeqb due (now x) then
            let (x', o) := run_detectable x None in
            let n' := if queue_empty then S n_empty else 0%nat in
            let loop' := if queue_empty && (max_empty <=? n')%nat then None else Some (n', now x + timestep) in
            (mkSt (pos x') (radius x') (detect x') (sensors x') (detectables x') (in_view x') (now x') (is_running x') loop' (pending x'), o)
          else (x, [])
      end
  | StepOne k => run_detectable x (Some k)
  | Time t => (mkSt (pos x) (radius x) (detect x) (sensors x) (detectables x) (in_view x)
                 (match loop x with
                  | Some (_, due) => if Qltb due t then now x else if Qltb (now x) t then t else now x
                  | None => if Qltb (now x) t then t else now x
                  end) (is_running x) (loop x) (pending x), [])
  end.
Fixpoint run (x : st) (ops : list op) : st * list out :=
  match ops with
  | [] => (x, [])
  | o :: ops' => let (x1, o1) := step x o in let (x2, o2) := run x1 ops' in (x2, o1 ++ o2)
  end.
Definition init (p : nat -> L) (r : nat -> Q) (d : nat -> option bool) : st :=
  mkSt p r d [] [] [] 0 false None 0.
End Step.
