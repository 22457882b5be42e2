(** Model of a running task: Task.run and _handle_interruption (task.py:425-554)
    with Routine._run and _run_cancel (routines.py:45-66).

    A task body is a generator: a function from the values it has received so
    far to what it does next.  A value is [None] or a number.  Routine bodies
    never receive a value (routines.py:49 always calls next), so they are
    functions of how often they were resumed; a routine yielding a process is
    [AOther], and the events its cancel() yields are a fixed list.  What the body's own code does to
    the actor between two yields is not part of the model: the surroundings
    ([W]) may change arbitrarily between steps ([IWorld]). *)
From Verif Require Import Common StateModel ActiveModel MimicModel KnowledgeModel EvModel.

Definition val := option nat.
(** What a generator does when resumed. *)
Inductive act := AYield (e : ev) | ARout (r : nat) | AReturn (v : val) | AOther.
Definition body := list val -> act.
Record routine := mkR {
  r_run : nat -> act;                  (* its k-th resumption *)
  r_cancel : list ev }.                (* the events of cancel(), in order *)

(** A generator on the stack: the task with the values it received, or a
    routine with the number of times it was resumed. *)
Inductive frame := FTask (got : list val) | FRout (r k : nat).
Inductive answer := REnd | RIgnore | RRestart | RNone | RWrong.
Inductive terr :=
| TType                                (* TypeError: value sent to a new generator *)
| TSim                                 (* SimulationError *)
| TCleanup                             (* raised while cleaning up after an interrupt *)
| TInterrupt.                          (* an interrupt nobody catches *)

Inductive phase :=
| PRun                                 (* about to resume the top generator *)
| PAgain (e : ev)                      (* back_from_interrupt: about to yield the same event *)
| PWait (e : ev)
| PCancel (todo : list (nat * list ev)) (restart : bool)
                                       (* inside _run_cancel: waiting for the first event listed *)
| PEnd | PFail (x : terr).

Record ctl := mkC { c_phase : phase; c_stack : list frame; c_ret : val }.

Inductive input (W : Type) :=
| ITick                                (* python runs on to the next yield or frame change *)
| IDone (v : val)                      (* the awaited event is processed, with this value *)
| IInterrupt (a : answer)              (* an interrupt; on_interrupt's answer *)
| IWorld (w : W).                      (* the surroundings change *)
Arguments ITick {W}. Arguments IDone {W}. Arguments IInterrupt {W}. Arguments IWorld {W}.

(** What is observable. *)
Inductive tout :=
| OResume (f : frame) (v : val)        (* the body is resumed with this value *)
| OYield (e : ev)                      (* as_event is called and the result waited for *)
| OSame (e : ev)                       (* the simpy event of before is waited for again *)
| OClean (e : ev)                      (* cleaned up, [e] being the awaited event *)
| OCancel (r : nat) (e : ev)           (* routine [r]'s cancellation waits for [e] *)
| OEnd | OFail (x : terr) | OIllegal.

Section Run.
Variable W : Type.
Variable armw : W -> ev -> W.                 (* as_event *)
Variable cleanup : W -> ev -> W * bool.       (* task.py:446-458; false: raised *)
Variable task : body.
Variable rts : nat -> routine.

Definition tinit : ctl := mkC PRun [FTask []] None.
Definition fail (c : ctl) (x : terr) : ctl := mkC (PFail x) (c_stack c) (c_ret c).

(** Resuming a generator that has not started with a value raises. *)
Definition fresh (f : frame) : bool :=
  match f with FTask [] => true | FTask _ => false | FRout _ k => Nat.eqb k 0 end.
(** The first resumption of a task passes no value to its body. *)
Definition resumed (f : frame) (v : val) : frame :=
  match f with FTask got => FTask (got ++ [v]) | FRout r k => FRout r (S k) end.
Definition act_of (f : frame) (v : val) : act :=
  match f with FTask got => task (got ++ [v]) | FRout r k => r_run (rts r) k end.

(** task.py:486-527, up to one change of the stack *)
Definition tick (c : ctl) (w : W) : ctl * W * list tout :=
  match c_phase c, c_stack c with
  | PRun, f :: st =>
      if fresh f && match c_ret c with Some _ => true | None => false end
      then (fail c TType, w, [OFail TType])
      else
        let st1 := resumed f (c_ret c) :: st in
        let o := OResume f (match f with FTask _ => c_ret c | FRout _ _ => None end) in
        match act_of f (c_ret c) with
        | AReturn v =>                                        (* 494-502 *)
            let ret := match v with Some _ => v | None => c_ret c end in
            match st with
            | [] => (mkC PEnd [] ret, w, [o; OEnd])
            | _ => (mkC PRun st ret, w, [o])
            end
        | ARout r =>                                          (* 504-509 *)
            match f with
            | FTask _ => (mkC PRun (FRout r 0 :: st1) (c_ret c), w, [o])
            | FRout _ _ => (mkC (PFail TSim) st1 (c_ret c), w, [o; OFail TSim])  (* routines.py:50 *)
            end
        | AYield e => (mkC (PWait e) st1 (c_ret c), armw w e, [o; OYield e])
        | AOther => (mkC (PFail TSim) st1 (c_ret c), w, [o; OFail TSim])
        end
  | PAgain e, _ => (mkC (PWait e) (c_stack c) (c_ret c), w, [OSame e])
  | _, _ => (c, w, [OIllegal])
  end.

(** The cancellations of the routines on the stack, innermost first (537-541). *)
Fixpoint cancels (st : list frame) : list (nat * list ev) :=
  match st with
  | [] => []
  | FTask _ :: st' => cancels st'
  | FRout r _ :: st' => (r, r_cancel (rts r)) :: cancels st'
  end.
(** Go on with the cancellations; what has no events left is over. *)
Fixpoint next_cancel (todo : list (nat * list ev)) (restart : bool) (w : W) : ctl * W * list tout :=
  match todo with
  | [] => if restart then (tinit, w, []) else (mkC PEnd [] None, w, [OEnd])
  | (_, []) :: todo' => next_cancel todo' restart w
  | (r, e :: l) :: todo' => (mkC (PCancel ((r, e :: l) :: todo') restart) [] None, armw w e, [OCancel r e])
  end.

(** task.py:528-554 *)
Definition interrupt (c : ctl) (w : W) (a : answer) : ctl * W * list tout :=
  match c_phase c with
  | PWait e =>
      match a with
      | RIgnore => (mkC (PAgain e) (c_stack c) (c_ret c), w, [])
      | RNone | RWrong => (fail c TSim, w, [OFail TSim])
      | REnd | RRestart =>
          let '(w1, ok) := cleanup w e in
          if ok then
            let '(c2, w2, o) := next_cancel (cancels (c_stack c))
                                  (match a with RRestart => true | _ => false end) w1 in
            (c2, w2, OClean e :: o)
          else (fail c TCleanup, w1, [OFail TCleanup])
      end
  | PCancel _ _ => (fail c TInterrupt, w, [OFail TInterrupt])
  | _ => (c, w, [OIllegal])
  end.

Definition tstep (c : ctl) (w : W) (i : input W) : ctl * W * list tout :=
  match i with
  | ITick => tick c w
  | IDone v =>
      match c_phase c with
      | PWait e => (mkC PRun (c_stack c) v, w, [])
      | PCancel ((r, _ :: l) :: todo) restart => next_cancel ((r, l) :: todo) restart w
      | _ => (c, w, [OIllegal])
      end
  | IInterrupt a => interrupt c w a
  | IWorld w' => (c, w', [])
  end.

Fixpoint trun (c : ctl) (w : W) (is : list (input W)) : ctl * W * list tout :=
  match is with
  | [] => (c, w, [])
  | i :: is' => let '(c1, w1, o1) := tstep c w i in
                let '(c2, w2, o2) := trun c1 w1 is' in (c2, w2, o1 ++ o2)
  end.
End Run.

(** ** The actor's side of the cleanup (task.py:446-458) *)
Section Actor.
Variable V : Type.
Variable typ : nat -> Z -> bool.

Record surroundings := mkSur {
  u_act : actor;                       (* the actor's active states *)
  u_mim : world;                       (* mimics, all actors *)
  u_know : list (key * kval V);        (* the actor's knowledge *)
  u_heap : heap }.                     (* events *)

(** task.py:449-453 *)
Definition is_event (e : nat) (v : kval V) : bool := match v with KEvent e' => Nat.eqb e' e | _ => false end.
Fixpoint forget (names : list key) (e : nat) (d : list (key * kval V)) : list (key * kval V) :=
  match names with
  | [] => d
  | n :: names' =>
      forget names' e (match kget n d with
                       | Some v => if is_event e v then fst (clear_know d n) else d
                       | None => d
                       end)
  end.

Definition clean (me t : nat) (u : surroundings) (e : ev) : surroundings * bool :=
  let '(a1, r1) := astep (u_act u) (ADeactivateAll t) in
  match r1 with
  | AOk =>
      let '(m1, r2) := mimic_off_all typ (u_mim u) me t in
      match r2 with
      | MOk =>
          let d1 := forget (map fst (u_know u)) (ev_id e) (u_know u) in
          let '(h1, ok) := cancel_top e (u_heap u) in
          (mkSur a1 m1 d1 h1, ok)
      | _ => (mkSur a1 m1 (u_know u) (u_heap u), false)
      end
  | _ => (mkSur a1 (u_mim u) (u_know u) (u_heap u), false)
  end.
Definition arm_sur (u : surroundings) (e : ev) : surroundings :=
  mkSur (u_act u) (u_mim u) (u_know u) (arm e (u_heap u)).
End Actor.
Arguments mkSur {V}. Arguments u_act {V}. Arguments u_mim {V}. Arguments u_know {V}. Arguments u_heap {V}.
Arguments forget {V}. Arguments clean {V}. Arguments arm_sur {V}. Arguments is_event {V}.
Arguments tick {W}. Arguments next_cancel {W}. Arguments interrupt {W}. Arguments tstep {W}. Arguments trun {W}.
