(** Model of tasks that fail: exceptions raised by the body of a task or of a routine, and
    awaited events that fail, in Task.run (task.py:468-554), Routine._run and _run_cancel
    (routines.py:45-66).  The rest of a task's run is in TaskModel.

    An event fails if it is a simpy process that raises, a MultiEvent containing one, or a
    MultiEvent that somebody else cancels (events.py:424-436).  simpy throws the exception
    into the waiting generator, which is Task.run's and not the body's.  Exceptions are
    numbers, except simpy's Interrupt: a process that is interrupted and does not handle it
    fails with it, and Task.run takes it for an interrupt of its own.  Throwing it again is
    what simpy does with a process that yields an event which has failed before. *)
From Verif Require Import Common EvModel TaskModel.

Section Fail.
Variable W : Type.
Variable armw : W -> ev -> W.
Variable cleanup : W -> ev -> W * bool.
Variable task : body.
Variable rts : nat -> routine.
Variable raises : frame -> val -> option nat.   (* the exception, if resuming the frame raises one *)

Inductive fctl :=
| GOn (c : ctl)                        (* as in TaskModel *)
| GStuck (c : ctl) (e : ev)            (* the Interrupt with which [e] failed is thrown again *)
| GDead (x : nat) (st : list frame).   (* the process has failed; what was on its stack *)
Inductive finput :=
| FIn (i : input W)
| FFail (x : nat)                      (* the awaited event fails *)
| FFailInt (a : answer).               (* it fails with an Interrupt; on_interrupt's answer *)
Inductive fout := FOut (o : tout) | FRaised (x : nat).

Definition lift (r : ctl * W * list tout) : fctl * W * list fout :=
  let '(c, w, o) := r in (GOn c, w, map FOut o).
(** task.py:486-493: an exception other than StopIteration leaves run() *)
Definition ftick (c : ctl) (w : W) : fctl * W * list fout :=
  match c_phase c, c_stack c with
  | PRun, f :: st =>
      if fresh f && match c_ret c with Some _ => true | None => false end
      then lift (tick armw task rts c w)
      else match raises f (match f with FTask _ => c_ret c | FRout _ _ => None end) with
           | Some x => (GDead x st, w, [FOut (OResume f (match f with FTask _ => c_ret c | FRout _ _ => None end)); FRaised x])
           | None => lift (tick armw task rts c w)
           end
  | _, _ => lift (tick armw task rts c w)
  end.
Definition fstep (g : fctl) (w : W) (i : finput) : fctl * W * list fout :=
  match i, g with
  | FIn (IWorld w'), _ => (g, w', [])
  | FIn ITick, GOn c => ftick c w
  | FIn i, GOn c => lift (tstep armw cleanup task rts c w i)
  | FFail x, GOn c =>
      match c_phase c with
      | PWait _ => (GDead x (c_stack c), w, [FRaised x])      (* task.py:524, no handler *)
      | PCancel _ _ => (GDead x [], w, [FRaised x])           (* task.py:543, routines.py:64-66 *)
      | _ => (g, w, [FOut OIllegal])
      end
  | FFailInt a, GOn c =>
      match c_phase c, a with
      | PWait e, RIgnore => (GStuck c e, w, [FOut (OSame e)]) (* task.py:535-536, 522-524 *)
      | _, _ => lift (interrupt armw cleanup rts c w a)
      end
  | FFailInt a, GStuck c e =>
      match a with
      | RIgnore => (g, w, [FOut (OSame e)])
      | _ => lift (interrupt armw cleanup rts c w a)
      end
  | _, _ => (g, w, [FOut OIllegal])
  end.
Fixpoint frun (g : fctl) (w : W) (is : list finput) : fctl * W * list fout :=
  match is with
  | [] => (g, w, [])
  | i :: is' => let '(g1, w1, o1) := fstep g w i in
                let '(g2, w2, o2) := frun g1 w1 is' in (g2, w2, o1 ++ o2)
  end.
End Fail.
Arguments FIn {W}. Arguments FFail {W}. Arguments FFailInt {W}.
Arguments ftick {W}. Arguments fstep {W}. Arguments frun {W}. Arguments lift {W}.
