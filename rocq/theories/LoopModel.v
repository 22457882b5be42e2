(** Model of a running task network together with its tasks: TaskNetwork.loop
    (task_network.py:94-138), _next_task_name (71-92), a task's marker and the
    default on_interrupt (task.py:103-168), interruptions (425-466, 528-554),
    DecisionTask.run and run_skip (607-629), TerminalTask (632-679) and
    Actor.get_running_task (actor.py:832-851).

    The code of a task is not modelled: what it does between two yields are
    single inputs ([LOp], then [LYield], [LReturn] or [LRaise]); the same
    operations are open to everybody else at any time.  Routines and the
    cleanup of states, knowledge and events after an interrupt are in Task;
    here the cleanup does not raise. *)
From Verif Require Import Common NetModel RehModel.

(** InterruptStates (task.py:35-40), None, and any other value, e.g. IGNORE|RESTART *)
Inductive iact := IEnd | IIgnore | IRestart | INone | IOther.
(** A plain task; a decision task with DO_NOT_HOLD = False and = True; a terminal task. *)
Inductive lkind := KPlain | KHold | KSkip | KTerm.
Record lnet := mkLN { ln_classes : list (string * lkind); ln_links : list (string * links) }.

(** A task instance (task.py:103-111) *)
Record inst := mkI { i_kind : lkind; i_mark : option string; i_time : option Q; i_act : iact }.
Inductive cause := DSim | DKey | DInterrupt | DUser | DAttr.
Inductive lphase :=
| LIdle                              (* the loop is not started *)
| LCode                              (* the task's own code is running *)
| LDeciding                          (* make_decision is running *)
| LWaiting (e : nat)                 (* the task's process waits for this event *)
| LHolding (due : Q)                 (* a decision task's process waits for its timeout *)
| LDead (x : cause).                 (* the loop's process has failed *)

Record lst := mkL {
  s_now : Q;
  s_queue : list string;             (* the actor's _task_queue of this network *)
  s_name : option string;            (* _current_task_name *)
  s_inst : option inst;              (* _current_task_inst *)
  s_proc : option nat;               (* _current_task_proc: processes are numbered *)
  s_made : nat;                      (* processes made so far *)
  s_phase : lphase }.

Inductive lop :=
| OpMark (m : string) (a : iact) | OpUnmark
| OpSetQueue (l : list string) | OpClearQueue
| OpMarker                           (* get_marker and get_marker_time *)
| OpRunning.                         (* get_running_task *)
Inductive linput :=
| LStart (init : option string)
| LOp (o : lop)
| LYield (e : nat) | LReturn | LRaise | LBadYield
| LDone (planning : bool)            (* the awaited event is processed; its value is the planning factor? *)
| LFail                              (* the awaited event fails: an exception in the process *)
| LInterrupt (own : option iact)     (* an interrupt; the answer of the class's own on_interrupt, if it has one *)
| LAdvance (t : Q).                  (* the clock goes to t *)

Inductive lout :=
| OBegin (n : string) (k : lkind)    (* a task instance is made *)
| OMade (p : nat)                    (* its process is made *)
| OOver (p : nat)                    (* its process ends *)
| OWait (e : nat) | OSame (e : nat)  (* waits for the event; waits on *)
| OAgain                             (* the body is started again *)
| ODecided                           (* make_decision returned *)
| OAnswer (a : iact)                 (* the default on_interrupt answers *)
| OOwn (a : iact)
| OMark (m : string) (a : iact) | OUnmark
| OMarkerIs (m : option string) (t : option Q)
| ORunningIs (r : option (option string * nat))
| OOk | OSimErr                      (* an operation returns, raises *)
| ODead (x : cause)
| OBad.                              (* cannot happen here *)

Definition with_phase (s : lst) (p : lphase) : lst :=
  mkL (s_now s) (s_queue s) (s_name s) (s_inst s) (s_proc s) (s_made s) p.
Definition with_q (s : lst) (q : list string) : lst :=
  mkL (s_now s) q (s_name s) (s_inst s) (s_proc s) (s_made s) (s_phase s).
Definition with_inst (s : lst) (i : inst) : lst :=
  mkL (s_now s) (s_queue s) (s_name s) (Some i) (s_proc s) (s_made s) (s_phase s).
Definition die (s : lst) (x : cause) : lst * list lout := (with_phase s (LDead x), [ODead x]).

(** actor.py:797-814 *)
Definition lbegin_queue (q : list string) (t : string) : option (list string) :=
  match q with
  | [] => Some []
  | x :: q' => if String.eqb x t then Some q' else None
  end.

Section Loop.
Variable d : lnet.

(** task_network.py:115-135: the loop's body up to the yield, or up to
    make_decision of a decision that does not hold.  A terminal task's process
    goes on to its event (task.py:665-677); [0] is that event. *)
Definition begin_task (s : lst) (t : string) : lst * list lout :=
  let s0 := mkL (s_now s) (s_queue s) (Some t) (s_inst s) (s_proc s) (s_made s) (s_phase s) in
  match lbegin_queue (s_queue s) t with
  | None => die s0 DSim
  | Some q =>
      match sget t (ln_classes d) with
      | None => die (with_q s0 q) DKey
      | Some k =>
          let i := mkI k None None IEnd in
          match k with
          | KSkip => (mkL (s_now s) q (Some t) (Some i) (s_proc s) (s_made s) LDeciding, [OBegin t k])
          | _ =>
              let p := s_made s in
              let s1 ph := mkL (s_now s) q (Some t) (Some i) (Some p) (S p) ph in
              match k with
              | KTerm => (s1 (LWaiting 0), [OBegin t k; OMade p; OWait 0])
              | KHold => (s1 LDeciding, [OBegin t k; OMade p])
              | _ => (s1 LCode, [OBegin t k; OMade p])
              end
          end
      end
  end.

(** task_network.py:137-138 and 71-92, then the loop again *)
Definition go_on (s : lst) : lst * list lout :=
  match s_name s with
  | None => die s DAttr
  | Some t =>
      match sget t (ln_links d) with
      | None => die s DKey
      | Some lk =>
          match s_queue s, l_default lk with
          | t' :: _, _ => begin_task s t'
          | [], Some t' => begin_task s t'
          | [], None => die s DSim
          end
      end
  end.
(** The task's process ends; the loop goes on. *)
Definition over (s : lst) : lst * list lout :=
  let '(s1, o) := go_on s in
  (s1, match s_proc s with Some p => [OOver p] | None => [] end ++ o).

(** task.py:131-168, actor.py:727-751, 832-851 *)
Definition do_op (s : lst) (o : lop) : lst * list lout :=
  match o with
  | OpMark m a =>
      match s_inst s with
      | Some i => (with_inst s (mkI (i_kind i) (Some m) (Some (s_now s)) a), [OMark m a])
      | None => (s, [OBad])
      end
  | OpUnmark =>
      match s_inst s with
      | Some i => (with_inst s (mkI (i_kind i) None None IEnd), [OUnmark])
      | None => (s, [OBad])
      end
  | OpMarker =>
      match s_inst s with
      | Some i => (s, [OMarkerIs (i_mark i) (i_time i)])
      | None => (s, [OBad])
      end
  | OpSetQueue l => match s_queue s with [] => (with_q s l, [OOk]) | _ => (s, [OSimErr]) end
  | OpClearQueue => (with_q s [], [OOk])
  | OpRunning => (s, [ORunningIs (match s_proc s with Some p => Some (s_name s, p) | None => None end)])
  end.

(** task.py:425-466 and 528-554 *)
Definition interrupted (s : lst) (e : nat) (i : inst) (own : option iact) : lst * list lout :=
  match i_kind i with
  | KTerm => die s DSim                                   (* task.py:654-665 *)
  | _ =>
      let a := match own with Some a => a | None => i_act i end in
      let o := match own with Some a => OOwn a | None => OAnswer a end in
      let '(s1, l) := match a with
                      | IEnd => over s
                      | IIgnore => (s, [OSame e])
                      | IRestart => (with_phase s LCode, [OAgain])
                      | INone | IOther => die s DSim
                      end in
      (s1, o :: l)
  end.

Definition lstep (s : lst) (x : linput) : lst * list lout :=
  match x with
  | LOp o => do_op s o
  | LStart init =>                                        (* task_network.py:106-113 *)
      match s_phase s with
      | LIdle => match s_queue s, init with
                 | t :: _, _ => begin_task s t
                 | [], Some t => begin_task s t
                 | [], None => die s DSim
                 end
      | _ => (s, [OBad])
      end
  | LYield e => match s_phase s with LCode => (with_phase s (LWaiting e), [OWait e]) | _ => (s, [OBad]) end
  | LBadYield => match s_phase s with LCode => die s DSim | _ => (s, [OBad]) end   (* task.py:519-520 *)
  | LRaise => match s_phase s with LCode | LDeciding => die s DUser | _ => (s, [OBad]) end
  | LReturn =>
      match s_phase s with
      | LCode => over s
      | LDeciding =>
          match s_inst s with
          | Some i => match i_kind i with
                      | KSkip => let '(s1, o) := go_on s in (s1, ODecided :: o)    (* task.py:620-629 *)
                      | _ => (with_phase s (LHolding (s_now s + 0)), [ODecided])   (* task.py:616-618 *)
                      end
          | None => (s, [OBad])
          end
      | _ => (s, [OBad])
      end
  | LDone planning =>
      match s_phase s, s_inst s with
      | LWaiting _, Some i =>
          match i_kind i with
          | KTerm => if planning then over s else die s DSim                       (* task.py:678-679 *)
          | _ => (with_phase s LCode, [])
          end
      | LHolding due, _ => if Qleb due (s_now s) then over s else (s, [OBad])
      | _, _ => (s, [OBad])
      end
  | LFail =>                                              (* task.py:524; a terminal task's Event does not fail *)
      match s_phase s, s_inst s with
      | LWaiting _, Some i => match i_kind i with KTerm => (s, [OBad]) | _ => die s DUser end
      | _, _ => (s, [OBad])
      end
  | LInterrupt own =>
      match s_phase s, s_inst s with
      | LWaiting e, Some i => interrupted s e i own
      | LHolding _, _ => die s DInterrupt                 (* task.py:607-618 has no handler *)
      | _, _ => (s, [OBad])
      end
  | LAdvance t =>
      if Qltb t (s_now s) then (s, [OBad])
      else match s_phase s with
           | LCode | LDeciding => (s, [OBad])             (* python code is running *)
           | LHolding due => if Qltb due t then (s, [OBad])
                             else (mkL t (s_queue s) (s_name s) (s_inst s) (s_proc s) (s_made s) (s_phase s), [])
           | _ => (mkL t (s_queue s) (s_name s) (s_inst s) (s_proc s) (s_made s) (s_phase s), [])
           end
  end.

(** What happened, with the clock. *)
Fixpoint lrun (s : lst) (xs : list linput) : lst * list (Q * lout) :=
  match xs with
  | [] => (s, [])
  | x :: xs' => let '(s1, o) := lstep s x in
                let '(s2, l) := lrun s1 xs' in (s2, map (fun y => (s_now s1, y)) o ++ l)
  end.
Definition linit (q : list string) : lst := mkL 0 q None None None 0 LIdle.
Definition ltrace (q : list string) (xs : list linput) : list (Q * lout) := snd (lrun (linit q) xs).
End Loop.

(** Rehearsing a terminal task (task.py:639, 665-679, by Task.rehearse): its
    body, and its one event.  1e24 is the float nearest to 10^24, here 10^24. *)
Definition terminal_body (got : list (Q * rval)) : ract :=
  match got with
  | [_] => RYield (RL 0)
  | [_; (_, RPlan)] => RReturn
  | _ => RBad                          (* raises SimulationError *)
  end.
Definition terminal_time : Q := inject_Z (10 ^ 24).
Definition terminal_heap : rheap := [mkN REvt terminal_time false false false].
