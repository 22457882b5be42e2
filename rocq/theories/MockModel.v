(** Model of what a rehearsal does to the task object: Task.rehearse and _clone_actor
    (task.py:350-424), DecisionTask.rehearse (574-605), SettableEnv (base.py:455-480),
    MockEnvironment.mock (base.py:169-195), markers and the default on_interrupt
    (task.py:103-168), and the guard of activate_mimic_state (actor.py:481-483).

    A world has any number of task objects, actors and mock environments.  An environment is
    [None], the real one, or [Some i], the i-th mock; only its clock is modelled.  Of an
    actor its environment and one value are; [clonable] says whether actor.clone returns
    (it copies the value).  The code of a task is a [body] that uses the actor it is given;
    it does not catch exceptions. *)
From Verif Require Import Common.

(** InterruptStates, task.py:35-40 *)
Inductive action := END | IGNORE | RESTART.
(** task.py:103-112; base.py:460.  The marker and its time are set and cleared together. *)
Record task := mkT { k_env : option nat; k_reh : bool; k_marker : option (Z * Q); k_act : action }.
Record actor := mkA { a_env : option nat; a_val : Z }.
Record world := mkW { w_now : Q; w_mocks : list Q; w_tasks : list task; w_actors : list actor }.

Inductive step :=
| SWait (d : Q)              (* yield an event whose rehearsal takes d *)
| SNow                       (* read self.env.now *)
| SActorNow                  (* read actor.env.now *)
| SMark (m : Z) (a : action) (* self.set_marker(m, a) *)
| SClear                     (* self.clear_marker() *)
| SSet (v : Z)               (* set the actor's value *)
| SMimic                     (* actor.activate_mimic_state(...) called by the task *)
| SRaise.
(** [BSub dec cloned t who inner rest]: rehearse task t (a DecisionTask if [dec]), whose
    code is [inner], with actor number [who], then go on. *)
Inductive body := BEnd | BDo (s : step) (b : body) | BSub (dec cloned : bool) (t who : nat) (inner rest : body).
Inductive obs := ONow (t : nat) (x : Q) | OActorNow (u : nat) (x : Q) | OWaited (i : option nat) (d : Q)
| OMade (i : nat) (x : Q) | OMimic | OMimicErr | ORaised | OBadActor | OCloneErr | OReturned (u : nat) | OAction (a : action).

Definition upd {A} (i : nat) (x : A) (l : list A) : list A := if (i <? length l)%nat then firstn i l ++ x :: skipn (S i) l else l.
Definition no_task := mkT None false None END.
Definition no_actor := mkA None 0.
Definition task_of (w : world) (t : nat) : task := nth t (w_tasks w) no_task.
Definition actor_of (w : world) (u : nat) : actor := nth u (w_actors w) no_actor.
(** now of an environment *)
Definition now_of (w : world) (e : option nat) : Q := match e with None => w_now w | Some i => nth i (w_mocks w) 0 end.
Definition set_task (t : nat) (k : task) (w : world) : world := mkW (w_now w) (w_mocks w) (upd t k (w_tasks w)) (w_actors w).
Definition set_actor (u : nat) (a : actor) (w : world) : world := mkW (w_now w) (w_mocks w) (w_tasks w) (upd u a (w_actors w)).
(** SettableEnv's setter, base.py:474-480 *)
Definition with_env (k : task) (e : option nat) : task := mkT e (k_reh k) (k_marker k) (k_act k).
Definition with_reh (k : task) (b : bool) : task := mkT (k_env k) b (k_marker k) (k_act k).
Definition put_env (t : nat) (e : option nat) (w : world) : world := set_task t (with_env (task_of w t) e) w.
Definition put_reh (t : nat) (b : bool) (w : world) : world := set_task t (with_reh (task_of w t) b) w.
(** task.py:133-148 *)
Definition mark (t : nat) (m : Z) (a : action) (w : world) : world :=
  let k := task_of w t in set_task t (mkT (k_env k) (k_reh k) (Some (m, now_of w (k_env k))) a) w.
(** task.py:166-170 *)
Definition clear (t : nat) (w : world) : world :=
  let k := task_of w t in set_task t (mkT (k_env k) (k_reh k) None END) w.

Section Mock.
Variable clonable : Z -> bool.
(** One statement of the code of task [t] with actor [u]; [dec] if it is the code of a
    decision, which has nothing to wait for.  The last result: false if it raised. *)
Definition do_step (dec : bool) (t u : nat) (s : step) (w : world) : world * list obs * bool :=
  match s with
  | SWait d =>
      (* task.py:414-415 *)
      if dec then (w, [], true) else
      match a_env (actor_of w u) with
      | Some i => (mkW (w_now w) (upd i (nth i (w_mocks w) 0 + d) (w_mocks w)) (w_tasks w) (w_actors w), [OWaited (Some i) d], true)
      | None => (w, [], true)
      end
  | SNow => (w, [ONow t (now_of w (k_env (task_of w t)))], true)
  | SActorNow => (w, [OActorNow u (now_of w (a_env (actor_of w u)))], true)
  | SMark m a => (mark t m a w, [], true)
  | SClear => (clear t w, [], true)
  | SSet v => (set_actor u (mkA (a_env (actor_of w u)) v) w, [], true)
  | SMimic => if k_reh (task_of w t) then (w, [OMimicErr], false) else (w, [OMimic], true)
  | SRaise => (w, [ORaised], false)
  end.
(** _clone_actor, task.py:350-366: the task's environment is set before the actor is
    cloned.  [None]: clone raised. *)
Definition clone_actor (t who : nat) (w : world) : world * list obs * option nat :=
  let now := now_of w (k_env (task_of w t)) in
  let i := length (w_mocks w) in
  let w1 := put_env t (Some i) (mkW (w_now w) (w_mocks w ++ [now]) (w_tasks w) (w_actors w)) in
  let v := a_val (actor_of w who) in
  if clonable v
  then (mkW (w_now w1) (w_mocks w1) (w_tasks w1) (w_actors w1 ++ [mkA (Some i) v]), [OMade i now], Some (length (w_actors w)))
  else (w1, [OMade i now; OCloneErr], None).
(** The start of a rehearsal, task.py:386-397 and 592-600: the understudy, or None if it
    raised. *)
Definition begin (dec cloned : bool) (t who : nat) (w : world) : world * list obs * option nat :=
  let '(w1, o, u) := if cloned then (w, [], Some who) else clone_actor t who w in
  match u with
  | None => (w1, o, None)
  | Some u =>
      if negb dec && (match a_env (actor_of w1 u) with None => true | Some _ => false end)
      then (w1, o ++ [OBadActor], None)
      else (put_reh t true (put_env t (a_env (actor_of w1 u)) w1), o, Some u)
  end.
(** The code of a task in rehearsal; a nested rehearsal is begun, run and ended
    (task.py:422-424, 603-605). *)
Fixpoint run_body (dec : bool) (t u : nat) (b : body) (w : world) {struct b} : world * list obs * bool :=
  match b with
  | BEnd => (w, [], true)
  | BDo s b' =>
      let '(w1, o1, ok) := do_step dec t u s w in
      if ok then let '(w2, o2, ok2) := run_body dec t u b' w1 in (w2, o1 ++ o2, ok2) else (w1, o1, false)
  | BSub dec' cloned t' who inner rest =>
      let old := k_env (task_of w t') in
      let '(w1, o1, u') := begin dec' cloned t' who w in
      match u' with
      | None => (w1, o1, false)
      | Some u' =>
          let '(w2, o2, ok2) := run_body dec' t' u' inner w1 in
          if ok2 then
            let w3 := put_reh t' false (put_env t' old w2) in
            let '(w4, o4, ok4) := run_body dec t u rest w3 in
            (w4, o1 ++ o2 ++ OReturned u' :: o4, ok4)
          else (w2, o1 ++ o2, false)
      end
  end.
(** Task.rehearse (task.py:368-424) and DecisionTask.rehearse (574-605) *)
Definition rehearse (dec cloned : bool) (t who : nat) (b : body) (w : world) : world * list obs * bool :=
  run_body false t 0 (BSub dec cloned t who b BEnd) w.

(** What happens outside of rehearsals: the simulation goes on, rehearsals are asked for,
    the running task sets markers, is interrupted (the default on_interrupt,
    task.py:118-131), reads its clock, or activates a mimic state. *)
Inductive op := TAdvance (d : Q) | TRehearse (dec cloned : bool) (t who : nat) (b : body) | TMark (t : nat) (m : Z) (a : action)
| TClear (t : nat) | TNow (t : nat) | TMimic (t : nat) | TInterrupt (t : nat).
Definition do_op (o : op) (w : world) : world * list obs * bool :=
  match o with
  | TAdvance d => (mkW (if Qltb d 0 then w_now w else w_now w + d) (w_mocks w) (w_tasks w) (w_actors w), [], true)
  | TRehearse dec cloned t who b => rehearse dec cloned t who b w
  | TMark t m a => (mark t m a w, [], true)
  | TClear t => (clear t w, [], true)
  | TNow t => (w, [ONow t (now_of w (k_env (task_of w t)))], true)
  | TMimic t => if k_reh (task_of w t) then (w, [OMimicErr], true) else (w, [OMimic], true)
  | TInterrupt t => (w, [OAction (k_act (task_of w t))], true)
  end.
(** The flag: did every rehearsal return? *)
Fixpoint run (os : list op) (w : world) : world * list obs * bool :=
  match os with
  | [] => (w, [], true)
  | o :: os' =>
      let '(w1, o1, ok1) := do_op o w in
      let '(w2, o2, ok2) := run os' w1 in
      (w2, o1 ++ o2, ok1 && ok2)
  end.
(** A simulation's start: new tasks and actors. *)
Definition fresh (now : Q) (tasks : nat) (vals : list Z) : world :=
  mkW now [] (repeat no_task tasks) (map (mkA None) vals).
End Mock.
