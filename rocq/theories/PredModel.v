(** Model of running a task and of rehearsing it, side by side: Task.run (task.py:466-548, without interrupts and
    routines), Task.rehearse (368-424) with _clone_actor (350-366), for tasks whose events are Waits and Any and All of
    Waits (events.py:82-147, 149-258, 353-533, 743-765), and that use the actor's states (ActiveModel) and knowledge
    (KnowledgeModel).

    The code of a task is a tree: what it does next may depend on every answer it got.  Nobody else uses the actor or
    the Waits while the task runs.  Events of the knowledge are not processed here, which matters only to the answer to
    a second success ([granted] in PredSpec).  Times are rational; where simpy resumes a task at the latest of several equal times
    the first of them is taken here. *)
From Verif Require Import Common StateModel ActiveModel KnowledgeModel.

(** ** Code *)
Inductive pstmt := SA (o : aop) | SK (o : nop Z).
Inductive pout := OA (r : aout) | OK (r : nout Z).
(** What is yielded: a Wait, an Any or an All, by the numbers of the Waits *)
Inductive pev := EOne (i : nat) | EAny (l : list nat) | EAll (l : list nat).
Definition ids (e : pev) : list nat := match e with EOne i => [i] | EAny l => l | EAll l => l end.
(** What the yield gives back: None, or a ConditionValue with the events that are done *)
Inductive pans := ANone | ACond (l : list nat).
Inductive prog :=
| Ret                                                  (* the task returns *)
| Fail                                                 (* an error is not caught *)
| Do (o : pstmt) (k : pout -> prog)                    (* a statement; it may raise, which the code may catch *)
| Now (k : Q -> prog)                                  (* self.env.now *)
| New (d : Q) (r : option Q) (k : option nat -> prog)  (* Wait(d, rehearsal_time_to_complete=r); None: SimulationError *)
| Done (i : nat) (k : option bool -> prog)             (* is_complete(); None: UpstageError *)
| Yield (e : pev) (k : pans -> prog).

(** A Wait: the time, the rehearsal time, the simpy event's time and place in the queue, if it has been made, whether it
    is processed; _rehearsing and _done_rehearsing *)
Record wait := mkW { w_time : Q; w_rtime : Q; w_fire : option (Q * nat); w_proc : bool; w_reh : bool; w_done : bool }.
Record world := mkWd { wd_actor : actor; wd_kn : kst Z; wd_heap : list wait; wd_seq : nat }.
Definition with_heap (w : world) (h : list wait) (n : nat) : world := mkWd (wd_actor w) (wd_kn w) h n.
Definition at_time (t : Q) (w : world) : world := mkWd (mkA t (a_slots (wd_actor w)) (a_by_task (wd_actor w))) (wd_kn w) (wd_heap w) (wd_seq w).
Definition now (w : world) : Q := a_now (wd_actor w).

(** Statements; the clock is not the task's to set, and simpy processes the events *)
Definition exec (w : world) (o : pstmt) : world * pout :=
  match o with
  | SA (ATime _) | SK (NProcessed _) => (w, OA AIllegal)
  | SA o => let '(a, r) := astep (wd_actor w) o in (mkWd a (wd_kn w) (wd_heap w) (wd_seq w), OA r)
  | SK o => let '(k, r) := nstep (wd_kn w) o in (mkWd (wd_actor w) k (wd_heap w) (wd_seq w), OK r)
  end.
(** Wait.__init__, events.py:171-203 *)
Definition new_wait (w : world) (d : Q) (r : option Q) : world * option nat :=
  if Qltb d 0 then (w, None)
  else (with_heap w (wd_heap w ++ [mkW d (match r with None => d | Some x => x end) None false false false]) (wd_seq w),
        Some (List.length (wd_heap w))).
(** is_complete, events.py:82-92 *)
Definition is_done (w : world) (i : nat) : option bool :=
  match nth_error (wd_heap w) i with
  | Some x => if w_reh x then Some (w_done x) else match w_fire x with None => None | Some _ => Some (w_proc x) end
  | None => None
  end.

(** ** In the simulation *)
(** as_event, events.py:234-243, for each of the Waits (407-422) *)
Definition schedule (w : world) (i : nat) : world :=
  match nth_error (wd_heap w) i with
  | Some x => match w_fire x with
              | None => with_heap w (upd i (mkW (w_time x) (w_rtime x) (Some (now w + w_time x, wd_seq w)) (w_proc x) (w_reh x) (w_done x)) (wd_heap w)) (S (wd_seq w))
              | Some _ => w
              end
  | None => w
  end.
Definition fire_of (w : world) (i : nat) : option (Q * nat) :=
  match nth_error (wd_heap w) i with Some x => w_fire x | None => None end.
(** The first of the least, or of the greatest *)
Fixpoint pick (any : bool) (m : Q) (l : list Q) : Q :=
  match l with [] => m | x :: l' => pick any (if (if any then Qltb x m else Qltb m x) then x else m) l' end.
Definition best (any : bool) (l : list Q) : option Q := match l with [] => None | x :: l' => Some (pick any x l') end.
(** simpy processes what is due by [t] -- at [t] itself only up to the place [s], if given *)
Definition due (t : Q) (s : option nat) (x : wait) : wait :=
  match w_fire x with
  | Some (f, n) =>
      if Qltb f t || (Qeqb f t && match s with None => true | Some k => Nat.leb n k end)
      then mkW (w_time x) (w_rtime x) (w_fire x) true (w_reh x) (w_done x) else x
  | None => x
  end.
Definition later (a b : Q) : Q := if Qleb a b then b else a.
(** The process waits for the event and is resumed with its value, task.py:508-516 *)
Definition wait_for (w : world) (e : pev) : world * pans :=
  let w1 := fold_left schedule (ids e) w in
  match e with
  | EOne i =>
      match fire_of w1 i with
      | None => (w1, ANone)
      | Some (f, n) =>
          if match nth_error (wd_heap w1) i with Some x => w_proc x | None => false end then (w1, ANone) else
          let t := later (now w1) f in
          (at_time t (with_heap w1 (map (due t (Some n)) (wd_heap w1)) (wd_seq w1)), ANone)
      end
  | EAny l | EAll l =>
      let any := match e with EAny _ => true | _ => false end in
      let fires := flat_map (fun i => match fire_of w1 i with Some (f, _) => [f] | None => [] end) l in
      let t := match best any fires with None => now w1 | Some f => later (now w1) f end in
      let w2 := at_time t (with_heap w1 (map (due t None) (wd_heap w1)) (wd_seq w1)) in
      (w2, ACond (filter (fun i => match nth_error (wd_heap w2) i with Some x => w_proc x | None => false end) l))
  end.

(** What is seen of a task *)
Inductive seen :=
| SaidAt (t : Q) (o : pstmt) (r : pout) | SawClock (t : Q) | Made (i : option nat) | Asked (i : nat) (b : option bool) | Yielded (t : Q) (e : pev).
Inductive ending := Returned | Raised.
(** Task.run, task.py:466-548 *)
Fixpoint run (p : prog) (w : world) : world * ending * list seen :=
  match p with
  | Ret => (w, Returned, [])
  | Fail => (w, Raised, [])
  | Do o k => let '(w1, r) := exec w o in let '(w2, e, l) := run (k r) w1 in (w2, e, SaidAt (now w) o r :: l)
  | Now k => let '(w2, e, l) := run (k (now w)) w in (w2, e, SawClock (now w) :: l)
  | New d r k => let '(w1, i) := new_wait w d r in let '(w2, e, l) := run (k i) w1 in (w2, e, Made i :: l)
  | Done i k => let b := is_done w i in let '(w2, e, l) := run (k b) w in (w2, e, Asked i b :: l)
  | Yield ev k => let '(w1, a) := wait_for w ev in let '(w2, e, l) := run (k a) w1 in (w2, e, Yielded (now w) ev :: l)
  end.

(** ** In rehearsal *)
Definition on (i : nat) (f : wait -> wait) (h : list wait) : list wait :=
  match nth_error h i with Some x => upd i (f x) h | None => h end.
(** _start_rehearsal, _finish_rehearsal, events.py:116-131, 472-483 *)
Definition start1 (x : wait) : wait := mkW (w_time x) (w_rtime x) (w_fire x) (w_proc x) true false.
Definition finish1 (c : bool) (x : wait) : wait := mkW (w_time x) (w_rtime x) (w_fire x) (w_proc x) (w_reh x) c.
Definition rtime_of (h : list wait) (i : nat) : option Q := match nth_error h i with Some x => Some (w_rtime x) | None => None end.
Fixpoint nodups (l : list nat) : list nat :=
  match l with [] => [] | i :: l' => i :: filter (fun j => negb (Nat.eqb j i)) (nodups l') end.
(** rehearse: the time to add; None: ValueError of min and max.  events.py:133-147, 485-505; the times are in a dictionary *)
Definition rehearse_event (h : list wait) (e : pev) : list wait * option Q :=
  let h1 := fold_left (fun h i => on i start1 h) (ids e) h in
  match e with
  | EOne i => (on i (finish1 true) h1, rtime_of h1 i)
  | EAny l | EAll l =>
      let any := match e with EAny _ => true | _ => false end in
      let times := flat_map (fun i => match rtime_of h1 i with Some t => [(i, t)] | None => [] end) (nodups l) in
      match best any (map snd times) with
      | None => (h1, None)
      | Some t => (fold_left (fun h it => on (fst it) (finish1 (Qleb (snd it) t)) h) times h1, Some t)
      end
  end.
(** Task.rehearse on an understudy, task.py:397-424 *)
Fixpoint rehearse_on (p : prog) (w : world) : world * ending * list seen :=
  match p with
  | Ret => (w, Returned, [])
  | Fail => (w, Raised, [])
  | Do o k => let '(w1, r) := exec w o in let '(w2, e, l) := rehearse_on (k r) w1 in (w2, e, SaidAt (now w) o r :: l)
  | Now k => let '(w2, e, l) := rehearse_on (k (now w)) w in (w2, e, SawClock (now w) :: l)
  | New d r k => let '(w1, i) := new_wait w d r in let '(w2, e, l) := rehearse_on (k i) w1 in (w2, e, Made i :: l)
  | Done i k => let b := is_done w i in let '(w2, e, l) := rehearse_on (k b) w in (w2, e, Asked i b :: l)
  | Yield ev k =>
      match rehearse_event (wd_heap w) ev with
      | (h, Some t) => let '(w2, e, l) := rehearse_on (k ANone) (at_time (now w + t) (with_heap w h (wd_seq w))) in (w2, e, Yielded (now w) ev :: l)
      | (h, None) => (with_heap w h (wd_seq w), Raised, [Yielded (now w) ev])
      end
  end.
(** Actor.clone, actor.py:983-1040, as far as states and knowledge go: the states are read, the clone is new.  None: a
    state cannot be read.  (What reading does to the actor is not kept: ActiveModel.) *)
Fixpoint clone_slots (t : Q) (l : list sslot) : option (list sslot) :=
  match l with
  | [] => Some []
  | x :: l' => match read_slot t x with
               | (_, inl v) => option_map (cons (mkSlot (v_kind x) v None [])) (clone_slots t l')
               | (_, inr _) => None
               end
  end.
Definition clone (w : world) : option world :=
  match clone_slots (now w) (a_slots (wd_actor w)) with
  | Some l => Some (mkWd (mkA (now w) l []) (mkKn (n_dict (wd_kn w)) (n_events (wd_kn w)) true) (wd_heap w) (wd_seq w))
  | None => None
  end.
Definition rehearse (p : prog) (w : world) : option (world * ending * list seen) := option_map (rehearse_on p) (clone w).

(** Several tasks one after the other: the loop of a network (task_network.py:115-138) and rehearse_network (task_network.py:161-192) for
    tasks that may follow each other.  An error ends it. *)
Section Chain.
Variable one : prog -> world -> world * ending * list seen.
Fixpoint chain (ps : list prog) (w : world) : world * ending * list seen :=
  match ps with
  | [] => (w, Returned, [])
  | p :: ps' => let '(w1, e, l) := one p w in
                match e with
                | Raised => (w1, Raised, l)
                | Returned => let '(w2, e2, l2) := chain ps' w1 in (w2, e2, l ++ l2)
                end
  end.
End Chain.
Definition run_chain := chain run.
Definition rehearse_chain (ps : list prog) (w : world) := option_map (chain rehearse_on ps) (clone w).
