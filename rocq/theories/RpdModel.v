(** Running a task and rehearsing it, with floats: PredModel once more, on the same records and code, with every sum of times
    rounded by a function [rnd].  What the states of an actor do is left to a function [act]: whatever they compute, and
    however they round, run and rehearsal use the same code for it.  Comparisons are exact. *)
From Verif Require Import Common StateModel ActiveModel KnowledgeModel PredModel.
Section Rpd.
Variable rnd : Q -> Q.
Variable act : actor -> aop -> actor * aout.
(** As [exec] of PredModel, with [act] for the states (states.py:206-290, 480-506; actor.py:1072-1190). *)
Definition f_exec (w : world) (o : pstmt) : world * pout :=
  match o with
  | SA (ATime _) | SK (NProcessed _) => (w, OA AIllegal)
  | SA o => let '(a, r) := act (wd_actor w) o in (mkWd a (wd_kn w) (wd_heap w) (wd_seq w), OA r)
  | SK o => let '(k, r) := nstep (wd_kn w) o in (mkWd (wd_actor w) k (wd_heap w) (wd_seq w), OK r)
  end.
(** as_event, events.py:234-243; simpy adds the delay to the time. *)
Definition f_schedule (w : world) (i : nat) : world :=
  match nth_error (wd_heap w) i with
  | Some x => match w_fire x with
              | None => with_heap w (upd i (mkW (w_time x) (w_rtime x) (Some (rnd (now w + w_time x), wd_seq w)) (w_proc x) (w_reh x) (w_done x)) (wd_heap w)) (S (wd_seq w))
              | Some _ => w
              end
  | None => w
  end.
(** The process waits for the event and is resumed with its value, task.py:508-516; as [wait_for] of PredModel. *)
Definition f_wait_for (w : world) (e : pev) : world * pans :=
  let w1 := fold_left f_schedule (ids e) w in
  match e with
  | EOne i =>
      match fire_of w1 i with
      | None => (w1, ANone)
      | Some (f, n) =>
          if match nth_error (wd_heap w1) i with Some x => w_proc x | None => false end then (w1, ANone) else
          let t := later (now w1) f in
          (at_time t (with_heap w1 (map (due t (Some n)) (wd_heap w1)) (wd_seq w1)), ANone)
      end
  | EAny l | EAll l =>
      let any := match e with EAny _ => true | _ => false end in
      let fires := flat_map (fun i => match fire_of w1 i with Some (f, _) => [f] | None => [] end) l in
      let t := match best any fires with None => now w1 | Some f => later (now w1) f end in
      let w2 := at_time t (with_heap w1 (map (due t None) (wd_heap w1)) (wd_seq w1)) in
      (w2, ACond (filter (fun i => match nth_error (wd_heap w2) i with Some x => w_proc x | None => false end) l))
  end.
(** Task.run, task.py:466-548 *)
Fixpoint f_prun (p : prog) (w : world) : world * ending * list seen :=
  match p with
  | Ret => (w, Returned, [])
  | Fail => (w, Raised, [])
  | Do o k => let '(w1, r) := f_exec w o in let '(w2, e, l) := f_prun (k r) w1 in (w2, e, SaidAt (now w) o r :: l)
  | Now k => let '(w2, e, l) := f_prun (k (now w)) w in (w2, e, SawClock (now w) :: l)
  | New d r k => let '(w1, i) := new_wait w d r in let '(w2, e, l) := f_prun (k i) w1 in (w2, e, Made i :: l)
  | Done i k => let b := is_done w i in let '(w2, e, l) := f_prun (k b) w in (w2, e, Asked i b :: l)
  | Yield ev k => let '(w1, a) := f_wait_for w ev in let '(w2, e, l) := f_prun (k a) w1 in (w2, e, Yielded (now w) ev :: l)
  end.
(** Task.rehearse on an understudy, task.py:397-424: the time advance is added to the clock of the mocked environment. *)
Fixpoint f_rehearse_on (p : prog) (w : world) : world * ending * list seen :=
  match p with
  | Ret => (w, Returned, [])
  | Fail => (w, Raised, [])
  | Do o k => let '(w1, r) := f_exec w o in let '(w2, e, l) := f_rehearse_on (k r) w1 in (w2, e, SaidAt (now w) o r :: l)
  | Now k => let '(w2, e, l) := f_rehearse_on (k (now w)) w in (w2, e, SawClock (now w) :: l)
  | New d r k => let '(w1, i) := new_wait w d r in let '(w2, e, l) := f_rehearse_on (k i) w1 in (w2, e, Made i :: l)
  | Done i k => let b := is_done w i in let '(w2, e, l) := f_rehearse_on (k b) w in (w2, e, Asked i b :: l)
  | Yield ev k =>
      match rehearse_event (wd_heap w) ev with
      | (h, Some t) => let '(w2, e, l) := f_rehearse_on (k ANone) (at_time (rnd (now w + t)) (with_heap w h (wd_seq w))) in (w2, e, Yielded (now w) ev :: l)
      | (h, None) => (with_heap w h (wd_seq w), Raised, [Yielded (now w) ev])
      end
  end.
Definition f_rehearse (p : prog) (w : world) : option (world * ending * list seen) := option_map (f_rehearse_on p) (clone w).
(** Tasks one after the other, as in PredModel (task_network.py:115-138, 161-192). *)
Definition f_run_chain := chain f_prun.
Definition f_rehearse_chain (ps : list prog) (w : world) := option_map (chain f_rehearse_on ps) (clone w).
End Rpd.
