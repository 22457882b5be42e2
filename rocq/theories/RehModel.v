(** Model of rehearsing events and tasks: BaseEvent.rehearse (events.py:82-147),
    MultiEvent.rehearse (438-505) with Any and All (511, 743), Get.rehearse
    (616-632), ResourceHold (675-687), Event (798-804, 832-838, 865-872),
    Routine.rehearse (routines.py:67-86), WindowedGet.rehearse (167-178) and
    Task.rehearse (task.py:368-423).

    Events are numbered; a MultiEvent is a node of a tree with its own number. *)
From Verif Require Import Common ActiveModel.

Inductive rkind :=
| RPlain                    (* Wait, Put, Get from a container *)
| RGet                      (* Get from a store: answers with a planning factor *)
| REvt                      (* Event: is_complete ignores rehearsals *)
| RHold (released : bool)   (* ResourceHold; the stage is "release" *)
| RMultiK.
Record rnode := mkN {
  x_kind : rkind; x_time : Q;          (* rehearsal_time_to_complete *)
  x_reh : bool; x_done : bool;         (* _rehearsing, _done_rehearsing *)
  x_processed : bool }.                (* the simpy event's, false if there is none *)
Definition rheap := list rnode.
Inductive rt := RL (i : nat) | RM (i : nat) (any : bool) (subs : list rt).
Definition rid (e : rt) : nat := match e with RL i => i | RM i _ _ => i end.
Inductive rval := RNone | RPlan | RPlanList.
Inductive rerr := RSim | RValue.       (* SimulationError; ValueError of min/max *)

Definition on_node (i : nat) (f : rnode -> rnode) (h : rheap) : rheap :=
  match nth_error h i with Some x => upd i (f x) h | None => h end.
(** events.py:116-119 *)
Definition start1 (x : rnode) : rnode := mkN (x_kind x) (x_time x) true false (x_processed x).
(** events.py:121-131 *)
Definition finish1 (c : bool) (x : rnode) : rnode := mkN (x_kind x) (x_time x) (x_reh x) c (x_processed x).

(** events.py:472-483 *)
Fixpoint start (e : rt) (h : rheap) {struct e} : rheap :=
  match e with
  | RL i => on_node i start1 h
  | RM i _ subs =>
      (fix go (l : list rt) (h : rheap) : rheap :=
         match l with [] => h | e' :: l' => go l' (start e' h) end) subs (on_node i start1 h)
  end.

(** A python dict keyed by event. *)
Fixpoint dset (i : nat) (t : Q) (l : list (nat * Q)) : list (nat * Q) :=
  match l with
  | [] => [(i, t)]
  | (j, x) :: l' => if Nat.eqb j i then (j, t) :: l' else (j, x) :: dset i t l'
  end.
(** min and max (events.py:511-521, 743-753); ValueError when empty. *)
Definition better (any : bool) (t m : Q) : bool := if any then Qltb t m else Qltb m t.
Definition agg (any : bool) (l : list Q) : option Q :=
  match l with
  | [] => None
  | x :: xs => Some (fold_left (fun m t => if better any t m then t else m) xs x)
  end.

(** calculate_time_to_complete: events.py:64-70, 438-470, 675-687 *)
Definition calc_leaf (i : nat) (h : rheap) : rheap * (Q + rerr) :=
  match nth_error h i with
  | Some x => match x_kind x with
              | RHold false => (on_node i (fun x => mkN (RHold true) (x_time x) (x_reh x) (x_done x) (x_processed x)) h,
                                inl (x_time x))
              | RHold true => (h, inl 0)
              | RMultiK => (h, inr RSim)
              | _ => (h, inl (x_time x))
              end
  | None => (h, inr RSim)
  end.
Fixpoint calc (e : rt) (h : rheap) {struct e} : rheap * (Q + rerr) :=
  match e with
  | RL i => calc_leaf i h
  | RM i any subs =>
      (fix go (l : list rt) (h : rheap) (acc : list (nat * Q)) : rheap * (Q + rerr) :=
         match l with
         | [] => (h, match agg any (map snd acc) with Some t => inl t | None => inr RValue end)
         | e' :: l' => let '(h1, r) := calc e' h in
                       match r with
                       | inl t => go l' h1 (dset (rid e') t acc)
                       | inr x => (h1, inr x)
                       end
         end) subs h []
  end.
(** events.py:457-470: the times of the sub-events, in a dict *)
Fixpoint calc_subs (l : list rt) (h : rheap) (acc : list (nat * Q)) : rheap * (list (nat * Q) + rerr) :=
  match l with
  | [] => (h, inl acc)
  | e' :: l' => let '(h1, r) := calc e' h in
                match r with
                | inl t => calc_subs l' h1 (dset (rid e') t acc)
                | inr x => (h1, inr x)
                end
  end.
Fixpoint finish_subs (t : Q) (l : list (nat * Q)) (h : rheap) : rheap :=
  match l with
  | [] => h
  | (i, x) :: l' => finish_subs t l' (on_node i (finish1 (Qleb x t)) h)
  end.

(** events.py:133-147, 485-505, 616-632, 865-872 *)
Definition answer_of (h : rheap) (i : nat) : rval :=
  match nth_error h i with
  | Some x => match x_kind x with RGet | REvt => RPlan | _ => RNone end
  | None => RNone
  end.
Definition rehearse (e : rt) (h : rheap) : rheap * (Q * rval + rerr) :=
  let h0 := start e h in
  match e with
  | RL i => let '(h1, r) := calc e h0 in
            match r with
            | inl t => (on_node i (finish1 true) h1, inl (t, answer_of h1 i))
            | inr x => (h1, inr x)
            end
  | RM i any subs =>
      let '(h1, r) := calc_subs subs h0 [] in
      match r with
      | inr x => (h1, inr x)
      | inl times =>
          match agg any (map snd times) with
          | None => (h1, inr RValue)
          | Some t => (on_node i (finish1 true) (finish_subs t times h1), inl (t, RNone))
          end
      end
  end.

(** is_complete: events.py:82-92, 286-300, 832-838 *)
Definition is_complete (h : rheap) (i : nat) : bool :=
  match nth_error h i with
  | Some x => match x_kind x with
              | REvt => x_processed x
              | _ => if x_reh x then x_done x else x_processed x
              end
  | None => false
  end.

(** ** Tasks *)

(** A task body sees the clock and the value each time it is resumed. *)
Inductive ract := RYield (e : rt) | RRoutine (es : list rt) | RWindowed (e : rt) | RReturn | RBad.
Definition rbody := list (Q * rval) -> ract.
Inductive rphase := RRunning | RFinished | RFailed (x : rerr).
Record rrun := mkRR {
  rr_clock : Q;                        (* mocked_env.now *)
  rr_got : list (Q * rval);
  rr_heap : rheap;
  rr_phase : rphase }.
(** One event rehearsed: the clock that user code around it sees, the event,
    its time. *)
Definition rlog := list (Q * nat * Q).

(** routines.py:67-86; the routine's env is the simulation's: it sees [real] *)
Fixpoint rehearse_all (real : Q) (es : list rt) (h : rheap) (acc : Q) : rheap * (Q + rerr) * rlog :=
  match es with
  | [] => (h, inl acc, [])
  | e :: es' =>
      let '(h1, r) := rehearse e h in
      match r with
      | inl (t, _) => let '(h2, r2, l) := rehearse_all real es' h1 (acc + t) in (h2, r2, (real, rid e, t) :: l)
      | inr x => (h1, inr x, [])
      end
  end.

Section TaskRehearsal.
Variable task : rbody.
Variable real : Q.                     (* the simulation's clock *)

(** task.py:400-414, one turn of the loop; [v] is what the body is resumed with *)
Definition rstep (s : rrun) (v : rval) : rrun * rval * rlog :=
  match rr_phase s with
  | RRunning =>
      let got := rr_got s ++ [(rr_clock s, v)] in
      match task got with
      | RReturn => (mkRR (rr_clock s) got (rr_heap s) RFinished, RNone, [])
      | RBad => (mkRR (rr_clock s) got (rr_heap s) (RFailed RSim), RNone, [])
      | RYield e =>
          let '(h1, r) := rehearse e (rr_heap s) in
          match r with
          | inl (t, a) => (mkRR (rr_clock s + t) got h1 RRunning, a, [(rr_clock s, rid e, t)])
          | inr x => (mkRR (rr_clock s) got h1 (RFailed x), RNone, [])
          end
      | RRoutine es =>
          let '(h1, r, l) := rehearse_all real es (rr_heap s) 0 in
          match r with
          | inl t => (mkRR (rr_clock s + t) got h1 RRunning, RNone, l)
          | inr x => (mkRR (rr_clock s) got h1 (RFailed x), RNone, l)
          end
      | RWindowed e =>
          let '(h1, r) := rehearse e (rr_heap s) in
          match r with
          | inl (t, _) => (mkRR (rr_clock s + t) got h1 RRunning, RPlanList, [(rr_clock s, rid e, t)])
          | inr x => (mkRR (rr_clock s) got h1 (RFailed x), RNone, [])
          end
      end
  | _ => (s, RNone, [])
  end.
Fixpoint rruns (n : nat) (s : rrun) (v : rval) : rrun * rval * rlog :=
  match n with
  | O => (s, v, [])
  | S n' => let '(s1, v1, l1) := rstep s v in
            let '(s2, v2, l2) := rruns n' s1 v1 in (s2, v2, l1 ++ l2)
  end.
Definition rinit (now : Q) (h : rheap) : rrun := mkRR now [] h RRunning.
End TaskRehearsal.
