(** Model of [ReserveContainer] (resources/reserve.py:17-129). *)
From Verif Require Import Common.

Section Reserve.

(** A requester is a python object.  [Z] is its identity (python [id]); the
    dictionary [_queued] compares requesters by [==]/[hash], abstracted by
    [keyof]: two objects are equal iff they have the same key.  Identical
    objects are therefore equal. *)
Variable keyof : Z -> Z.

(** One entry of [_queued] (reserve.py:45,94): the requester object used as
    dictionary key, the reserved quantity and the reservation time.
    [e_ser] is a ghost serial number (how many reservations had been granted
    before); it is never read by the modelled code. *)
Record entry := mkEntry { e_req : Z; e_qty : Q; e_time : Q; e_ser : nat }.

(** A pending [_expire_request] process (reserve.py:74-86): wakes at [t_at].
    [t_ser] is the ghost serial of the reservation it was started for. *)
Record timer := mkTimer { t_at : Q; t_req : Z; t_ser : nat }.

(** Attributes set in [__init__] (reserve.py:41-45), the clock, the pending
    expiry processes in agenda order, and the ghost serial counter.
    [cap = None] stands for [float("inf")]. *)
Record st := mkSt {
  cap : option Q; now : Q; level : Q; real_level : Q;
  queued : list entry; timers : list timer; ser : nat }.

(** reserve.py:23-45 *)
Definition init (lvl : Q) (c : option Q) (t0 : Q) : st :=
  mkSt c t0 lvl lvl [] [] 0.

(** [requester in self._queued] / [self._queued[requester]]: lookup by key. *)
Definition lookup (r : Z) (q : list entry) : option entry :=
  find (fun e => Z.eqb (keyof (e_req e)) (keyof r)) q.

(** [self._queued.pop(requester)]: removal by key. *)
Definition remove (r : Z) (q : list entry) : list entry :=
  filter (fun e => negb (Z.eqb (keyof (e_req e)) (keyof r))) q.

(** [[x for x in self._queued if x is requester]] (reserve.py:106). *)
Definition identical (r : Z) (q : list entry) : list entry :=
  filter (fun e => Z.eqb (e_req e) r) q.

(** The timers in agenda order: by wake time, ties by creation order
    (simpy agenda, see DESIGN.md item 5). *)
Fixpoint add_timer (t : timer) (l : list timer) : list timer :=
  match l with
  | [] => [t]
  | x :: l' => if Qltb (t_at t) (t_at x) then t :: x :: l' else x :: add_timer t l'
  end.

Inductive out :=
| OReserved (granted : bool)      (* result of reserve *)
| OCancelled (done : bool)        (* result of cancel_request *)
| OValueError                     (* ValueError raised *)
| OTaken (amount : Q)             (* result of take *)
| OPut                            (* put succeeded *)
| OExpired (t : timer) (released : option entry)
                                  (* an expiry process ran *)
| OWaited                         (* the clock moved *)
| OIllegal.                       (* not a possible behaviour of simpy *)

(** reserve.py:88-99.  A negative [expiration] makes the expiry process die
    with ValueError when it starts, so it creates no timer. *)
Definition do_reserve (s : st) (r : Z) (q : Q) (ex : option Q) : st * out :=
  if Qltb (level s) q then (s, OReserved false)
  else match lookup r (queued s) with
       | None =>
           let tm := match ex with
                     | Some d => if Qltb d 0 then timers s
                                 else add_timer (mkTimer (now s + d) r (ser s)) (timers s)
                     | None => timers s
                     end in
           (mkSt (cap s) (now s) (level s - q) (real_level s)
                 (queued s ++ [mkEntry r q (now s) (ser s)]) tm (S (ser s)),
            OReserved true)
       | Some _ => (s, OReserved false)
       end.

(** reserve.py:101-111.  Note the identity test on line 106. *)
Definition do_cancel (s : st) (r : Z) : st * (out * option entry) :=
  match lookup r (queued s) with
  | None => (s, (OCancelled false, None))
  | Some e =>
      match identical r (queued s) with
      | [] => (s, (OValueError, None))
      | x :: _ =>
          (mkSt (cap s) (now s) (level s + e_qty e) (real_level s)
                (remove (e_req x) (queued s)) (timers s) (ser s),
           (OCancelled true, Some e))
      end
  end.

(** reserve.py:113-120 *)
Definition do_take (s : st) (r : Z) : st * out :=
  match lookup r (queued s) with
  | None => (s, OValueError)
  | Some e =>
      (mkSt (cap s) (now s) (level s) (real_level s - e_qty e)
            (remove r (queued s)) (timers s) (ser s),
       OTaken (e_qty e))
  end.

(** [new > self.capacity] (reserve.py:125) with [None] as infinity. *)
Definition exceeds (x : Q) (c : option Q) : bool :=
  match c with Some c => Qltb c x | None => false end.

(** reserve.py:122-129 *)
Definition do_put (s : st) (a : Q) (ci : bool) : st * out :=
  let new := level s + a in
  if exceeds new (cap s) && negb ci then (s, OValueError)
  else (mkSt (cap s) (now s) new (real_level s + a) (queued s) (timers s) (ser s), OPut).

(** The earliest expiry process wakes (reserve.py:85-86): the clock moves to
    its wake time and it calls [cancel_request].  A ValueError in there kills
    the process, leaving the container unchanged. *)
Definition do_fire (s : st) : st * out :=
  match timers s with
  | [] => (s, OIllegal)
  | t :: ts =>
      let s1 := mkSt (cap s) (t_at t) (level s) (real_level s) (queued s) ts (ser s) in
      let '(s2, (_, rel)) := do_cancel s1 (t_req t) in
      (s2, OExpired t rel)
  end.

(** The clock moves to [t]; simpy does not skip a pending wake time. *)
Definition do_wait (s : st) (t : Q) : st * out :=
  if Qltb t (now s) then (s, OIllegal)
  else match timers s with
       | x :: _ => if Qltb (t_at x) t then (s, OIllegal)
                   else (mkSt (cap s) t (level s) (real_level s) (queued s) (timers s) (ser s), OWaited)
       | [] => (mkSt (cap s) t (level s) (real_level s) (queued s) (timers s) (ser s), OWaited)
       end.

Inductive op :=
| Reserve (r : Z) (q : Q) (ex : option Q)
| Cancel (r : Z)
| Take (r : Z)
| Put (a : Q) (capacity_increase : bool)
| Fire
| Wait (t : Q).

Definition step (s : st) (o : op) : st * out :=
  match o with
  | Reserve r q ex => do_reserve s r q ex
  | Cancel r => let '(s', (o', _)) := do_cancel s r in (s', o')
  | Take r => do_take s r
  | Put a ci => do_put s a ci
  | Fire => do_fire s
  | Wait t => do_wait s t
  end.

(** A history: the operations with their observed results, oldest first. *)
Fixpoint run (s : st) (os : list op) : st * list (op * out) :=
  match os with
  | [] => (s, [])
  | o :: os' =>
      let '(s1, r) := step s o in
      let '(s2, tr) := run s1 os' in
      (s2, (o, r) :: tr)
  end.

End Reserve.
