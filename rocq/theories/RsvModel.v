(** [ReserveContainer] (resources/reserve.py:17-129) with floats: ReserveModel once more, on the same records, with every sum and difference
    rounded by a function [rnd].  Comparisons are exact. *)
From Verif Require Import Common ReserveModel.
Section Rsv.
Variable rnd : Q -> Q.
Variable keyof : Z -> Z.
(** reserve.py:88-99; simpy adds the delay to the time. *)
Definition f_reserve (s : st) (r : Z) (q : Q) (ex : option Q) : st * out :=
  if Qltb (level s) q then (s, OReserved false)
  else match lookup keyof r (queued s) with
       | None =>
           let tm := match ex with
                     | Some d => if Qltb d 0 then timers s
                                 else add_timer (mkTimer (rnd (now s + d)) r (ser s)) (timers s)
                     | None => timers s
                     end in
           (mkSt (cap s) (now s) (rnd (level s - q)) (real_level s)
                 (queued s ++ [mkEntry r q (now s) (ser s)]) tm (S (ser s)),
            OReserved true)
       | Some _ => (s, OReserved false)
       end.
(** reserve.py:101-111 *)
Definition f_cancel (s : st) (r : Z) : st * (out * option entry) :=
  match lookup keyof r (queued s) with
  | None => (s, (OCancelled false, None))
  | Some e =>
      match identical r (queued s) with
      | [] => (s, (OValueError, None))
      | x :: _ =>
          (mkSt (cap s) (now s) (rnd (level s + e_qty e)) (real_level s)
                (remove keyof (e_req x) (queued s)) (timers s) (ser s),
           (OCancelled true, Some e))
      end
  end.
(** reserve.py:113-120 *)
Definition f_take (s : st) (r : Z) : st * out :=
  match lookup keyof r (queued s) with
  | None => (s, OValueError)
  | Some e =>
      (mkSt (cap s) (now s) (level s) (rnd (real_level s - e_qty e))
            (remove keyof r (queued s)) (timers s) (ser s),
       OTaken (e_qty e))
  end.
(** reserve.py:122-129 *)
Definition f_put (s : st) (a : Q) (ci : bool) : st * out :=
  let new := rnd (level s + a) in
  if exceeds new (cap s) && negb ci then (s, OValueError)
  else (mkSt (cap s) (now s) new (rnd (real_level s + a)) (queued s) (timers s) (ser s), OPut).
(** reserve.py:85-86 *)
Definition f_fire (s : st) : st * out :=
  match timers s with
  | [] => (s, OIllegal)
  | t :: ts =>
      let s1 := mkSt (cap s) (t_at t) (level s) (real_level s) (queued s) ts (ser s) in
      let '(s2, (_, rel)) := f_cancel s1 (t_req t) in
      (s2, OExpired t rel)
  end.
(** One call, and calls one after the other, as in ReserveModel. *)
Definition f_step (s : st) (o : op) : st * out :=
  match o with
  | Reserve r q ex => f_reserve s r q ex
  | Cancel r => let '(s', (o', _)) := f_cancel s r in (s', o')
  | Take r => f_take s r
  | Put a ci => f_put s a ci
  | Fire => f_fire s
  | Wait t => do_wait s t
  end.
Fixpoint f_run (s : st) (os : list op) : st * list (op * out) :=
  match os with
  | [] => (s, [])
  | o :: os' =>
      let '(s1, r) := f_step s o in
      let '(s2, tr) := f_run s1 os' in
      (s2, (o, r) :: tr)
  end.
End Rsv.
