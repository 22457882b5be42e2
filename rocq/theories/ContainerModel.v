(** Model of [simpy.Container] as wrapped by [SelfMonitoringContainer]
    (resources/monitoring.py:168-218), driven by the UPSTAGE [Put] and [Get]
    requests (events.py:262-348,536-632), and of the recording added by
    [SelfMonitoringReserveContainer] (monitoring.py:277-337).

    The queue discipline of simpy 4.1.1's containers is part of the trusted base. *)
From Verif Require Import Common ReserveModel.

(** A triggered request waiting in the agenda. *)
Inductive cev := CEPut (r : nat) (a : Q) | CEGet (r : nat) (a : Q).

Inductive chap :=
| CIn (r : nat) (a : Q)          (* put granted: the level rises *)
| COut (r : nat) (a : Q)         (* get granted: the level falls *)
| CPutDone (r : nat) (a : Q)     (* the put event is processed *)
| CGot (r : nat) (a : Q)         (* the getter is resumed *)
| CLost (r : nat) (a : Q)        (* the get event is processed, its waiter gave up *)
| CCancelled (r : nat)
| CValueError                    (* amount <= 0 is refused when the request is made *)
| CIllegal.

Record cst := mkC {
  c_cap : option Q; c_now : Q; c_level : Q;
  c_putq : list (nat * Q); c_getq : list (nat * Q);
  c_agenda : list cev; c_gone : list nat; c_next : nat;
  c_quant : list (Q * Q) }.        (* _quantities, newest first *)

(** monitoring.py:191-193 *)
Definition cinit (cap : option Q) (lvl t0 : Q) : cst :=
  mkC cap t0 lvl [] [] [] [] 0 [(t0, lvl)].

(** monitoring.py:195-198 (and 309-314): skip a reading equal to the last. *)
Definition crecord (now lvl : Q) (quant : list (Q * Q)) : list (Q * Q) :=
  match quant with
  | (u, v) :: _ => if Qeqb now u && Qeqb lvl v then quant else (now, lvl) :: quant
  | [] => (now, lvl) :: quant
  end.

(** Container._do_put's test [capacity - level >= amount]. *)
Definition fits (cap : option Q) (lvl a : Q) : bool :=
  match cap with Some c => Qleb a (c - lvl) | None => true end.

(** [_trigger_put]: grant from the head while [_do_put] says True; each grant
    is recorded (monitoring.py:208-212). *)
Fixpoint cput_loop (cap : option Q) (now : Q) (q : list (nat * Q)) (lvl : Q) (quant : list (Q * Q))
  : list (nat * Q) * Q * list (nat * Q) * list (Q * Q) :=
  match q with
  | [] => ([], lvl, [], quant)
  | (r, a) :: q' =>
      if fits cap lvl a then
        let '(qq, l, gr, qn) := cput_loop cap now q' (lvl + a) (crecord now (lvl + a) quant) in
        (qq, l, (r, a) :: gr, qn)
      else (q, lvl, [], quant)
  end.

(** [_trigger_get], grants while [level >= amount] (monitoring.py:214-218). *)
Fixpoint cget_loop (now : Q) (q : list (nat * Q)) (lvl : Q) (quant : list (Q * Q))
  : list (nat * Q) * Q * list (nat * Q) * list (Q * Q) :=
  match q with
  | [] => ([], lvl, [], quant)
  | (r, a) :: q' =>
      if Qleb a lvl then
        let '(qq, l, gr, qn) := cget_loop now q' (lvl - a) (crecord now (lvl - a) quant) in
        (qq, l, (r, a) :: gr, qn)
      else (q, lvl, [], quant)
  end.

(** monitoring.py:200-206: the triggers, each followed by a recording. *)
Definition ctrig_put (s : cst) : cst * list chap :=
  let '(qq, l, gr, qn) := cput_loop (c_cap s) (c_now s) (c_putq s) (c_level s) (c_quant s) in
  (mkC (c_cap s) (c_now s) l qq (c_getq s)
       (c_agenda s ++ map (fun p => CEPut (fst p) (snd p)) gr) (c_gone s) (c_next s) (crecord (c_now s) l qn),
   map (fun p => CIn (fst p) (snd p)) gr).
Definition ctrig_get (s : cst) : cst * list chap :=
  let '(qq, l, gr, qn) := cget_loop (c_now s) (c_getq s) (c_level s) (c_quant s) in
  (mkC (c_cap s) (c_now s) l (c_putq s) qq
       (c_agenda s ++ map (fun p => CEGet (fst p) (snd p)) gr) (c_gone s) (c_next s) (crecord (c_now s) l qn),
   map (fun p => COut (fst p) (snd p)) gr).

Inductive cop := CPut (a : Q) | CGet (a : Q) | CCancel (r : nat) | CProcess | CTime (t : Q).

Definition cdrop (r : nat) (q : list (nat * Q)) : list (nat * Q) := filter (fun p => negb (Nat.eqb (fst p) r)) q.
Definition cis_get_of (r : nat) (e : cev) : bool := match e with CEGet n _ => Nat.eqb n r | CEPut _ _ => false end.

Definition cstep (s : cst) (o : cop) : cst * list chap :=
  match o with
  | CPut a =>
      if Qleb a 0 then (s, [CValueError])
      else ctrig_put (mkC (c_cap s) (c_now s) (c_level s) (c_putq s ++ [(c_next s, a)]) (c_getq s)
                          (c_agenda s) (c_gone s) (S (c_next s)) (c_quant s))
  | CGet a =>
      if Qleb a 0 then (s, [CValueError])
      else ctrig_get (mkC (c_cap s) (c_now s) (c_level s) (c_putq s) (c_getq s ++ [(c_next s, a)])
                          (c_agenda s) (c_gone s) (S (c_next s)) (c_quant s))
  | CCancel r =>
      let queued := existsb (fun p => Nat.eqb (fst p) r) (c_putq s) || existsb (fun p => Nat.eqb (fst p) r) (c_getq s) in
      (mkC (c_cap s) (c_now s) (c_level s) (cdrop r (c_putq s)) (cdrop r (c_getq s)) (c_agenda s)
           (if existsb (cis_get_of r) (c_agenda s) then r :: c_gone s else c_gone s) (c_next s) (c_quant s),
       if queued then [CCancelled r] else [])
  | CProcess =>
      match c_agenda s with
      | [] => (s, [CIllegal])
      | e :: ag =>
          let s1 := mkC (c_cap s) (c_now s) (c_level s) (c_putq s) (c_getq s) ag (c_gone s) (c_next s) (c_quant s) in
          match e with
          | CEPut r a => let '(s2, h) := ctrig_get s1 in (s2, h ++ [CPutDone r a])
          | CEGet r a => let '(s2, h) := ctrig_put s1 in
                         (s2, h ++ [if existsb (Nat.eqb r) (c_gone s) then CLost r a else CGot r a])
          end
      end
  | CTime t =>
      match c_agenda s with
      | [] => if Qleb (c_now s) t then
                (mkC (c_cap s) t (c_level s) (c_putq s) (c_getq s) (c_agenda s) (c_gone s) (c_next s) (c_quant s), [])
              else (s, [CIllegal])
      | _ => (s, [CIllegal])
      end
  end.

Fixpoint crun (s : cst) (os : list cop) : cst * list chap :=
  match os with
  | [] => (s, [])
  | o :: os' => let '(s1, h1) := cstep s o in
                let '(s2, h2) := crun s1 os' in (s2, h1 ++ h2)
  end.

(** ** SelfMonitoringReserveContainer (monitoring.py:305-337)

    [take] and [put] record [_real_level] after the base method returned; an
    exception in the base method propagates and nothing is recorded. *)
Definition rm_record (s : st) (quant : list (Q * Q)) : list (Q * Q) := crecord (now s) (real_level s) quant.

Section RM.
Variable keyof : Z -> Z.
Definition rm_step (sq : st * list (Q * Q)) (o : op) : (st * list (Q * Q)) * out :=
  let '(s', r) := step keyof (fst sq) o in
  let quant' := match o, r with
                | Take _, OTaken _ => rm_record s' (snd sq)
                | Put _ _, OPut => rm_record s' (snd sq)
                | _, _ => snd sq
                end in
  ((s', quant'), r).

Fixpoint rm_run (sq : st * list (Q * Q)) (os : list op) : st * list (Q * Q) :=
  match os with
  | [] => sq
  | o :: os' => rm_run (fst (rm_step sq o)) os'
  end.

Definition rm_init (lvl : Q) (cap : option Q) (t0 : Q) : st * list (Q * Q) :=
  (init lvl cap t0, [(t0, lvl)]).
End RM.
