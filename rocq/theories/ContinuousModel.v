(** Model of [ContinuousContainer] (resources/container.py) and of the recording
    of [SelfMonitoringContinuousContainer] (monitoring.py:221-264).

    The container's own processes (one per put/get, one per running limit
    check) and their interrupts are modelled explicitly.  SimPy processes urgent
    events (process starts and interrupts) first in, first out before anything
    else at the same instant; timeouts due at the same instant may be processed
    here in any order, a superset of what simpy does. *)
From Verif Require Import Common ContainerModel.

(** The [_run] process of a [_ContinuousEvent] (container.py:50-65). *)
Inductive ustat :=
| UInit (time : option Q)         (* created, not started; None: float("inf") *)
| UWait (due : option Q)          (* waiting for its timeout *)
| UEnd.
Record user := mkU { u_rate : Q; u_stat : ustat }.

(** A [_check] process (container.py:333-357). *)
Inductive ckstat := CkInit | CkWait (due : Q) | CkEnd.

Inductive cause := Stop | Limit.  (* "stop"; FULL_STATUS or EMPTY_STATUS *)
Inductive urg :=
| UStart (u : nat)                (* start of a user process *)
| CStart (p : nat)                (* start of a check process *)
| CInt (p : nat)                  (* interrupt "updated" of a check process *)
| UInt (u : nat) (c : cause).     (* interrupt of a user process *)

(** Why the simulation stopped. *)
Inductive reason :=
| REmpty | RFull                  (* ContainerEmptyError / ContainerFullError *)
| RBelow | RAbove                 (* ContainerError: level below 0, above capacity *)
| RNotActive                      (* ValueError of list.remove (container.py:388) *)
| RNegDelay                       (* timeout with a negative delay *)
| RDead                           (* interrupting a terminated process *)
| REarlyThrow.                    (* interrupt reaches a process before its start *)

Record kst := mkK {
  k_cap : Q; k_err_empty : bool; k_err_full : bool;
  k_now : Q; k_level : Q; k_rate : Q; k_last : Q;
  k_active : list nat;            (* _active_users *)
  k_checking : option nat;        (* _checking *)
  k_users : list user;            (* all user processes ever made *)
  k_checks : list ckstat;         (* all check processes ever made *)
  k_urgent : list urg;
  k_halt : option reason;
  k_quant : list (Q * Q) }.       (* _quantities, newest first *)

(** container.py:156-184, monitoring.py:250-252.  [init > capacity] is accepted. *)
Definition kinit (cap lvl : Q) (ee ef : bool) (t0 : Q) : option kst :=
  if Qltb lvl 0 || Qltb cap 0 then None
  else Some (mkK cap ee ef t0 lvl 0 t0 [] None [] [] [] None [(t0, lvl)]).

(** The [level] property (container.py:401-408). *)
Definition cur_level (s : kst) : Q := k_level s + k_rate s * (k_now s - k_last s).

Definition set_halt (s : kst) (r : reason) : kst :=
  mkK (k_cap s) (k_err_empty s) (k_err_full s) (k_now s) (k_level s) (k_rate s) (k_last s)
      (k_active s) (k_checking s) (k_users s) (k_checks s) (k_urgent s) (Some r) (k_quant s).
Definition push_urgent (s : kst) (l : list urg) : kst :=
  mkK (k_cap s) (k_err_empty s) (k_err_full s) (k_now s) (k_level s) (k_rate s) (k_last s)
      (k_active s) (k_checking s) (k_users s) (k_checks s) (k_urgent s ++ l) (k_halt s) (k_quant s).
Definition set_urgent (s : kst) (l : list urg) : kst :=
  mkK (k_cap s) (k_err_empty s) (k_err_full s) (k_now s) (k_level s) (k_rate s) (k_last s)
      (k_active s) (k_checking s) (k_users s) (k_checks s) l (k_halt s) (k_quant s).
Definition set_active (s : kst) (l : list nat) : kst :=
  mkK (k_cap s) (k_err_empty s) (k_err_full s) (k_now s) (k_level s) (k_rate s) (k_last s)
      l (k_checking s) (k_users s) (k_checks s) (k_urgent s) (k_halt s) (k_quant s).

Fixpoint upd {X} (l : list X) (n : nat) (x : X) : list X :=
  match l, n with
  | [], _ => []
  | _ :: l', O => x :: l'
  | y :: l', S n' => y :: upd l' n' x
  end.
Definition set_ustat (s : kst) (u : nat) (x : ustat) : kst :=
  mkK (k_cap s) (k_err_empty s) (k_err_full s) (k_now s) (k_level s) (k_rate s) (k_last s)
      (k_active s) (k_checking s)
      (match nth_error (k_users s) u with Some v => upd (k_users s) u (mkU (u_rate v) x) | None => k_users s end)
      (k_checks s) (k_urgent s) (k_halt s) (k_quant s).
Definition set_ckstat (s : kst) (p : nat) (x : ckstat) : kst :=
  mkK (k_cap s) (k_err_empty s) (k_err_full s) (k_now s) (k_level s) (k_rate s) (k_last s)
      (k_active s) (k_checking s) (k_users s) (upd (k_checks s) p x) (k_urgent s) (k_halt s) (k_quant s).

Definition rate_of (s : kst) (u : nat) : Q :=
  match nth_error (k_users s) u with Some v => u_rate v | None => 0 end.

(** container.py:288-298 with monitoring.py:254-264. *)
Definition set_level (s : kst) : kst :=
  let '(l, t) := if Qltb (k_last s) (k_now s)
                 then (k_level s + k_rate s * (k_now s - k_last s), k_now s)
                 else (k_level s, k_last s) in
  mkK (k_cap s) (k_err_empty s) (k_err_full s) (k_now s) l (k_rate s) t
      (k_active s) (k_checking s) (k_users s) (k_checks s) (k_urgent s) (k_halt s)
      (crecord (k_now s) l (k_quant s)).

(** container.py:361-362: interrupt the running check. *)
Definition interrupt_check (s : kst) : kst :=
  match k_checking s with
  | Some p => match nth_error (k_checks s) p with
              | Some CkEnd => set_halt s RDead
              | _ => push_urgent s [CInt p]
              end
  | None => s
  end.

(** container.py:364-370 *)
Definition change_rate (s : kst) (dr : Q) : kst :=
  let s1 := set_level s in
  let r := k_rate s1 + dr in
  if Qeqb r 0 then
    mkK (k_cap s1) (k_err_empty s1) (k_err_full s1) (k_now s1) (k_level s1) r (k_last s1)
        (k_active s1) None (k_users s1) (k_checks s1) (k_urgent s1) (k_halt s1) (k_quant s1)
  else
    mkK (k_cap s1) (k_err_empty s1) (k_err_full s1) (k_now s1) (k_level s1) r (k_last s1)
        (k_active s1) (Some (length (k_checks s1))) (k_users s1) (k_checks s1 ++ [CkInit])
        (k_urgent s1 ++ [CStart (length (k_checks s1))]) (k_halt s1) (k_quant s1).

Definition halted (s : kst) : bool := match k_halt s with Some _ => true | None => false end.

(** container.py:359-370 *)
Definition add_rate (s : kst) (dr : Q) (interrupt : bool) : kst :=
  let s1 := if interrupt then interrupt_check s else s in
  if halted s1 then s1 else change_rate s1 dr.

(** container.py:372-379 *)
Definition add_user (s : kst) (u : nat) : kst :=
  add_rate (set_active s (k_active s ++ [u])) (rate_of s u) true.

Fixpoint remove_nat (u : nat) (l : list nat) : list nat :=
  match l with [] => [] | x :: l' => if Nat.eqb x u then l' else x :: remove_nat u l' end.

(** container.py:381-389 *)
Definition remove_user (s : kst) (u : nat) : kst :=
  if existsb (Nat.eqb u) (k_active s)
  then add_rate (set_active s (remove_nat u (k_active s))) (- rate_of s u) true
  else set_halt s RNotActive.

(** container.py:271-286 *)
Definition active_puts (s : kst) : list nat := filter (fun u => Qltb 0 (rate_of s u)) (k_active s).
Definition active_gets (s : kst) : list nat := filter (fun u => Qltb (rate_of s u) 0) (k_active s).

Definition alive (s : kst) (u : nat) : bool :=
  match nth_error (k_users s) u with Some v => match u_stat v with UEnd => false | _ => true end | None => false end.

(** The loop of container.py:306-309 / 322-325: tell each, stop at a dead one. *)
Fixpoint tell (s : kst) (us : list nat) : kst :=
  match us with
  | [] => s
  | u :: us' => if alive s u then tell (push_urgent s [UInt u Limit]) us' else set_halt s RDead
  end.

(** container.py:300-331: returns the users to remove. *)
Definition check_empty (s : kst) : kst * list nat :=
  if Qltb 0 (k_level s) then (s, [])
  else
    let gets := active_gets s in
    let s1 := tell s gets in
    if halted s1 then (s1, [])
    else if Qeqb (k_level s) 0 && k_err_empty s then (set_halt s1 REmpty, [])
    else if Qltb (k_level s) 0 then (set_halt s1 RBelow, [])
    else (s1, gets).
Definition check_full (s : kst) : kst * list nat :=
  if Qltb (k_level s) (k_cap s) then (s, [])
  else
    let puts := active_puts s in
    let s1 := tell s puts in
    if halted s1 then (s1, [])
    else if Qeqb (k_level s) (k_cap s) && k_err_full s then (set_halt s1 RFull, [])
    else if Qltb (k_cap s) (k_level s) then (set_halt s1 RAbove, [])
    else (s1, puts).

(** The [finally] block of [_check] (container.py:346-357). *)
Definition check_finally (s : kst) : kst :=
  let s0 := set_level s in
  let '(s1, to_rem) := if Qltb (k_rate s0) 0 then check_empty s0
                       else if Qltb 0 (k_rate s0) then check_full s0
                       else (s0, []) in
  if halted s1 then s1
  else match to_rem with
       | [] => s1
       | _ => add_rate (set_active s1 (fold_left (fun l u => remove_nat u l) to_rem (k_active s1)))
                       (- Qsum (map (rate_of s1) to_rem)) false
       end.

(** Start of [_check] (container.py:334-342).  A negative delay is an error of simpy's timeout, raised once the [finally]
    block is done, unless that raises an error of its own. *)
Definition check_start (s : kst) (p : nat) : kst :=
  if Qeqb (k_rate s) 0 then set_ckstat s p CkEnd
  else
    let w := ((if Qltb 0 (k_rate s) then k_cap s else 0) - cur_level s) / k_rate s in
    if Qltb w 0 then let s1 := check_finally (set_ckstat s p CkEnd) in if halted s1 then s1 else set_halt s1 RNegDelay
    else set_ckstat s p (CkWait (k_now s + w)).

(** Start of [_run] (container.py:51-55). *)
Definition user_start (s : kst) (u : nat) : kst :=
  match nth_error (k_users s) u with
  | Some v =>
      match u_stat v with
      | UInit t =>
          let s1 := add_user s u in
          if halted s1 then s1
          else match t with
               | Some d => if Qltb d 0 then set_halt s1 RNegDelay
                           else set_ustat s1 u (UWait (Some (k_now s + d)))
               | None => set_ustat s1 u (UWait None)
               end
      | _ => s
      end
  | None => s
  end.

(** Processing of an urgent event. *)
Definition do_urgent (s : kst) (e : urg) : kst :=
  match e with
  | UStart u => user_start s u
  | CStart p => check_start s p
  | CInt p =>
      match nth_error (k_checks s) p with
      | Some (CkWait _) => check_finally (set_ckstat s p CkEnd)    (* container.py:343-357 *)
      | Some CkInit => set_halt s REarlyThrow
      | _ => s                                                     (* already terminated: ignored *)
      end
  | UInt u c =>
      match nth_error (k_users s) u with
      | Some v =>
          match u_stat v with
          | UWait _ =>
              match c with
              | Limit => set_ustat s u UEnd                        (* container.py:57-61 *)
              | Stop => remove_user (set_ustat s u UEnd) u         (* container.py:62-65 *)
              end
          | UInit _ => set_halt s REarlyThrow
          | UEnd => s
          end
      | None => s
      end
  end.

(** A timeout due now fires; [None] if it is not possible. *)
Definition fire_user (s : kst) (u : nat) : option kst :=
  match nth_error (k_users s) u with
  | Some v => match u_stat v with
              | UWait (Some d) => if Qeqb d (k_now s) then Some (remove_user (set_ustat s u UEnd) u) else None
              | _ => None
              end
  | None => None
  end.
Definition fire_check (s : kst) (p : nat) : option kst :=
  match nth_error (k_checks s) p with
  | Some (CkWait d) => if Qeqb d (k_now s) then Some (check_finally (set_ckstat s p CkEnd)) else None
  | _ => None
  end.

Definition not_before (t : Q) (s : kst) : bool :=
  forallb (fun v => match u_stat v with UWait (Some d) => Qleb t d | _ => true end) (k_users s) &&
  forallb (fun c => match c with CkWait d => Qleb t d | _ => true end) (k_checks s).

Inductive kop :=
| KPut (rate : Q) (time : option Q)      (* container.py:98-124 *)
| KGet (rate : Q) (time : option Q)      (* container.py:127-150 *)
| KCancel (u : nat)                      (* container.py:83-95 *)
| KTouch                                 (* any call of _set_level *)
| KUrgent                                (* the next urgent event is processed *)
| KFireUser (u : nat) | KFireCheck (p : nat)
| KAdvance (t : Q).

(** One step; [None] when the operation is refused (ValueError) or is not a
    possible behaviour of simpy: the state is then unchanged. *)
Definition kstep (s : kst) (o : kop) : option kst :=
  if halted s then None else
  match o with
  | KPut r t => if Qleb r 0 then None else
      Some (push_urgent (mkK (k_cap s) (k_err_empty s) (k_err_full s) (k_now s) (k_level s) (k_rate s) (k_last s)
              (k_active s) (k_checking s) (k_users s ++ [mkU r (UInit t)]) (k_checks s) (k_urgent s) (k_halt s) (k_quant s))
              [UStart (length (k_users s))])
  | KGet r t => if Qleb r 0 then None else
      Some (push_urgent (mkK (k_cap s) (k_err_empty s) (k_err_full s) (k_now s) (k_level s) (k_rate s) (k_last s)
              (k_active s) (k_checking s) (k_users s ++ [mkU (- r) (UInit t)]) (k_checks s) (k_urgent s) (k_halt s) (k_quant s))
              [UStart (length (k_users s))])
  | KCancel u => if alive s u then Some (push_urgent s [UInt u Stop]) else None
  | KTouch => Some (set_level s)
  | KUrgent => match k_urgent s with
               | e :: l => Some (do_urgent (set_urgent s l) e)
               | [] => None
               end
  | KFireUser u => match k_urgent s with [] => fire_user s u | _ => None end
  | KFireCheck p => match k_urgent s with [] => fire_check s p | _ => None end
  | KAdvance t =>
      match k_urgent s with
      | [] => if Qleb (k_now s) t && not_before t s then
                Some (mkK (k_cap s) (k_err_empty s) (k_err_full s) t (k_level s) (k_rate s) (k_last s)
                        (k_active s) (k_checking s) (k_users s) (k_checks s) (k_urgent s) (k_halt s) (k_quant s))
              else None
      | _ => None
      end
  end.

(** All states visited, newest first. *)
Fixpoint kruns (s : kst) (os : list kop) (past : list kst) : list kst :=
  match os with
  | [] => s :: past
  | o :: os' => match kstep s o with
                | Some s' => kruns s' os' (s :: past)
                | None => kruns s os' past
                end
  end.
Definition krun (s : kst) (os : list kop) : kst :=
  fold_left (fun s o => match kstep s o with Some s' => s' | None => s end) os s.

(** Prediction functions; [None] is float("inf") (container.py:207-241). *)
Definition time_until_level (s : kst) (lvl extra : Q) : option Q :=
  let r := extra + k_rate s in
  if Qeqb (cur_level s) lvl then Some 0
  else if Qeqb r 0 then None
  else let t := (lvl - k_level s) / r in if Qltb 0 t then Some t else None.
Definition time_until_done (s : kst) (extra : Q) : option Q :=
  let r := extra + k_rate s in
  if Qltb 0 r then Some ((k_cap s - cur_level s) / r)
  else if Qltb r 0 then Some ((- cur_level s) / r)
  else None.
