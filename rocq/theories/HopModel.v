(** Model of many messages on their way through a RoutingTableCommsManager at once:
    communications/routing.py:92-125 (_do_transmit) with the table of [RouteModel], and
    communications/comms.py (run, _attempt).

    Like MailModel, and unlike CommsModel, which leaves the order of the events of an instant
    open, this model has simpy's queue: events are processed in the order of their times,
    urgent ones (Initialize) before others, otherwise in the order in which they were
    scheduled.  The code between two yields of a process is cut into small steps; while a
    process is in the middle of one nothing else happens.

    Actors are numbers, and messages are numbered as they are put (MailModel has their
    contents; here a message object is put once).  Every destination has a store, of unlimited
    capacity and in order.  run() is called once. *)
From Coq Require Import Qround.
From Verif Require Import Common RouteModel.
From Verif Require CommsModel.

(** retry_max_time, retry_rate, send_time, global_ignore: routing.py:36-45 *)
Record cfg := mkF { f_max : Q; f_rate : Q; f_send : Q; f_global : bool }.
Inductive ev :=
| EStart                                                        (* Initialize of run() *)
| EGot (k : nat)                                                (* run()'s get from the incoming store *)
| EInit (k : nat)                                               (* Initialize of _do_transmit *)
| ERetry (k cur hop : nat) (failed : list nat) (taken : Z)      (* comms.py:316 *)
| ESend (k cur hop : nat) (failed : list nat).                  (* routing.py:114 *)
(** Where the process that is running is: at the while of routing.py:97, or at that of
    comms.py:310 within _attempt *)
Inductive code := CSelect (k cur : nat) (failed : list nat) | CTest (k cur hop : nat) (failed : list nat) (taken : Z).
(** An event in simpy's queue: its time, and whether it is urgent *)
Record entry := mkE { e_time : Q; e_urgent : bool; e_ev : ev }.
Definition before (x y : entry) : bool :=
  Qltb (e_time x) (e_time y) || (Qeqb (e_time x) (e_time y) && e_urgent x && negb (e_urgent y)).
(** The next event, simpy's step(): the first of the foremost *)
Fixpoint pop (l : list entry) : option (entry * list entry) :=
  match l with
  | [] => None
  | x :: l' => match pop l' with
               | Some (y, r) => if before y x then Some (y, x :: r) else Some (x, l')
               | None => Some (x, [])
               end
  end.
(** Whether run() waits for a get, has one that was given something, or was not called *)
Inductive loop := LOff | LWait | LBusy.
Record st := mkT {
  t_now : Q; t_conf : CommsModel.conf; t_net : network;
  t_msgs : list (nat * nat);                 (* source and destination of the messages put *)
  t_in : list nat; t_loop : loop; t_queue : list entry; t_run : option code;
  t_box : nat -> list nat }.                 (* the store of every actor *)
(** What can be seen; CommsModel has the debug log of the manager *)
Inductive out :=
| APut (k source destination : nat) (t : Q)
| AStart (t : Q)
| ADrop (k : nat) (t : Q)                    (* "No message route available", routing.py:100 *)
| ADeliver (k source destination : nat) (t : Q).

Definition schedule (s : st) (t : Q) (urgent : bool) (e : ev) : st :=
  mkT (t_now s) (t_conf s) (t_net s) (t_msgs s) (t_in s) (t_loop s) (t_queue s ++ [mkE t urgent e]) (t_run s) (t_box s).
Definition with_in (s : st) (l : list nat) (lp : loop) : st :=
  mkT (t_now s) (t_conf s) (t_net s) (t_msgs s) l lp (t_queue s) (t_run s) (t_box s).
Definition with_run (s : st) (r : option code) : st :=
  mkT (t_now s) (t_conf s) (t_net s) (t_msgs s) (t_in s) (t_loop s) (t_queue s) r (t_box s).
(** simpy's Store.get by run(), comms.py:262, and Store.put *)
Definition in_get (s : st) : st :=
  match t_in s with
  | [] => with_in s [] LWait
  | k :: r => schedule (with_in s r LBusy) (t_now s) false (EGot k)
  end.
Definition in_put (s : st) (k : nat) : st :=
  let s1 := with_in s (t_in s ++ [k]) (t_loop s) in
  match t_loop s with LWait => in_get s1 | _ => s1 end.
(** routing.py:121-125: the message comes into the store *)
Definition deliver (s : st) (k source destination : nat) : st * list out :=
  (mkT (t_now s) (t_conf s) (t_net s) (t_msgs s) (t_in s) (t_loop s) (t_queue s) None
       (fun a => if Nat.eqb a destination then t_box s a ++ [k] else t_box s a),
   [ADeliver k source destination (t_now s)]).
(** comms.py:308 *)
Definition tries (f : cfg) : Z := Qceiling (f_max f / f_rate f).
(** routing.py:116-119: the nodes to avoid after a hop *)
Definition after_hop (f : cfg) (failed : list nat) : list nat := if f_global f then failed else [].
(** The process that runs goes on, routing.py:97-120 and comms.py:310-317 *)
Definition advance (f : cfg) (s : st) (c : code) : st * list out :=
  match c with
  | CSelect k cur failed =>
      match nth_error (t_msgs s) k with
      | None => (s, [])
      | Some (source, destination) =>
          if Nat.eqb cur destination then deliver s k source destination
          else match select_hop (t_net s) cur destination failed with
               | Some (Some hop) => (with_run s (Some (CTest k cur hop failed 0)), [])
               | Some None => (with_run s None, [ADrop k (t_now s)])
               | None => (s, [])            (* fuel: never, C38_total *)
               end
      end
  | CTest k cur hop failed taken =>
      if CommsModel.blocked (t_conf s) cur hop then
        if (taken =? tries f)%Z then (with_run s (Some (CSelect k cur (failed ++ [hop]))), [])
        else (with_run (schedule s (t_now s + f_rate f) false (ERetry k cur hop failed (taken + 1))) None, [])
      else if Qltb 0 (f_send f)
           then (with_run (schedule s (t_now s + f_send f) false (ESend k cur hop failed)) None, [])
           else (with_run s (Some (CSelect k hop (after_hop f failed))), [])
  end.
(** Processing one event *)
Definition process (f : cfg) (s : st) (e : ev) : st * list out :=
  match e with
  | EStart => (in_get s, [AStart (t_now s)])
  | EGot k => (in_get (schedule s (t_now s) true (EInit k)), [])          (* comms.py:261-264 *)
  | EInit k => (with_run s (match nth_error (t_msgs s) k with Some (source, _) => Some (CSelect k source []) | None => None end), [])  (* routing.py:95-96 *)
  | ERetry k cur hop failed taken => (with_run s (Some (CTest k cur hop failed taken)), [])
  | ESend k cur hop failed => (with_run s (Some (CSelect k hop (after_hop f failed))), [])
  end.

Inductive op :=
| UStep                                       (* the running process goes on, or the next event *)
| UTime (t : Q)                               (* an event of another process *)
| UConf (c : CommsModel.conf)                 (* somebody changes what is blocked *)
| UNet (net : network)                        (* the table now, after connect_nodes, or with its sets read in another order *)
| UPut (source destination : nat)
| URun.
Definition lets_pass (t : Q) (e : entry) : bool := Qleb t (e_time e).
Definition step (f : cfg) (s : st) (o : op) : st * list out :=
  match t_run s, o with
  | Some c, UStep => advance f s c
  | Some _, UNet net => (mkT (t_now s) (t_conf s) net (t_msgs s) (t_in s) (t_loop s) (t_queue s) (t_run s) (t_box s), [])
  | Some _, _ => (s, [])
  | None, UStep =>
      match pop (t_queue s) with
      | Some (x, r) => process f (mkT (e_time x) (t_conf s) (t_net s) (t_msgs s) (t_in s) (t_loop s) r None (t_box s)) (e_ev x)
      | None => (s, [])
      end
  | None, UTime t =>
      if Qleb (t_now s) t && forallb (lets_pass t) (t_queue s)
      then (mkT t (t_conf s) (t_net s) (t_msgs s) (t_in s) (t_loop s) (t_queue s) None (t_box s), [])
      else (s, [])
  | None, UConf c => (mkT (t_now s) c (t_net s) (t_msgs s) (t_in s) (t_loop s) (t_queue s) None (t_box s), [])
  | None, UNet net => (mkT (t_now s) (t_conf s) net (t_msgs s) (t_in s) (t_loop s) (t_queue s) None (t_box s), [])
  | None, UPut source destination =>
      let k := length (t_msgs s) in
      (in_put (mkT (t_now s) (t_conf s) (t_net s) (t_msgs s ++ [(source, destination)]) (t_in s) (t_loop s) (t_queue s) None (t_box s)) k,
       [APut k source destination (t_now s)])
  | None, URun => match t_loop s with
                  | LOff => (schedule (with_in s (t_in s) LBusy) (t_now s) true EStart, [])
                  | _ => (s, [])
                  end
  end.
Definition init (c : CommsModel.conf) (net : network) (t0 : Q) : st := mkT t0 c net [] [] LOff [] None (fun _ => []).
Fixpoint run (f : cfg) (s : st) (os : list op) : st * list out :=
  match os with
  | [] => (s, [])
  | o :: os' => let '(s1, l1) := step f s o in
                let '(s2, l2) := run f s1 os' in (s2, l1 ++ l2)
  end.
