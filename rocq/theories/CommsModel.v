(** Model of the comms managers: communications/comms.py:92-141, 158-201, 247-373
    (CommsManagerBase, PointToPointCommsManager) and communications/routing.py:
    33-125 (RoutingCommsManagerBase with the table of [RouteModel]).

    A manager is a loop taking messages from its incoming store and one simpy
    process per message.  The processes share what is blocked, which others may
    change at any time, and the clock.  The code between two yields of a process
    is cut into small steps ([OGo]); while a process is in the middle of one
    nothing else happens.  The order of the events of one instant is left open.

    Actors and store names are numbers.  The destination store takes every put
    at once ("Capacities are assumed infinite"). *)
From Coq Require Import Qround.
From Verif Require Import Common RouteModel ActiveModel.

(** What is blocked: comms_degraded, blocked_nodes, blocked_links. *)
Record conf := mkC { cf_degraded : bool; cf_nodes : list nat; cf_links : list (nat * nat) }.
(** comms.py:266-272 *)
Definition link_compare (c : conf) (a b : nat) : bool :=
  if memb a (cf_nodes c) || memb b (cf_nodes c) then true
  else existsb (fun l => Nat.eqb a (fst l) && Nat.eqb b (snd l)) (cf_links c).
(** comms.py:310: the condition of the while loop *)
Definition blocked (c : conf) (a b : nat) : bool := cf_degraded c || link_compare c a b.

(** A manager. [g_net]: the routing table, [None] for point to point.
    [g_comm]: an actor's CommunicationStore states in order of definition, each
    with its modes; [g_connected]: the dictionary filled by connect(). *)
Record mgr := mkM {
  g_max : Q; g_rate : Q; g_send : Q;
  g_global : bool;
  g_net : option network;
  g_mode : nat;
  g_connected : list (nat * nat);
  g_comm : nat -> list (nat * list nat) }.
(** comms.py:158-165: connect() *)
Fixpoint dict_set (d : list (nat * nat)) (k v : nat) : list (nat * nat) :=
  match d with
  | [] => [(k, v)]
  | (k', v') :: d' => if Nat.eqb k' k then (k, v) :: d' else (k', v') :: dict_set d' k v
  end.
Fixpoint dict_get (d : list (nat * nat)) (k : nat) : option nat :=
  match d with
  | [] => None
  | (k', v) :: d' => if Nat.eqb k' k then Some v else dict_get d' k
  end.
(** comms.py:167-176: _get_state *)
Fixpoint get_state (mode : nat) (l : list (nat * list nat)) : option nat :=
  match l with
  | [] => None
  | (name, modes) :: l' => if memb mode modes then Some name else get_state mode l'
  end.
(** comms.py:178-201: store_from_actor; [None] is the SimulationError *)
Definition store_from_actor (g : mgr) (a : nat) : option nat :=
  match dict_get (g_connected g) a with
  | Some s => Some s
  | None => get_state (g_mode g) (g_comm g a)
  end.
(** comms.py:308 *)
Definition tries (g : mgr) : Z := Qceiling (g_max g / g_rate g).

Inductive phase :=
| TNew                                                              (* the process has not run yet *)
| TSelect (cur : nat) (failed : list nat)                           (* routing.py:100 *)
| TCheck (cur hop : nat) (failed : list nat) (taken : Z)            (* comms.py:310 *)
| TRetry (cur hop : nat) (failed : list nat) (taken : Z) (due : Q)  (* comms.py:316 *)
| TSend (cur hop : nat) (failed : list nat) (due : Q)               (* comms.py:366, routing.py:114 *)
| TMoved (cur hop : nat) (failed : list nat)                        (* after the send time *)
| TArrive                                                           (* comms.py:371, routing.py:123 *)
| TDone | TDropped | TRaised.
(** What can be seen: the tests of the link, the entries of the debug log, the put. *)
Inductive out :=
| OCheck (cur hop : nat) (b : bool)
| OStop (cur hop : nat) | ONoRoute (cur : nat) | OMoved (cur hop : nat) | OReached (cur : nat) | OSent
| OPut (dest store : nat) | OError.
Record proc := mkP { p_from : nat; p_to : nat; p_start : Q; p_phase : phase }.
Record mst := mkMS { ms_conf : conf; ms_now : Q; ms_running : bool; ms_in : list (nat * nat); ms_procs : list proc }.

Definition active (ph : phase) : bool :=
  match ph with TSelect _ _ | TCheck _ _ _ _ | TMoved _ _ _ | TArrive => true | _ => false end.
(** One small step of a process that is active, or is resumed. [None]: it cannot move. *)
Definition go (g : mgr) (c : conf) (now : Q) (p : proc) : option (phase * list out) :=
  match p_phase p with
  | TNew => Some (match g_net g with
                  | None => TCheck (p_from p) (p_to p) [] 0
                  | Some _ => TSelect (p_from p) []
                  end, [])
  | TSelect cur failed =>
      if Nat.eqb cur (p_to p) then Some (TArrive, [OReached cur])
      else match g_net g with
           | None => None
           | Some net =>
               match select_hop net cur (p_to p) failed with
               | Some (Some hop) => Some (TCheck cur hop failed 0, [])
               | Some None => Some (TDropped, [ONoRoute cur])
               | None => None
               end
           end
  | TCheck cur hop failed taken =>
      if blocked c cur hop then
        if (taken =? tries g)%Z
        then Some (match g_net g with None => TDropped | Some _ => TSelect cur (failed ++ [hop]) end,
                   [OCheck cur hop true; OStop cur hop])
        else Some (TRetry cur hop failed (taken + 1) (now + g_rate g), [OCheck cur hop true])
      else Some (if Qltb 0 (g_send g) then TSend cur hop failed (now + g_send g) else TMoved cur hop failed,
                 OCheck cur hop false :: match g_net g with None => [] | Some _ => [OMoved cur hop] end)
  | TRetry cur hop failed taken due => if Qeqb now due then Some (TCheck cur hop failed taken, []) else None
  | TSend cur hop failed due => if Qeqb now due then Some (TMoved cur hop failed, []) else None
  | TMoved cur hop failed =>
      match g_net g with
      | None => Some (TArrive, [OSent])
      | Some _ => Some (TSelect hop (if g_global g then failed else []), [])
      end
  | TArrive => match store_from_actor g (p_to p) with
               | Some s => Some (TDone, [OPut (p_to p) s])
               | None => Some (TRaised, [OError])
               end
  | TDone | TDropped | TRaised => None
  end.

Inductive mop :=
| OConf (c : conf)              (* somebody changes what is blocked *)
| OStartRun                     (* run() is called *)
| OSend (a b : nat)             (* a message is put into the incoming store *)
| ORun                          (* run(): comms.py:254-264 takes the oldest *)
| OGo (i : nat)
| OTime (t : Q).
Definition idle (s : mst) : bool := forallb (fun p => negb (active (p_phase p))) (ms_procs s).
(** simpy moves time when nothing of this instant is left, and not past a Timeout. *)
Definition lets_pass (t : Q) (p : proc) : bool :=
  match p_phase p with
  | TNew => false
  | TRetry _ _ _ _ due | TSend _ _ _ due => Qleb t due
  | _ => true
  end.
Definition mstep (g : mgr) (s : mst) (o : mop) : mst * list (nat * Q * out) :=
  match o with
  | OGo i =>
      match nth_error (ms_procs s) i with
      | Some p =>
          if active (p_phase p) || idle s then
            match go g (ms_conf s) (ms_now s) p with
            | Some (ph, l) =>
                (mkMS (ms_conf s) (ms_now s) (ms_running s) (ms_in s)
                      (upd i (mkP (p_from p) (p_to p) (p_start p) ph) (ms_procs s)),
                 map (fun x => (i, ms_now s, x)) l)
            | None => (s, [])
            end
          else (s, [])
      | None => (s, [])
      end
  | _ =>
      if idle s then
        match o with
        | OConf c => (mkMS c (ms_now s) (ms_running s) (ms_in s) (ms_procs s), [])
        | OStartRun => (mkMS (ms_conf s) (ms_now s) true (ms_in s) (ms_procs s), [])
        | OSend a b => (mkMS (ms_conf s) (ms_now s) (ms_running s) (ms_in s ++ [(a, b)]) (ms_procs s), [])
        | ORun => match ms_running s, ms_in s with
                  | true, (a, b) :: l => (mkMS (ms_conf s) (ms_now s) true l (ms_procs s ++ [mkP a b (ms_now s) TNew]), [])
                  | _, _ => (s, [])
                  end
        | OTime t => if Qleb (ms_now s) t && forallb (lets_pass t) (ms_procs s) &&
                        (negb (ms_running s) || match ms_in s with [] => true | _ => false end)
                     then (mkMS (ms_conf s) t (ms_running s) (ms_in s) (ms_procs s), [])
                     else (s, [])
        | OGo _ => (s, [])
        end
      else (s, [])
  end.
(** comms.py:92-140; blocked lists may be filled before anything runs. *)
Definition minit (c : conf) (t0 : Q) : mst := mkMS c t0 false [] [].
Fixpoint mrun (g : mgr) (s : mst) (os : list mop) : mst * list (nat * Q * out) :=
  match os with
  | [] => (s, [])
  | o :: os' => let '(s1, l1) := mstep g s o in
                let '(s2, l2) := mrun g s1 os' in (s2, l1 ++ l2)
  end.
