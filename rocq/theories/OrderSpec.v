(** Vocabulary for comparing HopModel, which has simpy's order of events, with CommsModel,
    which leaves it open. *)
From Verif Require Import Common RouteModel HopModel.
From Verif Require CommsModel.

(** The manager of CommsModel; every actor has one store, for its mode. *)
Definition manager (f : cfg) (net : network) : CommsModel.mgr :=
  CommsModel.mkM (f_max f) (f_rate f) (f_send f) (f_global f) (Some net) 0 [] (fun _ => [(0%nat, [0%nat])]).
(** How messages end: message, time, and to whom it came. *)
Definition ends (tr : list out) : list (nat * Q * option nat) :=
  flat_map (fun o => match o with ADeliver k _ b t => [(k, t, Some b)] | ADrop k t => [(k, t, None)] | _ => [] end) tr.
Definition ends_free (tr : list (nat * Q * CommsModel.out)) : list (nat * Q * option nat) :=
  flat_map (fun o => match snd o with CommsModel.OPut b _ => [(fst o, Some b)] | CommsModel.ONoRoute _ => [(fst o, None)] | _ => [] end) tr.
Definition same_end (x y : nat * Q * option nat) : Prop := fst (fst x) = fst (fst y) /\ snd (fst x) == snd (fst y) /\ snd x = snd y.
(** What is said to be blocked in the course of a run. *)
Definition confs (os : list op) : list CommsModel.conf := flat_map (fun o => match o with UConf c => [c] | _ => [] end) os.
Definition confs_free (os : list CommsModel.mop) : list CommsModel.conf := flat_map (fun o => match o with CommsModel.OConf c => [c] | _ => [] end) os.
