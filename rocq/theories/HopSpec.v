(** Vocabulary for routed messages: what was put, what arrived, where and when, read off a trace. *)
From Verif Require Import Common RouteModel RouteSpec HopModel.
From Verif Require CommsModel.

(** The messages put from [a] to [b], and those of them that arrived, in order. *)
Definition puts (a b : nat) (tr : list out) : list nat :=
  flat_map (fun o => match o with APut k a' b' _ => if Nat.eqb a' a && Nat.eqb b' b then [k] else [] | _ => [] end) tr.
Definition arrivals (a b : nat) (tr : list out) : list nat :=
  flat_map (fun o => match o with ADeliver k a' b' _ => if Nat.eqb a' a && Nat.eqb b' b then [k] else [] | _ => [] end) tr.
(** All the puts, all that arrived or was given up, all that came to [b]. *)
Definition all_puts (tr : list out) : list nat := flat_map (fun o => match o with APut k _ _ _ => [k] | _ => [] end) tr.
Definition settled (tr : list out) : list nat := flat_map (fun o => match o with ADeliver k _ _ _ => [k] | ADrop k _ => [k] | _ => [] end) tr.
Definition came (b : nat) (tr : list out) : list nat :=
  flat_map (fun o => match o with ADeliver k _ b' _ => if Nat.eqb b' b then [k] else [] | _ => [] end) tr.
Definition prefix {A} (l1 l2 : list A) : Prop := exists r, l2 = l1 ++ r.
Definition later (a b : Q) : Q := if Qltb a b then b else a.
(** What is left to happen: nothing, and run() was called. *)
Definition idle (s : st) : Prop := t_queue s = [] /\ t_run s = None /\ t_loop s <> LOff.
Definition good (f : cfg) : Prop := 0 <= f_send f /\ 0 < f_rate f.
(** [b] is [n] connections away from [a]. *)
Definition far (net : network) (a b : nat) (n : nat) : Prop :=
  (exists p, walk (connected net) a p b /\ length p = n) /\ forall p, walk (connected net) a p b -> (n <= length p)%nat.
(** The connection from [x] to [y] is on a shortest way from [a] to [b]. *)
Definition on_the_way (net : network) (a b x y : nat) : Prop :=
  exists p q, walk (connected net) a p x /\ connected net x y /\ walk (connected net) y q b /\ far net a b (length p + S (length q))%nat.
(** No connection on a shortest way from [a] to [b] is ever blocked. *)
Definition clear (net : network) (a b : nat) (c : CommsModel.conf) : Prop :=
  CommsModel.cf_degraded c = false /\ forall x y, on_the_way net a b x y ->
    ~ In x (CommsModel.cf_nodes c) /\ ~ In y (CommsModel.cf_nodes c) /\ ~ In (x, y) (CommsModel.cf_links c).
Definition always_clear (net : network) (a b : nat) (c : CommsModel.conf) (os : list op) : Prop :=
  clear net a b c /\ forall c', In (UConf c') os -> clear net a b c'.
(** The table keeps its connections. *)
Definition fixed (net : network) (os : list op) : Prop :=
  wf_net net /\ forall net', In (UNet net') os -> wf_net net' /\ forall x y, connected net' x y <-> connected net x y.
