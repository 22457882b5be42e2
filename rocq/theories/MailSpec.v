(** Vocabulary for messages: what was put, what arrived, what was heard, read off a trace. *)
From Verif Require Import Common MailModel.
From Verif Require CommsModel.

(** The puts of messages from [a] to [b] into the manager, and their arrivals in [b]'s
    store, by the numbers of the puts, in order. *)
Definition puts (a b : nat) (tr : list out) : list nat :=
  flat_map (fun o => match o with APut k _ a' b' _ => if Nat.eqb a' a && Nat.eqb b' b then [k] else [] | _ => [] end) tr.
Definition arrivals (a b : nat) (tr : list out) : list nat :=
  flat_map (fun o => match o with ADeliver k _ a' b' _ => if Nat.eqb a' a && Nat.eqb b' b then [k] else [] | _ => [] end) tr.
(** All that came into [b]'s store, and all that its listener was called with. *)
Definition came (b : nat) (tr : list out) : list item :=
  flat_map (fun o => match o with
                     | ADeliver k id _ b' _ => if Nat.eqb b' b then [IMsg k id] else []
                     | ARaw b' x => if Nat.eqb b' b then [IRaw x] else []
                     | _ => [] end) tr.
Definition heard (b : nat) (tr : list out) : list item :=
  flat_map (fun o => match o with AHeard b' i _ _ => if Nat.eqb b' b then [i] else [] | _ => [] end) tr.
Definition prefix {A} (l1 l2 : list A) : Prop := exists r, l2 = l1 ++ r.
(** The link from [a] to [b] is never down. *)
Definition up (a b : nat) (c : CommsModel.conf) : Prop :=
  CommsModel.cf_degraded c = false /\ ~ In a (CommsModel.cf_nodes c) /\ ~ In b (CommsModel.cf_nodes c) /\ ~ In (a, b) (CommsModel.cf_links c).
Definition always_up (a b : nat) (c : CommsModel.conf) (os : list op) : Prop :=
  up a b c /\ forall c', In (UConf c') os -> up a b c'.
Definition good (f : cfg) : Prop := 0 <= f_send f /\ 0 < f_rate f.
Definition later (a b : Q) : Q := if Qltb a b then b else a.
(** What is left to happen: nothing, and run() was called. *)
Definition idle (s : st) : Prop := t_queue s = [] /\ t_loop s <> LOff.
(** All the puts, all that arrived and all that was given up. *)
Definition all_puts (tr : list out) : list nat := flat_map (fun o => match o with APut k _ _ _ _ => [k] | _ => [] end) tr.
Definition settled (tr : list out) : list nat := flat_map (fun o => match o with ADeliver k _ _ _ _ => [k] | ADrop k => [k] | _ => [] end) tr.
(** When message [id] last arrived. *)
Definition last_arrival (id : nat) (tr : list out) : option Q :=
  fold_left (fun acc o => match o with ADeliver _ id' _ _ t => if Nat.eqb id' id then Some t else acc | _ => acc end) tr None.
(** The same time, or both without one *)
Definition same_time (a b : option Q) : Prop :=
  match a, b with Some x, Some y => x == y | None, None => True | _, _ => False end.
