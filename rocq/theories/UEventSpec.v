(** Vocabulary for reusable events. *)
From Verif Require Import Common UEventModel.

(** Wakings in a trace: who, and the payload found. *)
Definition wakings (tr : list (uop * uout)) : list (nat * option nat) :=
  flat_map (fun e => match snd e with UWoke w p => [(w, p)] | _ => [] end) tr.
Definition woken (tr : list (uop * uout)) : list nat := map fst (wakings tr).
(** Yields, in order. *)
Definition waits (tr : list (uop * uout)) : list nat :=
  flat_map (fun e => match snd e with UWaits w => [w] | _ => [] end) tr.
(** Something the Event was told that triggers it. *)
Definition is_trigger (e : uop * uout) : bool :=
  match e with (USucceed _, UOk) | (UCancel, UOk) => true | _ => false end.
(** The payload of the latest success accepted, starting from [p]. *)
Definition latest (p : option nat) (tr : list (uop * uout)) : option nat :=
  fold_left (fun acc e => match e with (USucceed q, UOk) => q | _ => acc end) tr p.
(** Every success so far has been delivered to everybody. *)
Definition quiet (s : ust) : Prop := u_agenda s = [] /\ u_ready s = [].
(** No success is announced before the one before it has been delivered. *)
Fixpoint patient (s : ust) (os : list uop) : Prop :=
  match os with
  | [] => True
  | o :: os' => (match o with USucceed _ => quiet s | _ => True end) /\ patient (fst (ustep s o)) os'
  end.
(** Process [w] waits on the simpy event that a success would trigger now. *)
Definition waiting (s : ust) (w : nat) : Prop :=
  exists v, nth_error (u_evs s) (u_cur s) = Some v /\ In w (v_waiters v).
