(** Vocabulary for rehearsals. *)
From Verif Require Import Common RehModel.

(** How long an event tree takes when its leaves take [tm]: Any the least, All
    the greatest of its sub-events' times. *)
Inductive takes (tm : nat -> Q) : rt -> Q -> Prop :=
| takes_leaf i t : tm i == t -> takes tm (RL i) t
| takes_any i subs t : Exists (fun s => takes tm s t) subs ->
    Forall (fun s => exists x, takes tm s x /\ t <= x) subs -> takes tm (RM i true subs) t
| takes_all i subs t : Exists (fun s => takes tm s t) subs ->
    Forall (fun s => exists x, takes tm s x /\ x <= t) subs -> takes tm (RM i false subs) t.

Definition time_in (h : rheap) (i : nat) : Q := match nth_error h i with Some x => x_time x | None => 0 end.
Definition kind_in (h : rheap) (i : nat) : option rkind :=
  match nth_error h i with Some x => Some (x_kind x) | None => None end.
(** Everything below a tree. *)
Fixpoint parts (e : rt) : list nat :=
  match e with RL i => [i] | RM i _ subs => i :: flat_map parts subs end.
(** Leaves are Waits, Puts, Gets and Events; no Any/All is empty or contains
    itself; sub-events of one Any/All with the same number are the same event. *)
Inductive ready (h : rheap) : rt -> Prop :=
| ready_leaf i : kind_in h i = Some RPlain \/ kind_in h i = Some RGet \/ kind_in h i = Some REvt -> ready h (RL i)
| ready_multi i any subs : kind_in h i = Some RMultiK -> subs <> [] -> Forall (ready h) subs ->
    (forall s s', In s subs -> In s' subs -> rid s = rid s' -> s = s') ->
    ~ In i (flat_map parts subs) -> ready h (RM i any subs).
Definition subs_of (e : rt) : list rt := match e with RL _ => [] | RM _ _ subs => subs end.

Definition total (l : rlog) : Q := Qsum (map snd l).
(** Each event is rehearsed at [start] plus the times of the events before it. *)
Fixpoint in_order (start : Q) (l : rlog) : Prop :=
  match l with
  | [] => True
  | (c, _, t) :: l' => c == start /\ in_order (start + t) l'
  end.
(** The task yields no plain Routine. *)
Definition no_routines (task : rbody) : Prop := forall got es, task got <> RRoutine es.
(** No event has a negative rehearsal time. *)
Definition no_negative (h : rheap) : Prop := forall i, 0 <= time_in h i.
Definition failed (p : rphase) : bool := match p with RFailed _ => true | _ => false end.
Fixpoint rising (l : list Q) : Prop :=
  match l with [] => True | x :: l' => Forall (fun y => x <= y) l' /\ rising l' end.
