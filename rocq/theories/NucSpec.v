(** Vocabulary for the nucleus. *)
From Coq Require Import String.
From Verif Require Import Common NetModel CtxModel NucModel.
Open Scope string_scope.
Open Scope list_scope.

(** From what was called and came back: network name [n] is registered with the
    nucleus of actor [a] for state [k]. *)
Definition watch1 (a : nat) (n k : string) (w : bool) (t : op * out) : bool :=
  match t with
  | (NAdd a' n' sts, XOk) => if Nat.eqb a' a && String.eqb n' n && existsb (String.eqb k) sts then true else w
  | (NRemove a' n', XOk) => if Nat.eqb a' a && String.eqb n' n then false else w
  | _ => w
  end.
Definition watches (tr : list (op * out)) (a : nat) (n k : string) : bool :=
  fold_left (watch1 a n k) tr false.

(** The network object of that name on the actor, and its task process. *)
Definition network (s : st) (a : nat) (n : string) : option nat :=
  match nth_error (s_actors s) a with Some x => sget n (a_nets x) | None => None end.
Definition task_of (s : st) (a : nat) (n : string) : option nat :=
  match network s a n with
  | Some x => match nth_error (s_nets s) x with Some r => r | None => None end
  | None => None
  end.
Definition alive (s : st) (p : nat) : bool := nth p (s_procs s) false.
(** simpy lets the active process interrupt it. *)
Definition can_hit (s : st) (act : option nat) (p : nat) : bool :=
  alive s p && match act with Some q => negb (Nat.eqb q p) | None => true end.
(** The network can be told. *)
Definition reachable (s : st) (act : option nat) (a : nat) (n : string) : bool :=
  match network s a n with
  | None => false
  | Some _ => match task_of s a n with Some p => can_hit s act p | None => true end
  end.
(** The task processes of the networks in [ns]. *)
Definition tasks_of (s : st) (a : nat) (ns : list string) : list nat :=
  flat_map (fun n => match task_of s a n with Some p => [p] | None => [] end) ns.
(** Value of a state, as stored. *)
Definition value (s : st) (a : nat) (k : string) : option Q :=
  match nth_error (s_actors s) a with
  | Some x => match sget k (a_cells x) with Some c => Some (c_val c) | None => None end
  | None => None
  end.

(** Interrupts handled by simpy: what came out of the deliveries. *)
Definition handled (t : op * out) : list (nat * cause) :=
  match snd t with XHit p c | XMissed p c => [(p, c)] | _ => [] end.
(** Interrupts sent by one operation. *)
Definition sent1 (s s' : st) : list (nat * cause) := skipn (List.length (s_pend s)) (s_pend s').
Definition delivers (o : op) : bool := match o with NDeliver => true | _ => false end.
Fixpoint sent (order : list string -> list string) (s : st) (os : list op) : list (nat * cause) :=
  match os with
  | [] => []
  | o :: os' => (if delivers o then [] else sent1 s (fst (step order s o))) ++ sent order (fst (step order s o)) os'
  end.
(** The operations which touch states of actor [a]. *)
Definition touches (o : op) (a : nat) : bool :=
  match o with
  | NSet _ b _ _ | NRead _ b _ | NActivate _ b _ _ | NDeactivate _ b _ | NClone _ b => Nat.eqb b a
  | _ => false
  end.
