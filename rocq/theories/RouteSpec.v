(** Vocabulary for routing: walks over a relation between nodes. *)
From Verif Require Import Common RouteModel.

(** [walk E x p y]: the nodes of [p] lead, one edge after the other, from [x] to [y];
    [length p] edges. *)
Inductive walk (E : nat -> nat -> Prop) : nat -> list nat -> nat -> Prop :=
| walk_nil x : walk E x [] x
| walk_cons x y p z : E x y -> walk E y p z -> walk E x (y :: p) z.
(** A shortest way of at least one edge. *)
Definition shortest (E : nat -> nat -> Prop) (x : nat) (p : list nat) (y : nat) : Prop :=
  walk E x p y /\ p <> [] /\ forall p', walk E x p' y -> p' <> [] -> (length p <= length p')%nat.
Definition no_way (E : nat -> nat -> Prop) (x y : nat) : Prop := forall p, walk E x p y -> p = [].
(** The connections of a network, all of them and those between nodes not ignored. *)
Definition connected (net : network) (x y : nat) : Prop := In y (neighbours net x).
Definition usable (net : network) (ignore : list nat) (x y : nat) : Prop :=
  connected net x y /\ ~ In x ignore /\ ~ In y ignore.
(** Dictionary keys are unique. *)
Definition wf_net (net : network) : Prop := NoDup (map fst net).
