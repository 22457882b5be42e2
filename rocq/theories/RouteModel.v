(** Model of the routing table (communications/routing.py:17-30 and 229-276).

    Nodes are natural numbers, standing for an Actor and its name: names are
    taken to be unique among the connected actors.  A python set is a list; the
    theorems hold for every order of it, as python fixes none. *)
From Verif Require Import Common.

(** dict[str, set[str]] *)
Definition network := list (nat * list nat).
Definition memb (x : nat) (l : list nat) : bool := existsb (Nat.eqb x) l.
(** network.get(node, set()) *)
Fixpoint neighbours (net : network) (x : nat) : list nat :=
  match net with
  | [] => []
  | (k, l) :: net' => if Nat.eqb k x then l else neighbours net' x
  end.
Definition has_key (net : network) (x : nat) : bool := existsb (fun p => Nat.eqb (fst p) x) net.

(** The for loop over the neighbours of one node, routing.py:24-29: a path to the
    goal, or the new visited set and queue. *)
Fixpoint expand (goal : nat) (path : list nat) (ns : list nat) (visited : list nat) (queue : list (nat * list nat))
  : list nat + (list nat * list (nat * list nat)) :=
  match ns with
  | [] => inr (visited, queue)
  | n :: ns' =>
      if Nat.eqb n goal then inl (path ++ [n])
      else if memb n visited then expand goal path ns' visited queue
      else expand goal path ns' (n :: visited) (queue ++ [(n, path ++ [n])])
  end.
(** The while loop, routing.py:22-30.  [None] is fuel exhaustion. *)
Fixpoint search (fuel : nat) (net : network) (goal : nat) (visited : list nat) (queue : list (nat * list nat)) : option (list nat) :=
  match fuel, queue with
  | _, [] => Some []
  | O, _ => None
  | S f, (x, path) :: q =>
      match expand goal path (neighbours net x) visited q with
      | inl p => Some p
      | inr (v, q') => search f net goal v q'
      end
  end.
(** _shortest_path.  Every node is queued at most once. *)
Definition bfs_fuel (net : network) : nat := S (S (length (flat_map snd net))).
Definition shortest_path (net : network) (start goal : nat) : option (list nat) :=
  search (bfs_fuel net) net goal [start] [(start, [start])].

(** connect_nodes, routing.py:229-248: add to the set of u, and of v if two_way.
    A node without comms store on the mode raises SimulationError and changes
    nothing ([has_store]). *)
Fixpoint net_add (net : network) (u v : nat) : network :=
  match net with
  | [] => [(u, [v])]
  | (k, l) :: net' => if Nat.eqb k u then (k, if memb v l then l else l ++ [v]) :: net' else (k, l) :: net_add net' u v
  end.
Definition connect_nodes (has_store : nat -> bool) (net : network) (u v : nat) (two_way : bool) : option network :=
  if has_store u && has_store v then
    let net1 := net_add net u v in Some (if two_way then net_add net1 v u else net1)
  else None.

(** routing.py:269: the network without the ignored nodes. *)
Definition without (ignore : list nat) (net : network) : network :=
  map (fun p => (fst p, filter (fun y => negb (memb y ignore)) (snd p))) (filter (fun p => negb (memb (fst p) ignore)) net).
(** select_hop, routing.py:250-276.  The outer [None] is fuel exhaustion. *)
Definition select_hop (net : network) (source dest : nat) (ignore : list nat) : option (option nat) :=
  if negb (has_key net source) then Some None
  else if memb dest (neighbours net source) then Some (Some dest)
  else match shortest_path (without ignore net) source dest with
       | None => None
       | Some [] => Some None
       | Some path => Some (nth_error path 1)
       end.
