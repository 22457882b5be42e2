(** Observations on a store's history of happenings (see [StoreModel]). *)
From Coq Require Import Permutation Sorted.
From Verif Require Import Common StoreModel.

Section Spec.
Variable A : Type.
Local Notation happening := (happening A).
Local Notation st := (st A).

(** Items that entered / left the store, in order; with request numbers. *)
Definition stored (h : list happening) : list (nat * A) :=
  flat_map (fun e => match e with HStored r x => [(r, x)] | _ => [] end) h.
Definition taken (h : list happening) : list (nat * A) :=
  flat_map (fun e => match e with HTaken r x => [(r, x)] | _ => [] end) h.
(** Items that were received by a waiting getter / by nobody, in order. *)
Definition delivered (h : list happening) : list (nat * A) :=
  flat_map (fun e => match e with HDelivered r x => [(r, x)] | _ => [] end) h.
Definition lost (h : list happening) : list (nat * A) :=
  flat_map (fun e => match e with HLost r x => [(r, x)] | _ => [] end) h.
(** Either of the two. *)
Definition handed_over (h : list happening) : list (nat * A) :=
  flat_map (fun e => match e with HDelivered r x => [(r, x)] | HLost r x => [(r, x)] | _ => [] end) h.

(** Granted get requests whose waiter has not been resumed yet. *)
Definition in_flight (s : st) : list (nat * A) :=
  flat_map (fun e => match e with EGet r x => [(r, x)] | _ => [] end) (s_agenda s).

(** Nothing is left to process at this instant. *)
Definition quiescent (s : st) : Prop := s_agenda s = [].

(** The cancellations in a schedule that hit a get request after it was
    granted but before its waiter was resumed. *)
Definition granted_get (s : st) (r : nat) : Prop := In r (map fst (in_flight s)).

(** ** What a filtered and sorted get must return *)
Definition nomatch (g : greq A) (items : list A) : Prop := forall y, In y items -> g_filter g y = false.

(** Not worse / strictly better in the direction asked for. *)
Definition better_eq (g : greq A) (key : A -> Z) (x y : A) : Prop :=
  if g_reverse g then (key y <= key x)%Z else (key x <= key y)%Z.
Definition strictly_better (g : greq A) (key : A -> Z) (x y : A) : Prop :=
  if g_reverse g then (key y < key x)%Z else (key x < key y)%Z.

(** [x] passes the filter, is optimal among those that do, is the oldest of
    the optimal ones, and [rest] is the store without exactly that item. *)
Definition first_best (g : greq A) (items : list A) (x : A) (rest : list A) : Prop :=
  exists l1 l2, items = l1 ++ x :: l2 /\ rest = l1 ++ l2 /\ g_filter g x = true /\
    match g_sorter g with
    | Some key =>
        (forall y, In y l1 -> g_filter g y = true -> strictly_better g key x y) /\
        (forall y, In y l2 -> g_filter g y = true -> better_eq g key x y)
    | None => forall y, In y l1 -> g_filter g y = false
    end.

(** Serving a queue of gets, oldest request first, each with its first best
    item out of what is left; a request stays queued only if nothing matches. *)
Inductive serves : list (nat * greq A) -> list A -> list (nat * A) -> list (nat * greq A) -> list A -> Prop :=
| sv_nil items : serves [] items [] [] items
| sv_grant r g x q items rest gr q' items' :
    first_best g items x rest -> serves q rest gr q' items' ->
    serves ((r, g) :: q) items ((r, x) :: gr) q' items'
| sv_wait r g q items gr q' items' :
    nomatch g items -> serves q items gr q' items' ->
    serves ((r, g) :: q) items gr ((r, g) :: q') items'.

Variable eqb : A -> A -> bool.
Variable truthy : A -> bool.
Variable item_func : list A -> Z.

Fixpoint no_late_cancel (s : st) (os : list (op A)) : Prop :=
  match os with
  | [] => True
  | o :: os' =>
      match o with OpCancel r => ~ granted_get s r | _ => True end /\
      no_late_cancel (fst (step A eqb truthy item_func s o)) os'
  end.

(** A waiting get request that could be served from the items present. *)
Definition servable (k : kind) (g : greq A) (items : list A) : Prop :=
  match k with
  | KStore => items <> []
  | KFilter => exists x, In x items /\ g_filter g x = true
  | KSorted => exists x, In x items /\ g_filter g x = true
  end.

(** Strictly increasing request numbers: requests are served in the order
    they were made. *)
Definition in_request_order (l : list (nat * A)) : Prop := StronglySorted lt (map fst l).

(** ** Quantity histories (newest first) *)

(** The value in force at time [t] according to a history. *)
Fixpoint value_at (t : Q) (hist : list (Q * Z)) : option Z :=
  match hist with
  | [] => None
  | (u, v) :: hist' => if Qleb u t then Some v else value_at t hist'
  end.

Fixpoint times_ordered (hist : list (Q * Z)) : Prop :=
  match hist with
  | (u, _) :: (((w, _) :: _) as hist') => w <= u /\ times_ordered hist'
  | _ => True
  end.
Fixpoint no_repeats (hist : list (Q * Z)) : Prop :=
  match hist with
  | (_, v) :: (((_, w) :: _) as hist') => v <> w /\ no_repeats hist'
  | _ => True
  end.

(** The true history: the state after every single operation, newest first. *)
Fixpoint true_history (s : st) (os : list (op A)) (acc : list (Q * Z)) : list (Q * Z) :=
  match os with
  | [] => acc
  | o :: os' => let s1 := fst (step A eqb truthy item_func s o) in
                true_history s1 os' ((s_now s1, item_func (s_items s1)) :: acc)
  end.
End Spec.
