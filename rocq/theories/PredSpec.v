(** When a rehearsal is expected to foretell the run. *)
From Verif Require Import Common StateModel ActiveModel KnowledgeModel PredModel.

(** No state of the actor is active. *)
Definition idle (a : actor) : Prop :=
  a_by_task a = [] /\ Forall (fun x => v_data x = None /\ v_tasks x = []) (a_slots a).

(** Code that uses every Wait once: [n] Waits made so far, [free] those not yet yielded, [cur] those of the last yield.
    It asks only the last ones (or those not yet yielded) whether they are complete, does not look at what a yield of
    several gives back, and leaves the rehearsal times as they are. *)
Inductive tidy : nat -> list nat -> list nat -> prog -> Prop :=
| T_ret n free cur : tidy n free cur Ret
| T_fail n free cur : tidy n free cur Fail
| T_do n free cur o k : (forall r, tidy n free cur (k r)) -> tidy n free cur (Do o k)
| T_now n free cur k : (forall t, tidy n free cur (k t)) -> tidy n free cur (Now k)
| T_new n free cur d r k : (r = None \/ r = Some d) -> tidy (S n) (n :: free) cur (k (Some n)) -> tidy n free cur (k None) -> tidy n free cur (New d r k)
| T_done n free cur i k : In i (cur ++ free) -> (forall b, tidy n free cur (k b)) -> tidy n free cur (Done i k)
| T_yield n free cur e k : ids e <> [] -> NoDup (ids e) -> incl (ids e) free -> (forall a, k a = k ANone) ->
    tidy n (filter (fun i => negb (existsb (Nat.eqb i) (ids e))) free) (ids e) (k ANone) -> tidy n free cur (Yield e k).

(** No create_knowledge_event is refused and no event is succeeded for the second time. *)
Definition granted (l : list seen) : Prop :=
  forall t o r, In (SaidAt t (SK o) (OK r)) l -> r <> NRuntime /\ forall n, o = NCreateEvent n -> r <> NSimError.
(** The actor, what it knows and the payloads of events; the clock is in the actor. *)
Definition shows (w : world) : actor * list (key * kval Z) * list (option Z) := (wd_actor w, n_dict (wd_kn w), map x_load (n_events (wd_kn w))).

(** Code that does the same whatever the answers are; it may use a Wait more than once. *)
Inductive straight : nat -> prog -> Prop :=
| St_ret n : straight n Ret
| St_do n o k : (forall r, k r = k (OA AOk)) -> straight n (k (OA AOk)) -> straight n (Do o k)
| St_now n k : (forall t, k t = k 0) -> straight n (k 0) -> straight n (Now k)
| St_new n d k : 0 <= d -> straight (S n) (k (Some n)) -> straight n (New d None k)
| St_done n i k : (forall b, k b = k None) -> straight n (k None) -> straight n (Done i k)
| St_yield n e k : ids e <> [] -> NoDup (ids e) -> Forall (fun i => (i < n)%nat) (ids e) -> (forall a, k a = k ANone) ->
    straight n (k ANone) -> straight n (Yield e k).
