(** Vocabulary for what rehearsals leave. *)
From Verif Require Import Common MockModel.

(** A task object as users expect it outside of rehearsals. *)
Definition clean (k : task) : Prop := k_env k = None /\ k_reh k = false.
Definition all_clean (w : world) : Prop := forall t, clean (task_of w t).
(** Code without rehearsals of its own, and the time it waits, the value it leaves, and
    whether it neither raises nor mimics. *)
Fixpoint flat (b : body) : Prop := match b with BEnd => True | BDo _ b' => flat b' | BSub _ _ _ _ _ _ => False end.
Fixpoint takes (b : body) : Q := match b with BDo (SWait d) b' => d + takes b' | BDo _ b' => takes b' | _ => 0 end.
Fixpoint leaves (b : body) (v : Z) : Z := match b with BDo (SSet x) b' => leaves b' x | BDo _ b' => leaves b' v | _ => v end.
Fixpoint quiet (b : body) : Prop :=
  match b with BDo (SRaise | SMimic) _ => False | BDo _ b' => quiet b' | _ => True end.
(** Every clock read by the task or the actor is [c] plus what was waited before. *)
Fixpoint clocked (c : Q) (tr : list obs) : Prop :=
  match tr with
  | OWaited _ d :: tr' => clocked (c + d) tr'
  | (ONow _ x | OActorNow _ x) :: tr' => x == c /\ clocked c tr'
  | _ :: tr' => clocked c tr'
  | [] => True
  end.
(** No decision is rehearsed as if its actor were a clone. *)
Fixpoint honest (b : body) : Prop :=
  match b with
  | BEnd => True
  | BDo _ b' => honest b'
  | BSub dec cloned _ _ inner rest => dec && cloned = false /\ honest inner /\ honest rest
  end.
Definition honest_op (o : op) : Prop :=
  match o with TRehearse dec cloned _ _ b => dec && cloned = false /\ honest b | _ => True end.
(** Environments of actors exist. *)
Definition sound (w : world) : Prop := forall u i, a_env (actor_of w u) = Some i -> (i < length (w_mocks w))%nat.
(** Code of which every rehearsal goes on with the clone it was given, of tasks there are,
    what it waits for in all, and the value it leaves. *)
Fixpoint chained (n u : nat) (b : body) : Prop :=
  match b with
  | BEnd => True
  | BDo _ b' => chained n u b'
  | BSub _ cloned t who inner rest => cloned = true /\ who = u /\ (t < n)%nat /\ chained n u inner /\ chained n u rest
  end.
Fixpoint spends (dec : bool) (b : body) : Q :=
  match b with
  | BEnd => 0
  | BDo (SWait d) b' => (if dec then 0 else d) + spends dec b'
  | BDo _ b' => spends dec b'
  | BSub dec' _ _ _ inner rest => spends dec' inner + spends dec rest
  end.
Fixpoint finally (b : body) (v : Z) : Z :=
  match b with
  | BEnd => v
  | BDo (SSet x) b' => finally b' x
  | BDo _ b' => finally b' v
  | BSub _ _ _ _ inner rest => finally rest (finally inner v)
  end.
