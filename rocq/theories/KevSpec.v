(** What rehearsals have to do with the events of the simulation. *)
From Verif Require Import Common StateModel KnowledgeModel KevModel.

Definition real_obj (m : nat) (o : oid) : bool := Nat.ltb (fst o) m.
Definition real_sim (m : nat) (s : sid) : bool := real_obj m (fst s).
(** The actor whose code does it; None: the simulation goes on *)
Definition author (op : kop) : option nat :=
  match op with
  | KGet a _ | KSet a _ _ _ | KClear a _ | KCreate a _ _ | KSucceed a _ _ | KOn a _ _ => Some a
  | KClone _ _ | KTick | KWake => None
  end.
(** The Events code has in its hands (rather than finds under a name) *)
Definition uses (op : kop) : list oid :=
  match op with KSet _ _ (VEvent o) _ => [o] | KOn _ o _ => [o] | _ => [] end.
(** Code of an actor of the simulation holds Events of the simulation, rehearsed code holds Events of clones. *)
Definition apart (m : nat) (op : kop) : Prop :=
  match author op with Some a => Forall (fun o => real_obj m o = Nat.ltb a m) (uses op) | None => True end.

(** What is seen of the simulation: not what rehearsed code does, not the making of clones, and not that an event made
    in a rehearsal is processed. *)
Definition visible (m : nat) (en : kop * kout) : bool :=
  match fst en with
  | KClone _ _ => false
  | KTick => match snd en with OProc s => real_sim m s | _ => true end
  | op => match author op with Some a => Nat.ltb a m | None => true end
  end.
(** No rehearsed code has triggered an event of the simulation. *)
Definition hands_off (m : nat) (l : list (kop * kout)) : Prop :=
  forall op s a, In (op, OFired s) l -> author op = Some a -> (m <= a)%nat -> real_sim m s = false.
(** What the actors of the simulation know, and what their Events carry. *)
Definition real_know (w : kw) : list (list (key * kv)) := map a_know (firstn (k_real w) (k_acts w)).
Definition payload_of (w : kw) (o : oid) : option (option Z) := option_map e_payload (k_objs w o).
(** Whenever an actor is cloned, no event of the simulation is in the knowledge that is copied. *)
Definition nothing_held (m : nat) (w : kw) (op : kop) : Prop :=
  match op with
  | KClone a extra => forall x n o e, nth_error (k_acts w) a = Some x -> In (n, VEvent o) (a_know x ++ extra) -> k_objs w o = Some e -> real_sim m (e_sim e) = false
  | _ => True
  end.
Fixpoint always (P : kw -> kop -> Prop) (w : kw) (os : list kop) : Prop :=
  match os with [] => True | op :: os' => P w op /\ always P (fst (kstep w op)) os' end.
