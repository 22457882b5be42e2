(** Vocabulary for what rehearsing a network rehearses, and for what is done to the
    understudy. *)
From Verif Require Import Common StateModel KnowledgeModel ActiveModel NetModel CloneModel.

(** ** The understudy *)
Definition u_state (w : cworld) (k : key) : option cval := kget k (ac_st (w_und w)).
Definition u_know (w : cworld) (k : key) : option cval := kget k (ac_kn (w_und w)).
Definition u_queue (w : cworld) (n : string) : option (list string) :=
  match sget n (ac_q (w_und w)) with Some l => Some (nth l (w_lists w) []) | None => None end.
Definition u_clock (w : cworld) : Q := ac_clock (w_und w).
Definition u_at (w : cworld) (p : cpath) : option cval := look (w_heap w) (w_und w) p.
(** Every queue is a list of its own, and exists. *)
Definition own_lists (w : cworld) : Prop :=
  (forall n l, sget n (ac_q (w_und w)) = Some l -> (l < List.length (w_lists w))%nat) /\
  (forall n m l, sget n (ac_q (w_und w)) = Some l -> sget m (ac_q (w_und w)) = Some l -> n = m).
(** Objects that are referred to exist. *)
Definition exist_all (w : cworld) : Prop := forall p l, u_at w p = Some (CRef l) -> (l < List.length (w_heap w))%nat.
Definition refers_in (w : cworld) (d : list (key * cval)) : Prop := forall k l, kget k d = Some (CRef l) -> (l < List.length (w_heap w))%nat.
(** What states, knowledge and objects refer to exists. *)
Definition all_there (w : cworld) : Prop :=
  refers_in w (ac_st (w_und w)) /\ refers_in w (ac_kn (w_und w)) /\ (forall i o, nth_error (w_heap w) i = Some o -> refers_in w o).
(** The value of an expression: a number, what is there, a new object. *)
Definition means (w w' : cworld) (e : cexp) (v : cval) : Prop :=
  match e with
  | EAtom z => v = CAtom z /\ w_heap w' = w_heap w
  | EPath p => u_at w p = Some v /\ w_heap w' = w_heap w
  | ENew => v = CRef (List.length (w_heap w)) /\ w_heap w' = w_heap w ++ [[]]
  end.
(** Nothing happened but possibly to: the states / the knowledge / the queue [n] / the clock *)
Definition same_states (w w' : cworld) : Prop := forall k, u_state w' k = u_state w k.
Definition same_know (w w' : cworld) : Prop := forall k, u_know w' k = u_know w k.
Definition same_queues (w w' : cworld) : Prop := forall m, u_queue w' m = u_queue w m.
(** The queue [n] becomes [q], the others stay. *)
Definition queue_becomes (n : string) (q : list string) (w w' : cworld) : Prop :=
  u_queue w' n = Some q /\ forall m, m <> n -> u_queue w' m = u_queue w m.
(** Field [f] of the object [l] becomes [v] (or is gone), all other fields and objects stay. *)
Definition field_becomes (l : nat) (f : key) (v : option cval) (w w' : cworld) : Prop :=
  (exists o o', nth_error (w_heap w) l = Some o /\ nth_error (w_heap w') l = Some o' /\
     kget f o' = v /\ forall g, g <> f -> kget g o' = kget g o) /\
  List.length (w_heap w') = List.length (w_heap w) /\ forall m, m <> l -> nth_error (w_heap w') m = nth_error (w_heap w) m.
(** What a statement does to the understudy *)
Definition done_to (o : cop) (w w' : cworld) : Prop :=
  match o with
  | CSet k e => (exists v, means w w' e v /\ u_state w' k = Some v) /\ (forall j, j <> k -> u_state w' j = u_state w j) /\
                same_know w w' /\ same_queues w w' /\ u_clock w' = u_clock w
  | CKnow k e => (exists v, means w w' e v /\ u_know w' k = Some v) /\ (forall j, j <> k -> u_know w' j = u_know w j) /\
                 same_states w w' /\ same_queues w w' /\ u_clock w' = u_clock w
  | CForget k => u_know w k <> None /\ u_know w' k = None /\ (forall j, j <> k -> u_know w' j = u_know w j) /\
                 same_states w w' /\ same_queues w w' /\ u_clock w' = u_clock w /\ w_heap w' = w_heap w
  | CField p f (EAtom z) => (exists l, u_at w p = Some (CRef l) /\ field_becomes l f (Some (CAtom z)) w w') /\
                 same_states w w' /\ same_know w w' /\ same_queues w w' /\ u_clock w' = u_clock w
  | CField p f (EPath p') => (exists l v, u_at w p = Some (CRef l) /\ u_at w p' = Some v /\ field_becomes l f (Some v) w w') /\
                 same_states w w' /\ same_know w w' /\ same_queues w w' /\ u_clock w' = u_clock w
  | CField p f ENew => (exists l o, u_at w p = Some (CRef l) /\ nth_error (w_heap w) l = Some o /\
                   (exists o', nth_error (w_heap w') l = Some o' /\ kget f o' = Some (CRef (List.length (w_heap w))) /\ forall g, g <> f -> kget g o' = kget g o) /\
                   nth_error (w_heap w') (List.length (w_heap w)) = Some [] /\ List.length (w_heap w') = S (List.length (w_heap w)) /\
                   forall m, m <> l -> (m < List.length (w_heap w))%nat -> nth_error (w_heap w') m = nth_error (w_heap w) m) /\
                 same_states w w' /\ same_know w w' /\ same_queues w w' /\ u_clock w' = u_clock w
  | CDrop p f => (exists l, u_at w p = Some (CRef l) /\ field_becomes l f None w w') /\
                 same_states w w' /\ same_know w w' /\ same_queues w w' /\ u_clock w' = u_clock w
  | CQClear n => queue_becomes n [] w w' /\ same_states w w' /\ same_know w w' /\ u_clock w' = u_clock w /\ w_heap w' = w_heap w
  | CQSet n l => u_queue w n = Some [] /\ queue_becomes n l w w' /\ same_states w w' /\ same_know w w' /\ u_clock w' = u_clock w /\ w_heap w' = w_heap w
  | CQPop n => (exists t q, u_queue w n = Some (t :: q) /\ queue_becomes n q w w') /\
               same_states w w' /\ same_know w w' /\ u_clock w' = u_clock w /\ w_heap w' = w_heap w
  | CQAdd n t => (exists q, u_queue w n = Some q /\ queue_becomes n (q ++ [t]) w w') /\
                 same_states w w' /\ same_know w w' /\ u_clock w' = u_clock w /\ w_heap w' = w_heap w
  | CAdvance t => u_clock w' = u_clock w + t /\ same_states w w' /\ same_know w w' /\ same_queues w w' /\ w_heap w' = w_heap w
  end.
(** What a statement needs, without which it raises *)
Definition there (w : cworld) (e : cexp) : Prop := match e with EPath p => u_at w p <> None | _ => True end.
Definition an_object (w : cworld) (p : cpath) : Prop := exists l o, u_at w p = Some (CRef l) /\ nth_error (w_heap w) l = Some o.
Definition needs (o : cop) (w : cworld) : Prop :=
  match o with
  | CSet _ e | CKnow _ e => there w e
  | CForget k => u_know w k <> None
  | CField p f e => there w e /\ an_object w p
  | CDrop p f => an_object w p
  | CQClear _ | CAdvance _ => True
  | CQSet n _ => u_queue w n = Some []
  | CQPop n => exists t q, u_queue w n = Some (t :: q)
  | CQAdd n _ => u_queue w n <> None
  end.
(** The time the statements take *)
Definition takes (os : list cop) : Q :=
  fold_right Qplus 0 (map (fun o => match o with CAdvance t => t | _ => 0 end) os).

(** ** Networks *)
Definition allowed (d : netdef) (t t' : string) : Prop := exists lk, sget t (n_links d) = Some lk /\ In t' (l_allowed lk).
(** Each task is allowed after the one before. *)
Fixpoint linked (d : netdef) (ts : list string) : Prop :=
  match ts with a :: ((b :: _) as r) => allowed d a b /\ linked d r | _ => True end.
Section Rehearsed.
Variable d : netdef.
Variable plan : string -> cworld -> list cop * bool.
(** Rehearsing one task, the [i]-th, which returns *)
Definition did_one (i : nat) (t : string) (w w' : cworld) : Prop :=
  sget t (n_classes d) <> None /\
  exists os, plan t (with_cur w (Some t) (Some i)) = (os, true) /\ w' = crun (with_cur w (Some t) (Some i)) os.
(** Rehearsing tasks one after the other, the first being the [i]-th *)
Inductive did : nat -> cworld -> list string -> cworld -> Prop :=
| did_none i w : did i w [] w
| did_more i t w w1 ts w' : did_one i t w w1 -> did (S i) w1 ts w' -> did i w (t :: ts) w'.
(** The task after [t]: the first of the understudy's queue, which is taken out of it,
    otherwise the default. *)
Variable n : string.
Definition follows (t : string) (w : cworld) (t' : string) (w' : cworld) : Prop :=
  sget t (n_links d) <> None /\
  ((exists q, u_queue w n = Some (t' :: q) /\ w' = fst (cstep w (CQPop n))) \/
   (u_queue w n = Some [] /\ w' = w /\ exists lk, sget t (n_links d) = Some lk /\ l_default lk = Some t')).
(** After [t], going on with [ts] until [e] would be next *)
Inductive goes_on (e : string) : nat -> string -> cworld -> list string -> cworld -> Prop :=
| at_end i t w w' : follows t w e w' -> goes_on e i t w [] w'
| not_yet i t w t' w1 w2 ts w' : follows t w t' w1 -> t' <> e -> did_one i t' w1 w2 -> goes_on e (S i) t' w2 ts w' -> goes_on e i t w (t' :: ts) w'.
End Rehearsed.
(** The defaults after [t] are [ts]. *)
Fixpoint defaults (d : netdef) (t : string) (ts : list string) : Prop :=
  match ts with
  | [] => True
  | t' :: r => (exists lk, sget t (n_links d) = Some lk /\ l_default lk = Some t') /\ defaults d t' r
  end.
(** The network is at the task it was at before. *)
Definition back_to (w w1 : cworld) : cworld := mkCW (w_heap w1) (w_lists w1) (w_real w1) (w_und w1) (w_cur w) (w_inst w) (w_proc w).
(** No queue is touched. *)
Definition no_queues (o : cop) : Prop := match o with CQClear _ | CQSet _ _ | CQPop _ | CQAdd _ _ => False | _ => True end.
(** A copy: the same number, or a new object with the same fields *)
Definition copied (w w' : cworld) (v v' : option cval) : Prop :=
  match v with
  | Some (CRef l) => exists o l', nth_error (w_heap w) l = Some o /\ v' = Some (CRef l') /\ (List.length (w_heap w) <= l')%nat /\ nth_error (w_heap w') l' = Some o
  | _ => v' = v
  end.
