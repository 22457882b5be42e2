(** Vocabulary for running tasks. *)
From Verif Require Import Common StateModel ActiveModel MimicModel KnowledgeModel EvModel TaskModel.

(** [is'] is [is] with ignored interrupts added; after each one the process
    runs on to where it waits again. *)
Inductive ignored {W} : list (input W) -> list (input W) -> Prop :=
| ign_nil : ignored [] []
| ign_cons i l l' : ignored l l' -> ignored (i :: l) (i :: l')
| ign_more l l' : ignored l l' -> ignored l (IInterrupt RIgnore :: ITick :: l').
Definition not_again (o : tout) : bool := match o with OSame _ => false | _ => true end.
Definition legal (o : tout) : bool :=
  match o with OIllegal | OFail TInterrupt => false | _ => true end.

(** [n] awaited events are processed, the surroundings changing as they like. *)
Inductive waits {W} : nat -> list (input W) -> Prop :=
| waits_nil : waits 0 []
| waits_done n v l : waits n l -> waits (S n) (IDone v :: l)
| waits_world n w l : waits n l -> waits n (IWorld w :: l).

(** The routines on the stack, innermost first. *)
Definition routines_of (st : list frame) : list nat :=
  flat_map (fun f => match f with FRout r _ => [r] | FTask _ => [] end) st.
(** Their cancellations as they should be seen: all events of the innermost,
    then the next one's. *)
Definition plan (rts : nat -> routine) (st : list frame) : list tout :=
  flat_map (fun r => map (OCancel r) (r_cancel (rts r))) (routines_of st).

(** A routine that yields the events [es] and returns [v]. *)
Definition scripted (r : routine) (es : list ev) (v : val) : Prop :=
  (forall k e, nth_error es k = Some e -> r_run r k = AYield e) /\ r_run r (length es) = AReturn v.
(** Its events are processed one after the other, with these values. *)
Definition play {W} (l : list (W * val)) : list (input W) :=
  flat_map (fun p => [ITick; IWorld (fst p); IDone (snd p)]) l.
(** The bodies that are resumed, and with what. *)
Definition deliveries (os : list tout) : list (frame * val) :=
  flat_map (fun o => match o with OResume f v => [(f, v)] | _ => [] end) os.
Definition last_val (l : list val) : val := last l None.

(** ** The actor and its events *)
From Verif Require Import ActiveSpec MimicSpec EvSpec.

(** The awaited event can be cancelled. *)
Definition cancellable (h : heap) (e : ev) : Prop :=
  fits h e /\ Forall (waiting h) (below e) /\ NoDup (noisy_below h e) /\
  (ekind_of h (ev_id e) = Some KProc -> estat_of h (ev_id e) = Some SPend).
(** Events below [e] and elsewhere after the cancellation; a process waited for
    directly has been interrupted. *)
Definition event_off (h h' : heap) (e : ev) : Prop :=
  match e with
  | ELeaf i => match ekind_of h i with
               | Some KProc => estat_of h' i = Some SGone /\ forall j, j <> i -> nth_error h' j = nth_error h j
               | _ => cancelled h h' e
               end
  | _ => cancelled h h' e
  end.

Section S.
Variable V : Type.
Variable typ : nat -> Z -> bool.
(** The surroundings are those of a program: the actor's states and the mimics
    were handled through the actor's operations only. *)
Definition lived (u : surroundings V) : Prop :=
  (exists t0 l os, Forall (well_used (map fst l)) os /\ u_act u = fst (arun (ainit t0 l) os)) /\
  (exists t0 l os, u_mim u = mrun typ (minit t0 l) os).
(** Every mimic of actor [me] was started by task [t], and can be read. *)
Definition own_mimics (me t : nat) (m : world) : Prop :=
  healthy typ m /\ forall c s, mimics m c s -> owned m me c = true -> In (t, c) (w_by_task m).

(** Nothing of task [t] is left, nothing else is gone. *)
Definition left_nothing (me t : nat) (e : ev) (u u' : surroundings V) : Prop :=
  (forall s j, holds (u_act u') s j <-> holds (u_act u) s j /\ s <> t) /\
  (forall c, mlook c (w_mimic (u_mim u')) = if owned (u_mim u) me c then None else mlook c (w_mimic (u_mim u))) /\
  (forall n, kget n (u_know u') = match kget n (u_know u) with
                                  | Some (KEvent i) => if Nat.eqb i (ev_id e) then None else Some (KEvent i)
                                  | x => x
                                  end) /\
  event_off (u_heap u) (u_heap u') e.
End S.
Arguments lived {V}. Arguments left_nothing {V}.
