(** Vocabulary for what a rehearsal leaves alone. *)
From Verif Require Import Common StateModel NetModel CloneModel.

(** Objects found by following references. *)
Inductive reach (h : list cobj) (l : nat) : nat -> Prop :=
| reach_here : reach h l l
| reach_step m o k m' : reach h l m -> nth_error h m = Some o -> In (k, CRef m') o -> reach h l m'.
(** Objects inside the objects held: two or more levels below the actor (or the
    knowledge handed to the rehearsal). *)
Definition held (w : cworld) (extra : list (key * cval)) (l : nat) : Prop :=
  exists k, In (k, CRef l) (ac_st (w_real w) ++ ac_kn (w_real w) ++ extra).
Definition inside (w : cworld) (extra : list (key * cval)) (l : nat) : Prop :=
  exists r o k m, held w extra r /\ nth_error (w_heap w) r = Some o /\ In (k, CRef m) o /\ reach (w_heap w) m l.
Definition flat (w : cworld) (extra : list (key * cval)) : Prop :=
  forall r o k v, held w extra r -> nth_error (w_heap w) r = Some o -> In (k, v) o -> exists z, v = CAtom z.

(** Everything there is to see through the real actor: a path and what is there. *)
Definition seen (w : cworld) (p : cpath) : option cval := look (w_heap w) (w_real w) p.
Definition queues (w : cworld) (m : string) : option (list string) :=
  match queue_at w (w_real w) m with Some (_, q) => Some q | None => None end.

(** Operations that change a queue list in place. *)
Definition in_place (o : cop) : option string :=
  match o with CQPop n => Some n | CQAdd n _ => Some n | _ => None end.
(** Queues are changed in place only after they were cleared. *)
Fixpoint cleared_first (mine : list string) (os : list cop) : Prop :=
  match os with
  | [] => True
  | o :: os' => match in_place o with Some n => In n mine | None => True end /\
                cleared_first (match o with CQClear n => n :: mine | _ => mine end) os'
  end.
(** Every queue of the actor is a list that exists. *)
Definition sound (w : cworld) : Prop := forall n l, In (n, l) (ac_q (w_real w)) -> (l < List.length (w_lists w))%nat.
(** The task's part in the network's loop. *)
Definition position (w : cworld) := (w_cur w, w_inst w, w_proc w).
(** Every reference leads somewhere. *)
Definition closed (w : cworld) (extra : list (key * cval)) : Prop :=
  (forall l, held w extra l -> (l < List.length (w_heap w))%nat) /\
  (forall l o k m, nth_error (w_heap w) l = Some o -> In (k, CRef m) o -> (m < List.length (w_heap w))%nat).
(** The queues and the clock of the real actor, and which objects its states and
    knowledge are. *)
Definition same_actor (a b : cactor) : Prop :=
  ac_st a = ac_st b /\ ac_kn a = ac_kn b /\ ac_q a = ac_q b /\ ac_clock a = ac_clock b.
