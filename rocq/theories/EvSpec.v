(** Vocabulary for cancellation. *)
From Verif Require Import Common ActiveModel EvModel.

(** All events of a combination, at every depth. *)
Fixpoint below (e : ev) : list nat :=
  match e with
  | ELeaf i => [i]
  | EMulti i subs => i :: flat_map below subs
  end.
Definition ekind_of (h : heap) (i : nat) : option ekind :=
  match nth_error h i with Some (k, _) => Some k | None => None end.
Definition estat_of (h : heap) (i : nat) : option estat :=
  match nth_error h i with Some (_, s) => Some s | None => None end.

(** The tree describes the heap: inner nodes are MultiEvents, leaves are not. *)
Inductive fits (h : heap) : ev -> Prop :=
| fits_leaf i k : ekind_of h i = Some k -> (forall a, k <> KMulti a) -> fits h (ELeaf i)
| fits_multi i a subs : ekind_of h i = Some (KMulti a) -> Forall (fits h) subs -> fits h (EMulti i subs).

(** It can still happen: nothing has triggered it. *)
Definition waiting (h : heap) (i : nat) : Prop :=
  match nth_error h i with
  | Some (KEvt, SPend) | Some (KEvt, SFresh) | Some (KMulti _, SPend) => True
  | Some (KEvt, _) | Some (KMulti _, _) => False
  | Some (KWait, SFresh) => False
  | Some _ => True
  | None => False
  end.
(** An UPSTAGE Event that can be waited for: not yet succeeded, or succeeded and
    over, so that yielding it makes a new one. *)
Definition usable (h : heap) (i : nat) : Prop :=
  match estat_of h i with Some SFresh | Some SPend | Some SDone => True | _ => False end.
Definition all_usable (h : heap) (ids : list nat) : Prop :=
  forall i, In i ids -> ekind_of h i = Some KEvt -> usable h i.
(** Nothing a combination waits for is over already, other than Events, which
    are replaced when yielded, and no combination is empty. *)
Fixpoint ahead (h : heap) (e : ev) : Prop :=
  match e with
  | ELeaf i => ekind_of h i = Some KEvt \/ estat_of h i <> Some SDone
  | EMulti _ subs => subs <> [] /\ (fix all l := match l with [] => True | e' :: l' => ahead h e' /\ all l' end) subs
  end.
(** Events whose cancellation counts as an occurrence: UPSTAGE Events and
    MultiEvents. *)
Definition noisy (h : heap) (i : nat) : bool :=
  match ekind_of h i with Some KEvt | Some (KMulti _) => true | _ => false end.
Definition noisy_below (h : heap) (e : ev) : list nat := filter (noisy h) (below e).

(** What a cancelled combination leaves behind. *)
Definition cancelled (h h' : heap) (e : ev) : Prop :=
  (forall i, In i (below e) -> ekind_of h i = Some KReq -> estat_of h' i <> Some SPend) /\
  (forall i, ~ In i (below e) -> nth_error h' i = nth_error h i) /\
  (forall i, ekind_of h' i = ekind_of h i) /\
  (forall i, ekind_of h i = Some KReq -> estat_of h i <> Some SPend -> estat_of h' i = estat_of h i) /\
  (forall i, ekind_of h i = Some KWait -> estat_of h' i = estat_of h i).
