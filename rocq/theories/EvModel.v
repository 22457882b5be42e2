(** Model of cancelling UPSTAGE events: Wait.cancel (events.py:250-259),
    BaseRequestEvent.cancel (278-284), Event.cancel (853-863) and
    MultiEvent.cancel (424-436), with as_event (239-248, 337-349, 413-422,
    583-595, 806-819; auto_reset on) and the task's treatment of a simpy process
    (task.py:455-456).  A ResourceHold counts as the request it has made.

    Events are numbered; the heap says what kind each is and how far its simpy
    event has come.  A MultiEvent is a tree node with its own number. *)
From Verif Require Import Common ActiveModel.

(** [KMulti true] is an All, [KMulti false] an Any. *)
Inductive ekind := KWait | KEvt | KReq | KMulti (all : bool) | KProc.
(** no simpy event yet / pending / triggered, not yet processed / processed /
    taken out of its queue / failed by cancel *)
Inductive estat := SFresh | SPend | STrig | SDone | SGone | SFail.
Definition heap := list (ekind * estat).

Inductive ev := ELeaf (i : nat) | EMulti (i : nat) (subs : list ev).
Definition ev_id (e : ev) : nat := match e with ELeaf i => i | EMulti i _ => i end.

Definition setst (i : nat) (s : estat) (h : heap) : heap :=
  match nth_error h i with Some (k, _) => upd i (k, s) h | None => h end.

(** [cancel] of a leaf; [false]: it raised.  simpy: [succeed] on a triggered
    event raises, [cancel] of a request only acts on an untriggered one. *)
Definition cancel_leaf (i : nat) (h : heap) : heap * bool :=
  match nth_error h i with
  | Some (KWait, SFresh) => (h, false)               (* assert *)
  | Some (KWait, _) => (h, true)
  | Some (KEvt, SFresh) | Some (KEvt, SPend) => (setst i STrig h, true)
  | Some (KEvt, _) => (h, false)                     (* RuntimeError *)
  | Some (KReq, SPend) => (setst i SGone h, true)
  | Some (KReq, _) => (h, true)
  | Some (KProc, _) => (h, true)                     (* not a BaseEvent: skipped in a MultiEvent *)
  | Some (KMulti _, _) | None => (h, false)
  end.

Fixpoint cancel (e : ev) (h : heap) {struct e} : heap * bool :=
  match e with
  | ELeaf i => cancel_leaf i h
  | EMulti i subs =>
      match nth_error h i with
      | Some (KMulti _, SPend) =>
          (fix go (l : list ev) (h : heap) : heap * bool :=
             match l with
             | [] => (h, true)
             | e' :: l' => let '(h1, ok) := cancel e' h in
                           if ok then go l' h1 else (h1, false)   (* SimulationError *)
             end) subs (setst i SFail h)
      | _ => (h, false)                              (* UpstageError or RuntimeError *)
      end
  end.

(** task.py:448-456: a process waited for directly is interrupted. *)
Definition cancel_top (e : ev) (h : heap) : heap * bool :=
  match e with
  | ELeaf i => match nth_error h i with
               | Some (KProc, SPend) => (setst i SGone h, true)
               | Some (KProc, _) => (h, false)       (* RuntimeError: terminated *)
               | _ => cancel_leaf i h
               end
  | _ => cancel e h
  end.

(** as_event: a leaf's simpy event is made once, an UPSTAGE Event that has been
    processed is replaced, a MultiEvent gets a new condition each time.  simpy's
    Condition is triggered when it is made if the sub-events that have been
    processed already suffice; a new condition below it has not been processed. *)
Definition arm_leaf (i : nat) (h : heap) : heap :=
  match nth_error h i with
  | Some (KWait, SFresh) | Some (KReq, SFresh) | Some (KEvt, SFresh) | Some (KEvt, SDone) => setst i SPend h
  | _ => h
  end.
Definition is_over (h : heap) (e : ev) : bool :=
  match e with
  | ELeaf i => match nth_error h i with Some (_, SDone) => true | _ => false end
  | EMulti _ _ => false
  end.
Definition at_once (h : heap) (i : nat) (subs : list ev) : bool :=
  match nth_error h i with
  | Some (KMulti true, _) => forallb (is_over h) subs
  | _ => existsb (is_over h) subs || match subs with [] => true | _ => false end
  end.
Fixpoint arm (e : ev) (h : heap) {struct e} : heap :=
  match e with
  | ELeaf i => arm_leaf i h
  | EMulti i subs =>
      let h1 := (fix go (l : list ev) (h : heap) : heap :=
                   match l with [] => h | e' :: l' => go l' (arm e' h) end) subs h in
      setst i (if at_once h1 i subs then STrig else SPend) h1
  end.
