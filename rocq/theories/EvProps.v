(** Theorems about interrupting a task that waits for events. *)
From Verif Require Import Common ActiveModel EvModel EvSpec EvProofs.

(** ** C53 *)

(** When the cancellation goes through, no request below is left pending, every
    event outside is untouched, Waits and requests already granted stay what
    they were. *)
Theorem C53_withdraws_everything e h : fits h e -> snd (cancel e h) = true -> cancelled h (fst (cancel e h)) e.
Proof. exact (cancel_done e h). Qed.
Print Assumptions C53_withdraws_everything.

(** It goes through exactly when no Event and no Any/All below has been
    triggered and none of them occurs twice.  The claim asks for all states. *)
Theorem C53_succeeds_exactly_partial e h : fits h e ->
  snd (cancel e h) = true <-> Forall (waiting h) (below e) /\ NoDup (noisy_below h e).
Proof. exact (cancel_iff e h). Qed.
Print Assumptions C53_succeeds_exactly_partial.

(** In particular when nothing happened since the combination was yielded, and
    nothing in it was over before. *)
Theorem C53_right_after_yield_partial e h : fits h e -> ahead h e -> all_usable h (below e) -> NoDup (noisy_below h e) ->
  snd (cancel e (arm e h)) = true.
Proof. exact (cancel_after_yield e h). Qed.
Print Assumptions C53_right_after_yield_partial.

(** All(Event, Get): the Event happened, the Get is still waiting.  Cancelling
    raises and the Get stays in its queue.  Likewise All(Any(Wait, Get), Get)
    once the Wait is over, and an Any whose condition is triggered but not yet
    delivered: nothing below it is withdrawn. *)
Definition ex_all : heap := [(KMulti true, SPend); (KEvt, SDone); (KReq, SPend)].
Definition ex_nested : heap := [(KMulti true, SPend); (KMulti false, SDone); (KWait, SDone); (KReq, SPend); (KReq, SPend)].
Definition ex_race : heap := [(KMulti false, STrig); (KReq, SPend); (KWait, SDone)].
Theorem C53_event_happened_refuted :
  let e1 := EMulti 0 [ELeaf 1; ELeaf 2] in
  let e2 := EMulti 0 [EMulti 1 [ELeaf 2; ELeaf 3]; ELeaf 4] in
  let e3 := EMulti 0 [ELeaf 1; ELeaf 2] in
  fits ex_all e1 /\ snd (cancel_top e1 ex_all) = false /\ estat_of (fst (cancel_top e1 ex_all)) 2 = Some SPend /\
  fits ex_nested e2 /\ snd (cancel_top e2 ex_nested) = false /\
  estat_of (fst (cancel_top e2 ex_nested)) 3 = Some SPend /\ estat_of (fst (cancel_top e2 ex_nested)) 4 = Some SPend /\
  fits ex_race e3 /\ snd (cancel_top e3 ex_race) = false /\ estat_of (fst (cancel_top e3 ex_race)) 1 = Some SPend.
Proof.
  cbv zeta.
  repeat match goal with
  | |- _ /\ _ => split
  | |- fits _ (EMulti _ _) => eapply fits_multi; [reflexivity|repeat constructor]
  | |- fits _ (ELeaf _) => eapply fits_leaf; [reflexivity|discriminate]
  | |- @eq _ _ _ => vm_compute; reflexivity
  | |- Forall _ _ => constructor
  end; try (eapply fits_leaf; [reflexivity|discriminate]).
Qed.
Print Assumptions C53_event_happened_refuted.

(** Cancelling an Event succeeds it, so everybody else waiting for the same
    Event is woken. *)
Theorem C62_wakes_others_refuted : exists h e, fits h e /\ waiting h (ev_id e) /\
  snd (cancel_top e h) = true /\ estat_of (fst (cancel_top e h)) (ev_id e) = Some STrig.
Proof.
  exists [(KEvt, SPend)], (ELeaf 0). split; [eapply fits_leaf; [reflexivity|discriminate]|].
  vm_compute. auto.
Qed.
Print Assumptions C62_wakes_others_refuted.

(** What is kept of it: events that are not below the interrupted task's are
    untouched, whatever the outcome. *)
Theorem C62_unrelated_untouched_partial e h i : fits h e -> ~ In i (below e) ->
  nth_error (fst (cancel e h)) i = nth_error h i.
Proof. intros F Hi. destruct (cancel_correct e h F) as ((_ & U & _) & _). exact (U i Hi). Qed.
Print Assumptions C62_unrelated_untouched_partial.

(** ** Examples *)
Definition ex_tree : ev := EMulti 0 [EMulti 1 [ELeaf 2; ELeaf 3]; ELeaf 4].
Definition ex_heap : heap := [(KMulti false, SFresh); (KMulti false, SFresh); (KWait, SFresh); (KReq, SFresh); (KEvt, SDone)].
Example ex_tree_ok : fits ex_heap ex_tree /\ ahead ex_heap ex_tree /\ all_usable ex_heap (below ex_tree) /\ NoDup (noisy_below ex_heap ex_tree) /\
  arm ex_tree ex_heap = [(KMulti false, SPend); (KMulti false, SPend); (KWait, SPend); (KReq, SPend); (KEvt, SPend)] /\
  cancel ex_tree (arm ex_tree ex_heap) =
    ([(KMulti false, SFail); (KMulti false, SFail); (KWait, SPend); (KReq, SGone); (KEvt, STrig)], true).
Proof.
  split; [|split; [|split; [|split; [|split]]]]; try (vm_compute; reflexivity).
  - repeat first [apply Forall_nil | apply Forall_cons | eapply fits_multi; [reflexivity|]
                 | eapply fits_leaf; [reflexivity|discriminate]].
  - cbn. repeat split; try discriminate; (left; reflexivity) || (right; discriminate).
  - intros i Hi Hk. simpl in Hi.
    destruct Hi as [<-|[<-|[<-|[<-|[<-|[]]]]]]; vm_compute in Hk; try discriminate; exact I.
  - repeat constructor; simpl; intuition discriminate.
Qed.

(** A process that is waited for directly is interrupted if it has not ended; if it has,
    simpy raises.  Nothing else is touched, and every other event is cancelled as above. *)
Theorem C53_process i h s : nth_error h i = Some (KProc, s) ->
  let '(h', ok) := cancel_top (ELeaf i) h in
  (ok = true <-> s = SPend) /\ estat_of h' i = Some (match s with SPend => SGone | _ => s end) /\
  forall j, j <> i -> nth_error h' j = nth_error h j.
Proof.
  intro E. unfold cancel_top. rewrite E. unfold estat_of.
  destruct s; cbn [fst snd]; try (split; [split; [discriminate|discriminate]|]; split; [rewrite E; reflexivity|reflexivity]).
  split; [tauto|]. split; [rewrite nth_setst, Nat.eqb_refl, E; reflexivity|]. intros j J. rewrite nth_setst.
  destruct (Nat.eqb_spec i j); [congruence|reflexivity].
Qed.
Print Assumptions C53_process.
Theorem C53_anything_else e h : fits h e -> (forall i, e = ELeaf i -> ekind_of h i <> Some KProc) -> cancel_top e h = cancel e h.
Proof. intros F N. destruct (top_cases e h F) as [H|(i & -> & K)]; [exact H|]. exfalso. exact (N i eq_refl K). Qed.
Print Assumptions C53_anything_else.
(** Yielding puts every event below that has not been waited for, and every Event that is
    over, among those that are pending; events elsewhere are untouched. *)
Theorem C53_yielded e h : fits h e ->
  (forall i, In i (below e) -> ekind_of h i <> Some KProc -> (forall a, ekind_of h i <> Some (KMulti a)) ->
     estat_of h i = Some SFresh \/ (ekind_of h i = Some KEvt /\ estat_of h i = Some SDone) -> estat_of (arm e h) i = Some SPend) /\
  (forall i, ~ In i (below e) -> nth_error (arm e h) i = nth_error h i).
Proof.
  intro F. split; [intros i I N L S; apply (arm_pends e h F i I); [split; assumption|exact S]|].
  destruct (arm_forward e h F) as (_ & U & _). exact U.
Qed.
Print Assumptions C53_yielded.
(** A yielded All is triggered at once exactly if everything in it is over, an Any if
    something in it is or there is nothing in it; an Event is not over for this, as it is
    replaced, and neither is a combination, as it is made anew.  Otherwise it is pending. *)
Theorem C53_at_once i all subs h : fits h (EMulti i subs) -> ekind_of h i = Some (KMulti all) ->
  let over e := exists j, e = ELeaf j /\ ekind_of h j <> Some KEvt /\ estat_of h j = Some SDone in
  let now := if all then Forall over subs else subs = [] \/ Exists over subs in
  (now -> estat_of (arm (EMulti i subs) h) i = Some STrig) /\ (~ now -> estat_of (arm (EMulti i subs) h) i = Some SPend).
Proof.
  intros F K over now. rewrite (arm_top i all subs h F K). pose proof (at_once_iff i all subs h F K) as A.
  change (if all then Forall (over_sub h) subs else subs = [] \/ Exists (over_sub h) subs) with now in A.
  destruct (at_once _ i subs); split; intro H; try reflexivity; [exfalso; apply H, A; reflexivity|].
  apply A in H. discriminate.
Qed.
Print Assumptions C53_at_once.
(** Any(Wait, Get) yielded again after the Wait is over: an interrupt before the condition is
    delivered raises, and the Get stays in its queue. *)
Theorem C53_over_already_refuted :
  let e := EMulti 0 [ELeaf 1; ELeaf 2] in
  let h := arm e [(KMulti false, SDone); (KWait, SDone); (KReq, SPend)] in
  fits h e /\ estat_of h 0 = Some STrig /\ snd (cancel_top e h) = false /\ estat_of (fst (cancel_top e h)) 2 = Some SPend.
Proof.
  cbv zeta. split; [|vm_compute; auto]. eapply fits_multi; [reflexivity|].
  repeat constructor; (eapply fits_leaf; [reflexivity|discriminate]).
Qed.
Print Assumptions C53_over_already_refuted.
Example C53_process_ex : cancel_top (ELeaf 0) [(KProc, SPend)] = ([(KProc, SGone)], true) /\ snd (cancel_top (ELeaf 0) [(KProc, SDone)]) = false.
Proof. vm_compute. auto. Qed.
