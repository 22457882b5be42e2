(** Theorems about rehearsing events and tasks. *)
From Verif Require Import Common RehModel RehSpec RehProofs.

(** ** C30 *)

(** Any nesting of Any and All over Waits, Puts, Gets and Events takes the least
    or greatest of its sub-events' times, at every depth; a direct sub-event is
    complete afterwards if and only if its own time is not larger, and the event
    itself is complete. *)
Theorem C30_rehearse_partial h e : ready h e -> exists h' t v, rehearse e h = (h', inl (t, v)) /\
  takes (time_in h) e t /\
  (forall s x, In s (subs_of e) -> takes (time_in h) s x -> kind_in h (rid s) <> Some REvt ->
     is_complete h' (rid s) = true <-> x <= t) /\
  (kind_in h (rid e) <> Some REvt -> is_complete h' (rid e) = true).
Proof.
  intro R. destruct (rehearse_ok h e R) as (h' & t & v & H1 & H2 & _ & H3 & H4 & _). exists h', t, v. auto.
Qed.
(** The time is determined by the tree. *)
Theorem C30_time_unique tm e t t' : takes tm e t -> takes tm e t' -> t == t'.
Proof. exact (takes_unique tm e t t'). Qed.
(** Rehearsing leaves what there is to rehearse as it was: kinds and times. *)
Theorem C30_repeatable h e : ready h e -> ready (fst (rehearse e h)) e /\
  forall t, takes (time_in h) e t <-> takes (time_in (fst (rehearse e h))) e t.
Proof.
  intro R. destruct (rehearse_ok h e R) as (h' & t & v & H1 & _ & A & _). rewrite H1. cbn [fst].
  split; [eapply ready_alike; eauto|]. intro t0. split; apply takes_alike; intro i; [symmetry|]; apply A.
Qed.
(** Below the direct sub-events nothing ever reports complete, whatever it takes. *)
Theorem C30_deep_never_complete h e i : ready h e -> In i (parts e) -> i <> rid e ->
  ~ In i (map rid (subs_of e)) -> kind_in h i <> Some REvt -> is_complete (fst (rehearse e h)) i = false.
Proof.
  intros R. destruct (rehearse_ok h e R) as (h' & t & v & H1 & _ & _ & _ & _ & H5 & _). rewrite H1. exact (H5 i).
Qed.
(** Rehearsing does not change what an Event reports. *)
Theorem C30_event_unchanged h e i : ready h e -> kind_in h i = Some REvt ->
  is_complete (fst (rehearse e h)) i = is_complete h i.
Proof.
  intros R. destruct (rehearse_ok h e R) as (h' & t & v & H1 & _ & _ & _ & _ & _ & H6). rewrite H1. exact (H6 i).
Qed.

Definition wait t := mkN RPlain t false false false.
Definition multi := mkN RMultiK 0 false false false.
(** Any(Wait 4, All(Wait 1, Wait 3)): nodes 0 = Any, 1 = Wait 4, 2 = All, 3, 4. *)
Definition nested : rt := RM 0 true [RL 1; RM 2 false [RL 3; RL 4]].
Definition nested_heap : rheap := [multi; wait 4; multi; wait 1; wait 3].
Example C30_ready : ready nested_heap nested.
Proof.
  assert (L : forall i, In i [1; 3; 4]%nat -> ready nested_heap (RL i)).
  { intros i [<-|[<-|[<-|[]]]]; constructor; left; reflexivity. }
  assert (A : ready nested_heap (RM 2 false [RL 3; RL 4])).
  { constructor; [reflexivity|discriminate| | |].
    - constructor; [apply L; simpl; auto|constructor; [apply L; simpl; auto|constructor]].
    - intros s s' [<-|[<-|[]]] [<-|[<-|[]]]; simpl; congruence.
    - simpl. intros [H|[H|[]]]; discriminate. }
  constructor; [reflexivity|discriminate| | |].
  - constructor; [apply L; simpl; auto|constructor; [exact A|constructor]].
  - intros s s' [<-|[<-|[]]] [<-|[<-|[]]]; simpl; congruence.
  - simpl. intros [H|[H|[H|[H|[]]]]]; discriminate.
Qed.
Example C30_nested : let '(h, r) := rehearse nested nested_heap in
  (r, map (is_complete h) [0; 1; 2; 3; 4]%nat) = (inl (3, RNone), [true; false; true; false; false]).
Proof. vm_compute. reflexivity. Qed.
(** The claim at depth two is false: Wait 1 is over within the rehearsed 3. *)
Theorem C30_depth_refuted : ready nested_heap nested /\ takes (time_in nested_heap) (RL 3) 1 /\
  exists t v h, rehearse nested nested_heap = (h, inl (t, v)) /\ 1 <= t /\ is_complete h 3 = false.
Proof.
  split; [exact C30_ready|]. split; [constructor; reflexivity|].
  exists 3, RNone, (fst (rehearse nested nested_heap)). vm_compute. repeat split; congruence.
Qed.
(** An Event that is the quickest of an Any does not report complete. *)
Theorem C30_event_refuted : let h := [multi; mkN REvt 0 false false false; wait 5] in
  let '(h', r) := rehearse (RM 0 true [RL 1; RL 2]) h in
  r = inl (0, RNone) /\ map (is_complete h') [0; 1; 2]%nat = [true; false; false].
Proof. vm_compute. split; reflexivity. Qed.
(** An empty Any or All cannot be rehearsed: min and max raise ValueError. *)
Theorem C30_empty h i any : snd (rehearse (RM i any []) h) = inr RValue.
Proof. reflexivity. Qed.
(** A ResourceHold takes its time when rehearsed first and nothing when rehearsed again. *)
Theorem C30_hold h i x : nth_error h i = Some x -> x_kind x = RHold false ->
  let '(h1, r1) := rehearse (RL i) h in
  r1 = inl (x_time x, RNone) /\ snd (rehearse (RL i) h1) = inl (0, RNone).
Proof. exact (hold_twice h i x). Qed.
Example C30_hold_example : nth_error [mkN (RHold false) 2 false false false] 0 = Some (mkN (RHold false) 2 false false false).
Proof. reflexivity. Qed.

(** ** C31 *)

(** The rehearsed task's clock is its start plus the times of everything
    rehearsed, routines included. *)
Theorem C31_sum task real n now h s v l : rruns task real n (rinit now h) RNone = (s, v, l) ->
  failed (rr_phase s) = false -> rr_clock s == now + total l.
Proof. intros H F. exact (proj1 (rruns_clock task real n _ _ _ _ _ H F)). Qed.
(** Each event is rehearsed at the start plus the times of those before it, if
    the task yields no plain Routine. *)
Theorem C31_in_order_partial task real n now h s v l : no_routines task ->
  rruns task real n (rinit now h) RNone = (s, v, l) -> in_order now l.
Proof. intros NR H. exact (rruns_order task real n NR _ _ _ _ _ H). Qed.
(** Whenever the body is resumed it sees the start plus everything so far. *)
Theorem C31_body_sees task real n now h s v l s' v' l' : rruns task real n (rinit now h) RNone = (s, v, l) ->
  rr_phase s = RRunning -> rstep task real s v = (s', v', l') ->
  exists c, rr_got s' = rr_got s ++ [(c, v)] /\ c == now + total l.
Proof.
  intros H P E. exists (rr_clock s). split; [exact (rstep_sees task real _ _ _ _ _ P E)|].
  refine (proj1 (rruns_clock task real n _ _ _ _ _ H _)). rewrite P. reflexivity.
Qed.
(** With no negative rehearsal time the clock never goes back, between any two
    points of the rehearsal, and the body sees rising times. *)
Theorem C31_never_back_partial task real n m now h s v l s' v' l' : no_negative h ->
  rruns task real n (rinit now h) RNone = (s, v, l) -> rruns task real m s v = (s', v', l') ->
  rr_clock s <= rr_clock s' /\ now <= rr_clock s.
Proof.
  intros N H H'. destruct (rruns_mono task real n (rinit now h) _ _ _ _ N H) as [M1 N1].
  destruct (rruns_mono task real m _ _ _ _ _ N1 H') as [M2 _]. split; [exact M2|exact M1].
Qed.
Theorem C31_body_sees_rising task real n now h s v l : no_negative h ->
  rruns task real n (rinit now h) RNone = (s, v, l) -> rising (map fst (rr_got s)).
Proof.
  intros N H. refine (rruns_sees task real n (rinit now h) _ _ _ _ N _ _ H); cbn; [intros c []|exact I].
Qed.

(** Waits 2, then Any(Wait 4, All(Wait 1, Wait 3)), then a windowed get of 1/2. *)
Definition demo_heap : rheap := nested_heap ++ [wait 2; mkN RGet (1#2) false false false].
Definition demo : rbody := fun got =>
  match length got with 1%nat => RYield (RL 5) | 2%nat => RYield nested | 3%nat => RWindowed (RL 6) | _ => RReturn end.
Example C31_demo : let '(s, _, l) := rruns demo 0 5 (rinit 10 demo_heap) RNone in
  (map (fun p => (Qred (fst (fst p)), snd (fst p), Qred (snd p))) l, Qred (rr_clock s), rr_phase s,
   map (fun p => (Qred (fst p), snd p)) (rr_got s)) =
  ([(10, 5%nat, 2); (12, 0%nat, 3); (15, 6%nat, 1#2)], 31#2, RFinished,
   [(10, RNone); (12, RNone); (15, RNone); (31#2, RPlanList)]).
Proof. vm_compute. reflexivity. Qed.
Example C31_demo_no_routines : no_routines demo.
Proof. intros got es. unfold demo. destruct (length got) as [|[|[|[|n]]]]; discriminate. Qed.
Example C31_demo_no_negative : no_negative demo_heap.
Proof. intro i. do 7 (destruct i as [|i]; [vm_compute; discriminate|]). destruct i; vm_compute; discriminate. Qed.

(** The events of a Routine are rehearsed while its env shows the simulation's
    clock, not the rehearsal's. *)
Theorem C31_routine_clock_refuted :
  let task := fun got => match length got with 1%nat => RYield (RL 0) | 2%nat => RRoutine [RL 1; RL 1] | _ => RReturn end in
  let '(s, _, l) := rruns task 10 5 (rinit 10 [wait 2; wait 3]) RNone in
  (map (fun p => Qred (fst (fst p))) l, Qred (rr_clock s), rr_phase s) = ([10; 10; 10], 18, RFinished) /\
  ~ in_order 10 l.
Proof. vm_compute. split; [reflexivity|]. intros (_ & H & _). discriminate. Qed.
(** Nothing checks rehearsal_time_to_complete: a negative one moves the clock back. *)
Theorem C31_back_refuted :
  let task := fun got => match length got with 1%nat => RYield (RL 0) | _ => RReturn end in
  let '(s, _, _) := rruns task 10 3 (rinit 10 [mkN RGet (-4) false false false]) RNone in
  (Qred (rr_clock s), rr_phase s) = (6, RFinished).
Proof. vm_compute. reflexivity. Qed.

Print Assumptions C30_rehearse_partial.
Print Assumptions C30_time_unique.
Print Assumptions C30_repeatable.
Print Assumptions C30_deep_never_complete.
Print Assumptions C30_event_unchanged.
Print Assumptions C30_depth_refuted.
Print Assumptions C30_event_refuted.
Print Assumptions C30_empty.
Print Assumptions C30_hold.
Print Assumptions C31_sum.
Print Assumptions C31_in_order_partial.
Print Assumptions C31_body_sees.
Print Assumptions C31_never_back_partial.
Print Assumptions C31_body_sees_rising.
Print Assumptions C31_routine_clock_refuted.
Print Assumptions C31_back_refuted.

(** A ResourceHold is complete after each of its two rehearsals. *)
Theorem C30_hold_complete h i x : nth_error h i = Some x -> x_kind x = RHold false ->
  is_complete (fst (rehearse (RL i) h)) i = true /\ is_complete (fst (rehearse (RL i) (fst (rehearse (RL i) h)))) i = true.
Proof.
  intros E K. destruct x as [k t rh dn pr]. cbn in K. subst k.
  unfold rehearse. cbn [start calc]. unfold calc_leaf, answer_of, is_complete.
  repeat (rewrite !nth_on_node, Nat.eqb_refl; rewrite E; cbn [fst x_kind x_time start1 finish1 x_reh x_done x_processed]).
  split; [reflexivity|].
  repeat (rewrite !nth_on_node, Nat.eqb_refl; rewrite E; cbn [fst x_kind x_time start1 finish1 x_reh x_done x_processed]).
  reflexivity.
Qed.
(** What is not rehearsed is complete when simpy has processed it. *)
Theorem C30_not_rehearsed h i x : nth_error h i = Some x -> x_reh x = false -> is_complete h i = x_processed x.
Proof. intros E R. unfold is_complete. rewrite E, R. destruct (x_kind x); reflexivity. Qed.
Print Assumptions C30_hold_complete.
Print Assumptions C30_not_rehearsed.
