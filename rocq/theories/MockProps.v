(** Properties of rehearsals and the task object: C120, C121. *)
From Verif Require Import Common MockModel MockSpec MockProofs.

(** C120: in any history in which every rehearsal returned, nested ones included, every
    task object uses the real environment and is not rehearsing. *)
Theorem C120_clean clonable os now n vals w tr :
  run clonable os (fresh now n vals) = (w, tr, true) -> forall t, k_env (task_of w t) = None /\ k_reh (task_of w t) = false.
Proof. intros H t. exact (run_clean clonable os _ _ _ (fresh_clean now n vals) H t). Qed.
(** ... so that its clock is the simulation's, which only the simulation moves, and mimic
    states can be activated. *)
Theorem C120_now clonable os now n vals w tr t : run clonable os (fresh now n vals) = (w, tr, true) ->
  do_op clonable (TNow t) w = (w, [ONow t (w_now w)], true) /\ do_op clonable (TMimic t) w = (w, [OMimic], true) /\
  w_now w == now + elapsed os.
Proof.
  intro H. destruct (C120_clean _ _ _ _ _ _ _ H t) as [E R]. split; [cbn; rewrite E; reflexivity|].
  split; [cbn; rewrite R; reflexivity|]. exact (run_now clonable _ _ _ _ _ H).
Qed.
(** The clock and the real actors are as before in any history, also of rehearsals that
    raised, if no decision is rehearsed as if its actor were a clone. *)
Theorem C120_real clonable os w w' tr ok : Forall honest_op os -> run clonable os w = (w', tr, ok) ->
  w_now w' == w_now w + elapsed os /\
  forall x, (x < length (w_actors w))%nat -> a_env (actor_of w x) = None -> actor_of w' x = actor_of w x.
Proof.
  intros F H. split; [exact (run_now clonable _ _ _ _ _ H)|]. exact (proj2 (run_actors clonable _ _ _ _ _ F H)).
Qed.
(** Rehearsing a task (or decision) that is clean: it returns exactly if the actor can be
    cloned and the code raises nothing; then the actor returned is new, its clock is the
    real one plus what the code waits, all clocks read on the way agree with that, and the
    task is clean again.  Other actors, other clones' clocks and other tasks stay as they
    are, whether it returns or not. *)
Theorem C120_rehearsal clonable dec t b who w : flat b -> (t < length (w_tasks w))%nat -> clean (task_of w t) ->
  let u := length (w_actors w) in let i := length (w_mocks w) in
  exists w' tr ok, rehearse clonable dec false t who b w = (w', tr, ok) /\
    (ok = true <-> clonable (a_val (actor_of w who)) = true /\ quiet b) /\
    (forall x, (x < u)%nat -> actor_of w' x = actor_of w x) /\ (forall j, (j < i)%nat -> nth j (w_mocks w') 0 = nth j (w_mocks w) 0) /\
    (forall t', t' <> t -> task_of w' t' = task_of w t') /\ w_now w' = w_now w /\
    (ok = true -> exists o, tr = OMade i (w_now w) :: o ++ [OReturned u] /\ clocked (w_now w) o /\ clean (task_of w' t) /\
       a_env (actor_of w' u) = Some i /\ now_of w' (Some i) == w_now w + (if dec then 0 else takes b) /\
       a_val (actor_of w' u) = leaves b (a_val (actor_of w who))).
Proof. intros F. exact (whole_clone clonable dec t b F who w). Qed.
(** With cloned_actor on a clone, the rehearsal goes on with that clone at its clock. *)
Theorem C120_continued clonable dec t b who w i : flat b -> (t < length (w_tasks w))%nat -> clean (task_of w t) ->
  a_env (actor_of w who) = Some i -> (i < length (w_mocks w))%nat ->
  exists w' tr ok, rehearse clonable dec true t who b w = (w', tr, ok) /\ (ok = true <-> quiet b) /\
    (forall x, x <> who -> actor_of w' x = actor_of w x) /\ (forall j, j <> i -> nth j (w_mocks w') 0 = nth j (w_mocks w) 0) /\
    length (w_actors w') = length (w_actors w) /\ length (w_mocks w') = length (w_mocks w) /\
    (forall t', t' <> t -> task_of w' t' = task_of w t') /\ w_now w' = w_now w /\
    (ok = true -> exists o, tr = o ++ [OReturned who] /\ clocked (now_of w (Some i)) o /\ clean (task_of w' t) /\
       a_env (actor_of w' who) = Some i /\ now_of w' (Some i) == now_of w (Some i) + (if dec then 0 else takes b) /\
       a_val (actor_of w' who) = leaves b (a_val (actor_of w who))).
Proof. intros F. exact (whole_clone_again clonable dec t b F who w i). Qed.
(** Rehearsals in rehearsals: each restores the environment of every task, and those that
    go on with the clone, also of the task itself, share its clock, in order. *)
Theorem C120_env clonable dec cloned t who b w w' tr : rehearse clonable dec cloned t who b w = (w', tr, true) ->
  forall t', k_env (task_of w' t') = k_env (task_of w t').
Proof. intro H. exact (rehearse_env clonable _ _ _ _ _ _ _ _ H). Qed.
Theorem C120_chained clonable dec t b who w i w' tr : chained (length (w_tasks w)) who b -> (t < length (w_tasks w))%nat ->
  a_env (actor_of w who) = Some i -> (i < length (w_mocks w))%nat -> rehearse clonable dec true t who b w = (w', tr, true) ->
  exists o, tr = o ++ [OReturned who] /\ clocked (now_of w (Some i)) o /\ now_of w' (Some i) == now_of w (Some i) + spends dec b /\
    a_val (actor_of w' who) = finally b (a_val (actor_of w who)).
Proof. intros. eapply chain_whole; eauto. Qed.
(** A task given a real actor as a clone raises and changes nothing. *)
Theorem C120_bad_actor clonable t b who w : a_env (actor_of w who) = None ->
  rehearse clonable false true t who b w = (w, [OBadActor], false).
Proof. intro E. unfold rehearse. cbn. rewrite E. reflexivity. Qed.
(** Outside of rehearsals markers are set with the simulation's time and read back. *)
Theorem C120_marker clonable os now n vals w tr t m a : run clonable os (fresh now n vals) = (w, tr, true) -> (t < length (w_tasks w))%nat ->
  let w' := fst (fst (do_op clonable (TMark t m a) w)) in
  k_marker (task_of w' t) = Some (m, w_now w) /\ do_op clonable (TInterrupt t) w' = (w', [OAction a], true) /\
  let w'' := fst (fst (do_op clonable (TClear t) w')) in
  k_marker (task_of w'' t) = None /\ do_op clonable (TInterrupt t) w'' = (w'', [OAction END], true).
Proof.
  intros H L. destruct (C120_clean _ _ _ _ _ _ _ H t) as [E R]. apply Nat.ltb_lt in L. cbn [do_op fst].
  assert (T : task_of (mark t m a w) t = mkT None false (Some (m, w_now w)) a).
  { unfold mark. rewrite task_set, Nat.eqb_refl, L, E, R. reflexivity. }
  rewrite T. split; [reflexivity|]. split; [reflexivity|].
  assert (L' : (t <? length (w_tasks (mark t m a w)))%nat = true) by (unfold mark, set_task; cbn; rewrite upd_length; exact L).
  assert (T2 : task_of (clear t (mark t m a w)) t = mkT None false None END).
  { unfold clear. rewrite task_set, Nat.eqb_refl, L', T. reflexivity. }
  rewrite T2. split; reflexivity.
Qed.
Definition any (v : Z) : bool := true.
Definition code (l : list step) : body := fold_right BDo BEnd l.
(** Two tasks and an actor; one task is rehearsed for 5, then the other on the returned
    clone for 2; the simulation is at 1 all the time. *)
Example C120_demo :
  let '(w, tr, ok) := run any [TAdvance 1; TRehearse false false 0 0 (code [SNow; SWait 5; SNow; SSet 7; SActorNow]);
                               TRehearse false true 1 1 (code [SNow; SWait 2; SNow]); TNow 0; TNow 1] (fresh 0 2 [3%Z]) in
  ok = true /\ tr = [OMade 0 1; ONow 0 1; OWaited (Some 0%nat) 5; ONow 0 6; OActorNow 1 6; OReturned 1;
                     ONow 1 6; OWaited (Some 0%nat) 2; ONow 1 8; OReturned 1; ONow 0 1; ONow 1 1] /\
  actor_of w 0 = mkA None 3 /\ actor_of w 1 = mkA (Some 0%nat) 7.
Proof. vm_compute. repeat split. Qed.
Example C120_demo_flat : flat (code [SNow; SWait 5; SNow; SSet 7; SActorNow]) /\ quiet (code [SNow; SWait 5; SNow; SSet 7; SActorNow]) /\
  Forall honest_op [TAdvance 1; TRehearse false false 0 0 (code [SNow; SWait 5; SNow; SSet 7; SActorNow]);
                    TRehearse false true 1 1 (code [SNow; SWait 2; SNow]); TNow 0; TNow 1] /\ clean (task_of (fresh 0 2 [3%Z]) 0).
Proof. repeat constructor. Qed.
(** A rehearsal in a rehearsal. *)
Example C120_nested :
  let '(w, tr, ok) := run any [TRehearse false false 0 0 (BDo (SWait 5) (BSub false true 1 1 (code [SNow; SWait 2]) (code [SNow; SWait 1]))); TNow 0; TNow 1]
                          (fresh 0 2 [3%Z]) in
  ok = true /\ tr = [OMade 0 0; OWaited (Some 0%nat) 5; ONow 1 5; OWaited (Some 0%nat) 2; OReturned 1; ONow 0 7; OWaited (Some 0%nat) 1; OReturned 1;
                     ONow 0 0; ONow 1 0].
Proof. vm_compute. repeat split. Qed.

(** Of a task by itself, and by another. *)
Example C120_chained_demo :
  let b := BDo (SWait 1) (BSub false true 0 1 (code [SNow; SWait 2; SSet 4]) (BDo SNow (BSub true true 1 1 (code [SNow; SWait 9]) (code [SNow; SActorNow])))) in
  let '(w0, _, _) := run any [TRehearse false false 1 0 (code [SWait 5])] (fresh 0 2 [3%Z]) in
  let '(w, tr, ok) := rehearse any false true 0 1 b w0 in
  chained (length (w_tasks w0)) 1 b /\ a_env (actor_of w0 1) = Some 0%nat /\ ok = true /\
  tr = [OWaited (Some 0%nat) 1; ONow 0 6; OWaited (Some 0%nat) 2; OReturned 1; ONow 0 8; ONow 1 8; OReturned 1; ONow 0 8; OActorNow 1 8; OReturned 1].
Proof. vm_compute. repeat split; lia. Qed.

(** ** C121: what fails *)
(** After a rehearsal that raised the task keeps the rehearsal's clock: at 1 it says 5, the
    next rehearsal begins at 5, and activating a mimic state for real raises. *)
Theorem C121_raised_refuted :
  let '(w, tr, ok) := run any [TRehearse false false 0 0 (code [SWait 5; SRaise]); TAdvance 1; TNow 0; TMimic 0; TRehearse false false 0 0 (code [SNow])]
                          (fresh 0 1 [3%Z]) in
  w_now w == 1 /\ tr = [OMade 0 0; OWaited (Some 0%nat) 5; ORaised; ONow 0 5; OMimicErr; OMade 1 5; ONow 0 5; OReturned 2].
Proof. vm_compute. repeat split. Qed.
(** As after a clone that could not be made. *)
Theorem C121_clone_refuted :
  let '(w, tr, ok) := run (fun v => (v <? 0)%Z) [TRehearse false false 0 0 BEnd; TAdvance 1; TNow 0] (fresh 0 1 [3%Z]) in
  w_now w == 1 /\ tr = [OMade 0 0; OCloneErr; ONow 0 0].
Proof. vm_compute. repeat split. Qed.
(** The markers set by rehearsed code are those of the real task: one to be ignored on
    interruption becomes one that ends, set at a time to come. *)
Theorem C121_marker_refuted :
  let '(w, tr, ok) := run any [TMark 0 1 IGNORE; TInterrupt 0; TRehearse false false 0 0 (code [SWait 3; SMark 2 END]); TInterrupt 0] (fresh 0 1 [3%Z]) in
  ok = true /\ tr = [OAction IGNORE; OMade 0 0; OWaited (Some 0%nat) 3; OReturned 1; OAction END] /\
  k_marker (task_of w 0) = Some (2%Z, 3) /\ w_now w == 0.
Proof. vm_compute. repeat split. Qed.
(** A decision rehearsed as if its actor were a clone changes the real actor. *)
Theorem C121_decision_refuted :
  let '(w, tr, ok) := run any [TRehearse true true 0 0 (code [SSet 9])] (fresh 0 1 [3%Z]) in
  ok = true /\ tr = [OReturned 0] /\ actor_of w 0 = mkA None 9.
Proof. vm_compute. repeat split. Qed.
(** Rehearsing another task from a rehearsal with the clone as the actor to be cloned
    begins at the simulation's time, not at the rehearsal's. *)
Theorem C121_nested_refuted :
  let '(w, tr, ok) := run any [TRehearse false false 0 0 (BDo (SWait 5) (BSub false false 1 1 (code [SNow]) (code [SNow])))] (fresh 0 2 [3%Z]) in
  ok = true /\ tr = [OMade 0 0; OWaited (Some 0%nat) 5; OMade 1 0; ONow 1 0; OReturned 2; ONow 0 5; OReturned 1].
Proof. vm_compute. repeat split. Qed.
(** A task that rehearses itself is no longer guarded against mimic states. *)
Theorem C121_guard_refuted :
  let '(w, tr, ok) := run any [TRehearse false false 0 0 (BDo (SWait 5) (BSub false true 0 1 BEnd (code [SMimic])))] (fresh 0 1 [3%Z]) in
  ok = true /\ In OMimic tr.
Proof. vm_compute. repeat split. auto 6. Qed.

Print Assumptions C120_clean.
Print Assumptions C120_now.
Print Assumptions C120_real.
Print Assumptions C120_rehearsal.
Print Assumptions C120_continued.
Print Assumptions C120_bad_actor.
Print Assumptions C120_marker.
Print Assumptions C121_raised_refuted.
Print Assumptions C121_clone_refuted.
Print Assumptions C121_marker_refuted.
Print Assumptions C121_decision_refuted.
Print Assumptions C121_nested_refuted.
Print Assumptions C121_guard_refuted.

Print Assumptions C120_env.
Print Assumptions C120_chained.
