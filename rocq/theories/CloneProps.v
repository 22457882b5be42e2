(** Theorems about rehearsing on a clone (C25). *)
From Verif Require Import Common StateModel NetModel CloneModel CloneSpec CloneProofs.

(** Whatever rehearsed tasks do with the clone, and however a network rehearsal
    ends: the real actor's states and knowledge are the same values and objects,
    its queues the same lists, its clock the same, and no object is changed
    unless it lies inside an object that the actor (or the given knowledge) holds. *)
Theorem C25_task_partial extra w os : let w' := crun (clone extra w) os in
  same_actor (w_real w') (w_real w) /\
  forall l, (l < List.length (w_heap w))%nat -> ~ inside w extra l -> nth_error (w_heap w') l = nth_error (w_heap w) l.
Proof.
  assert (F : frame w extra (crun (clone extra w) os)) by apply run_frame, clone_frame.
  split; [exact (frame_same w extra _ F)|exact (frame_seen w extra _ F)].
Qed.
Theorem C25_network_partial d n plan names endt fuel extra w :
  let w' := fst (rehearse_network d n plan names endt fuel extra w) in
  same_actor (w_real w') (w_real w) /\
  forall l, (l < List.length (w_heap w))%nat -> ~ inside w extra l -> nth_error (w_heap w') l = nth_error (w_heap w) l.
Proof.
  pose proof (net_frame d n plan names endt fuel extra w) as F.
  split; [exact (frame_same w extra _ F)|exact (frame_seen w extra _ F)].
Qed.
(** A state or knowledge entry and the direct contents of its value. *)
Theorem C25_contents_kept d n plan names endt fuel extra w p k l : p = PState k \/ p = PKnow k ->
  seen w p = Some (CRef l) -> (l < List.length (w_heap w))%nat -> ~ inside w extra l ->
  let w' := fst (rehearse_network d n plan names endt fuel extra w) in
  seen w' p = seen w p /\ forall f, seen w' (PField p f) = seen w (PField p f).
Proof.
  intros Hp E L NI. exact (frame_one_deep w extra _ p k l (net_frame d n plan names endt fuel extra w) Hp E L NI).
Qed.
(** If no object held contains objects, nothing at all that can be reached from
    the real actor is changed. *)
Theorem C25_flat d n plan names endt fuel extra w p : flat w extra -> closed w extra ->
  seen (fst (rehearse_network d n plan names endt fuel extra w)) p = seen w p.
Proof.
  intros F [C1 C2].
  exact (frame_look w extra _ p (net_frame d n plan names endt fuel extra w) (flat_inside w extra F) C2 C1).
Qed.
Theorem C25_flat_task extra w os p : flat w extra -> closed w extra -> seen (crun (clone extra w) os) p = seen w p.
Proof.
  intros F [C1 C2].
  exact (frame_look w extra _ p (run_frame w extra os _ (clone_frame w extra)) (flat_inside w extra F) C2 C1).
Qed.
(** Task queues, when the rehearsed tasks change queues in place only after
    clearing them. *)
Theorem C25_queues_task_partial extra w os m : sound w -> cleared_first [] os ->
  queues (crun (clone extra w) os) m = queues w m.
Proof.
  intros S C. apply kept_queues; [exact S| |].
  - rewrite run_real. apply clone_real.
  - apply (run_kept w os _ []); [apply kept_refl|intros n []|exact C].
Qed.
(** Task queues, for a network rehearsal without an end task, or when the real
    queue of the network is empty. *)
Theorem C25_queues_network_partial d n plan names endt fuel extra w m :
  (forall t w, Forall (fun o => in_place o = None) (fst (plan t w))) ->
  endt = None \/ queues w n = Some [] -> sound w ->
  queues (fst (rehearse_network d n plan names endt fuel extra w)) m = queues w m.
Proof.
  intros PL EQ S. apply kept_queues; [exact S| |exact (net_kept d n plan names endt fuel extra w PL EQ S)].
  apply (frame_same w extra _ (net_frame d n plan names endt fuel extra w)).
Qed.
(** A rehearsal that returns leaves the network at the task it was in. *)
Theorem C25_position d n plan names endt fuel extra w :
  snd (rehearse_network d n plan names endt fuel extra w) = NDone ->
  position (fst (rehearse_network d n plan names endt fuel extra w)) = position w.
Proof. exact (net_position d n plan names endt fuel extra w). Qed.

(** ** Examples and counterexamples *)
Open Scope string_scope.
(** State 1 is the number 5, state 2 a list of numbers, knowledge 3 an object. *)
Definition demo_real : cactor :=
  mkCA [(1%Z, CAtom 5); (2%Z, CRef 0)] [(3%Z, CRef 1)] [("net", 0%nat)] 10 0.
Definition demo : cworld :=
  mkCW [[(0%Z, CAtom 7); (1%Z, CAtom 8)]; [(0%Z, CAtom 9)]] [["B"; "A"]] demo_real demo_real (Some "A") (Some 42%nat) (Some 43%nat).
Definition demo_net : netdef := mkNet [("A", KTask); ("B", KTask)] [("A", mkLinks (Some "B") ["B"]); ("B", mkLinks (Some "A") ["A"])].
Definition demo_plan : string -> cworld -> list cop * bool := fun t _ =>
  if String.eqb t "A" then ([CSet 1%Z (EAtom 6%Z); CField (PState 2%Z) 0%Z (EAtom 70%Z); CAdvance 3], true)
  else ([CKnow 4%Z (EPath (PState 2%Z)); CField (PKnow 4%Z) 1%Z (EAtom 80%Z); CForget 3%Z; CQClear "net"; CQAdd "net" "A"], true).
Example C25_demo_flat : flat demo [] /\ closed demo [] /\ sound demo.
Proof.
  repeat split.
  - intros r o k v (j & [H|[H|[H|[]]]]) E I; inversion H; subst; inversion E; subst; simpl in I;
      repeat (destruct I as [I|I]; [inversion I; eauto|]); contradiction.
  - intros l (j & [H|[H|[H|[]]]]); inversion H; subst; simpl; lia.
  - intros l o k m E I. destruct l as [|[|l]]; simpl in E; inversion E; subst; simpl in I;
      repeat (destruct I as [I|I]; [inversion I|]); try contradiction. destruct l; discriminate.
  - intros n l [H|[]]. inversion H; subst. simpl. lia.
Qed.
Example C25_demo_cleared : cleared_first [] (fst (demo_plan "A" demo) ++ fst (demo_plan "B" demo)).
Proof. vm_compute. auto 10. Qed.
Definition at_all (w : cworld) := map (seen w) [PState 1%Z; PState 2%Z; PField (PState 2%Z) 0%Z; PField (PState 2%Z) 1%Z; PKnow 3%Z; PField (PKnow 3%Z) 0%Z; PKnow 4%Z].
Example C25_demo : let '(w, r) := rehearse_network demo_net "net" demo_plan ["A"; "B"] None 9 [] demo in
  r = NDone /\ at_all w = at_all demo /\ queues w "net" = Some ["B"; "A"] /\
  look (w_heap w) (w_und w) (PField (PState 2%Z) 0%Z) = Some (CAtom 70) /\ Qred (ac_clock (w_und w)) = 13.
Proof. vm_compute. repeat split. Qed.
(** A list inside a list: the clone's inner list is the real actor's. *)
Definition deep : cworld :=
  mkCW [[(0%Z, CRef 1)]; [(0%Z, CAtom 9)]] [] (mkCA [(1%Z, CRef 0)] [] [] 0 0) (mkCA [] [] [] 0 0) None None None.
Theorem C25_nested_refuted : closed deep [] /\
  seen (crun (clone [] deep) [CField (PField (PState 1%Z) 0%Z) 0%Z (EAtom 90%Z)]) (PField (PField (PState 1%Z) 0%Z) 0%Z) = Some (CAtom 90) /\
  seen deep (PField (PField (PState 1%Z) 0%Z) 0%Z) = Some (CAtom 9).
Proof.
  split; [|vm_compute; split; reflexivity]. split.
  - intros l (j & [H|[]]); inversion H; subst; simpl; lia.
  - intros l o k m E I. destruct l as [|[|l]]; cbn in E.
    + inversion E; subst. destruct I as [I|[]]. inversion I; subst. cbn. lia.
    + inversion E; subst. destruct I as [I|[]]. inversion I.
    + destruct l; discriminate.
Qed.
(** Rehearsing the network up to an end task takes the tasks off the real queue. *)
Theorem C25_queue_refuted :
  let '(w, r) := rehearse_network demo_net "net" (fun _ _ => ([], true)) ["B"] (Some "A") 9 [] demo in
  (r, queues w "net") = (NDone, Some []) /\ queues demo "net" = Some ["B"; "A"].
Proof. vm_compute. split; reflexivity. Qed.
(** A rehearsal that raises leaves the running network at the rehearsed task. *)
Theorem C25_raise_refuted :
  let '(w, r) := rehearse_network demo_net "net" (fun _ _ => ([], false)) ["B"] None 9 [] demo in
  (r, position w) = (NRaised, (Some "B", Some 0%nat, Some 43%nat)) /\ position demo = (Some "A", Some 42%nat, Some 43%nat).
Proof. vm_compute. split; reflexivity. Qed.

Print Assumptions C25_task_partial.
Print Assumptions C25_network_partial.
Print Assumptions C25_contents_kept.
Print Assumptions C25_flat.
Print Assumptions C25_flat_task.
Print Assumptions C25_queues_task_partial.
Print Assumptions C25_queues_network_partial.
Print Assumptions C25_position.
Print Assumptions C25_nested_refuted.
Print Assumptions C25_queue_refuted.
Print Assumptions C25_raise_refuted.
