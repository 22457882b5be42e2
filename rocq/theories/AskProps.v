(** Property C124: every request made of a store has one answer. *)
From Coq Require Import Permutation.
From Verif Require Import Common StoreModel StoreSpec StoreProofs AskSpec AskProofs.

Section Props.
Variable A : Type.
Variable eqb : A -> A -> bool.
Variable truthy : A -> bool.
Variable item_func : list A -> Z.
Local Notation run := (run A eqb truthy item_func).
Local Notation init := (init A item_func).

(** C124: every put and get is waiting, or has one answer: nothing is answered twice, nothing
    forgotten, nothing answered that was not asked. *)
Theorem C124_once k c t0 os s h : run (init k c t0) os = (s, h) ->
  Permutation (map fst (asked 0 os)) (open_requests s ++ answers h) /\ NoDup (open_requests s ++ answers h).
Proof.
  intro H. pose proof (once A eqb truthy item_func k c t0 os s h H) as P. split; [exact P|]. eapply Permutation_NoDup; [exact P|apply asked_nodup].
Qed.
(** What a put stores is the item of that put; what is handed out goes to a get and
    passes its filter. *)
Theorem C124_as_asked k c t0 os s h : run (init k c t0) os = (s, h) ->
  (forall r x, In (HStored r x) h \/ In (HPutDone r x) h -> In (r, RPut x) (asked 0 os)) /\
  (forall r x, In (HTaken r x) h \/ In (HDelivered r x) h \/ In (HLost r x) h -> exists g, In (r, RGet g) (asked 0 os) /\ suits k g x).
Proof.
  intro H. apply (run_fair A eqb truthy item_func (asked 0 os)) in H as [_ F]; [exact F|auto|apply init_numbered|].
  repeat split; cbn; contradiction.
Qed.
(** An item is stored, or taken out, before the request hears of it. *)
Theorem C124_granted_first k c t0 os s h : run (init k c t0) os = (s, h) ->
  (forall r x, In (HPutDone r x) h -> In (HStored r x) h) /\ (forall r x, In (HDelivered r x) h \/ In (HLost r x) h -> In (HTaken r x) h).
Proof.
  intro H. apply (run_inv A eqb truthy item_func (granted A)) in H as [X Y]; [|split; cbn; intros; intuition|intros; eapply step_granted; eassumption].
  split; intros r a I; [apply X|apply Y]; tauto.
Qed.
(** Every item a get is given, is going to be given or has lost, and every item inside, was
    put by somebody. *)
Theorem C124_from_a_put k c t0 os s h : (forall x y, eqb x y = true <-> x = y) -> run (init k c t0) os = (s, h) ->
  (forall r x, In (HTaken r x) h \/ In (HDelivered r x) h \/ In (HLost r x) h -> exists r', In (r', RPut x) (asked 0 os)) /\
  (forall x, In x (s_items s) -> exists r', In (r', RPut x) (asked 0 os)).
Proof.
  intros EQ H. destruct (C124_as_asked k c t0 os s h H) as [P _]. pose proof (items_conserved A eqb truthy item_func EQ k c t0 os s h H) as C. pose proof (delivery_in_order A eqb truthy item_func k c t0 os s h H) as D.
  assert (G : forall x, In x (map snd (delivered A h) ++ map snd (in_flight A s) ++ s_items s ++ map snd (lost A h)) -> exists r', In (r', RPut x) (asked 0 os)).
  { intros x I. apply (Permutation_in x (Permutation_sym C)) in I. apply in_map_iff in I as ([r' y] & <- & I). exists r'. apply P. left. unfold stored in I. apply in_flat_map in I as (e & I & J).
    destruct e; cbn in J; try contradiction. destruct J as [J|[]]. injection J as <- <-. exact I. }
  assert (HD : forall r x, In (HDelivered r x) h -> In x (map snd (delivered A h))) by (intros r x I; apply in_map_iff; exists (r, x); split; [reflexivity|]; apply in_flat_map; exists (HDelivered r x); cbn; auto).
  assert (HL : forall r x, In (HLost r x) h -> In x (map snd (lost A h))) by (intros r x I; apply in_map_iff; exists (r, x); split; [reflexivity|]; apply in_flat_map; exists (HLost r x); cbn; auto).
  split; [|intros x I; apply G; rewrite !in_app_iff; auto].
  intros r x I. apply G. rewrite !in_app_iff. destruct I as [I|[I|I]]; [|left; exact (HD _ _ I)|right; right; right; exact (HL _ _ I)].
  assert (T : In (r, x) (taken A h)) by (apply in_flat_map; exists (HTaken r x); cbn; auto). rewrite <- D in T. apply in_app_or in T as [T|T].
  - unfold handed_over in T. apply in_flat_map in T as (e & T & J). destruct e; cbn in J; try contradiction; destruct J as [J|[]]; injection J as <- <-; [left; exact (HD _ _ T)|right; right; right; exact (HL _ _ T)].
  - right. left. apply in_map_iff. exists (r, x). auto.
Qed.
(** A get whose item was taken and that is cancelled before it is told never gets it; a
    request cancelled while it waits is out of the queue for good and hears nothing; a get that
    is not cancelled never loses its item. *)
Theorem C124_given_up k c t0 os1 s1 h1 os2 s2 h2 r x : run (init k c t0) os1 = (s1, h1) -> In (EGet r x) (s_agenda s1) ->
  run (init k c t0) (os1 ++ OpCancel r :: os2) = (s2, h2) -> forall y, ~ In (HDelivered r y) h2.
Proof. exact (given_up A eqb truthy item_func k c t0 os1 s1 h1 os2 s2 h2 r x). Qed.
Theorem C124_taken_back k c t0 os1 s1 h1 os2 s2 h2 r : run (init k c t0) os1 = (s1, h1) -> In r (map fst (s_putq s1) ++ map fst (s_getq s1)) ->
  run (init k c t0) (os1 ++ OpCancel r :: os2) = (s2, h2) ->
  In (HCancelled r) h2 /\ ~ In r (open_requests s2) /\ forall x, ~ In (HPutDone r x) h2 /\ ~ In (HDelivered r x) h2 /\ ~ In (HLost r x) h2.
Proof. exact (taken_back A eqb truthy item_func k c t0 os1 s1 h1 os2 s2 h2 r). Qed.
Theorem C124_kept k c t0 os s h r x : run (init k c t0) os = (s, h) -> ~ In (OpCancel r) os -> ~ In (HLost r x) h /\ ~ In (HCancelled r) h.
Proof. intros H N. split; [|exact (never_cancelled A eqb truthy item_func os _ _ _ r H N)]. refine (never_lost A eqb truthy item_func os _ _ _ r x H _ N). intros []. Qed.
End Props.

Definition big (n : Z) : greq Z := mkG (fun x => Z.ltb n x) None false.
Definition busy : list (op Z) :=
  [OpPut 3%Z; OpGet (big 5); OpGet (big 1); OpProcess; OpPut 7%Z; OpProcess; OpProcess; OpCancel 1; OpProcess; OpProcess; OpPut 8%Z; OpPut 9%Z; OpCancel 5; OpGet (big 9)].
Example C124_ex : exists s h, run Z Z.eqb (fun _ => true) (fun l => Z.of_nat (length l)) (init Z (fun l => Z.of_nat (length l)) KFilter (Some 1%nat) 0) busy = (s, h) /\
  map fst (asked 0 busy) = [0; 1; 2; 3; 4; 5; 6]%nat /\ open_requests s = [6; 4]%nat /\ answers h = [0; 2; 3; 1; 5]%nat /\
  In (HDelivered 2 3%Z) h /\ In (HLost 1 7%Z) h /\ In (HCancelled 5) h.
Proof. eexists _, _. split; [vm_compute; reflexivity|]. vm_compute. repeat split; auto 20. Qed.

Print Assumptions C124_once.
Print Assumptions C124_as_asked.
Print Assumptions C124_granted_first.
Print Assumptions C124_from_a_put.
Print Assumptions C124_given_up.
Print Assumptions C124_taken_back.
Print Assumptions C124_kept.
