(** C14, C15, C16, C59: linear and shared linear states, and their locks. *)
From Verif Require Import Common ActiveModel ActiveSpec ActiveProofs.

(** ** C14 *)

(** The value read is the last assigned value plus what each task contributed
    since: rate times the time it had the state active.  Missing for the full
    claim: assignments to an active state that was not read first (see below). *)
Theorem C14_linear_exact_partial t0 l i v0 os ts :
  nth_error l i = Some (Linear, v0) -> proper (ideal_init t0 l) os ->
  NoDup ts -> (forall o, In o os -> incl (task_of o) ts) ->
  Forall loop_finished (snd (arun (ainit t0 l) os)) ->
  reads (fst (arun (ainit t0 l) os)) i
    (last_assigned v0 i (snd (arun (ainit t0 l) os))
     + Qsum (map (fun t => contribution t0 i t (snd (arun (ainit t0 l) os))) ts)).
Proof. exact (sum_of_contributions t0 l i Linear v0 os ts). Qed.
Print Assumptions C14_linear_exact_partial.

(** Every operation's result is that of the ideal actor, whose reads change nothing. *)
Theorem C14_refines_ideal t0 l os : proper (ideal_init t0 l) os ->
  same_trace (snd (arun (ainit t0 l) os)) (snd (ideal_run (ideal_init t0 l) os)).
Proof. intro H. exact (proj1 (run_ok _ _ H _ (init_rel t0 l))). Qed.
Print Assumptions C14_refines_ideal.

(** Leaving out any reads changes no later result. *)
Theorem C14_reads_do_not_matter t0 l os os' : proper (ideal_init t0 l) (no_reads os ++ os') ->
  same_trace (snd (arun (fst (arun (ainit t0 l) os)) os'))
             (snd (arun (fst (arun (ainit t0 l) (no_reads os))) os')).
Proof. exact (reads_do_not_matter t0 l os os'). Qed.
Print Assumptions C14_reads_do_not_matter.

(** Between two moments with no operation on the state its value moves by the
    elapsed time times the sum of the rates in force. *)
Theorem C14_growth t0 l os mid i v : proper (ideal_init t0 l) os ->
  proper (fst (ideal_run (ideal_init t0 l) os)) mid -> forallb (quiet i) mid = true ->
  reads (fst (arun (ainit t0 l) os)) i v ->
  let b := fst (ideal_run (ideal_init t0 l) os) in
  exists y, nth_error (i_slots b) i = Some y /\ i_val y == v /\
  reads (fst (arun (fst (arun (ainit t0 l) os)) mid)) i
        (v + (a_now (fst (arun (fst (arun (ainit t0 l) os)) mid)) - a_now (fst (arun (ainit t0 l) os)))
             * Qsum (map snd (i_act y))).
Proof. exact (growth t0 l os mid i v). Qed.
Print Assumptions C14_growth.

(** Assigning an active state without reading it first: the change accrued
    before the assignment is added again to the assigned value, and a read just
    before the assignment would have changed the result. *)
Theorem C14_assign_while_active_refuted :
  let os := [AActivate 0 1 (Some 1); ATime 10; AAssign 0 100] in
  let os' := [AActivate 0 1 (Some 1); ATime 10; ARead 0; AAssign 0 100] in
  snd (astep (fst (arun (ainit 0 [(Linear, 0)]) os)) (ARead 0)) = AVal (110 # 1) /\
  snd (astep (fst (arun (ainit 0 [(Linear, 0)]) os')) (ARead 0)) = AVal (100 # 1).
Proof. split; vm_compute; reflexivity. Qed.
Print Assumptions C14_assign_while_active_refuted.

(** ** C15 *)
Theorem C15_shared_exact t0 l i v0 os ts :
  nth_error l i = Some (Shared, v0) -> proper (ideal_init t0 l) os ->
  NoDup ts -> (forall o, In o os -> incl (task_of o) ts) ->
  Forall loop_finished (snd (arun (ainit t0 l) os)) ->
  reads (fst (arun (ainit t0 l) os)) i
    (last_assigned v0 i (snd (arun (ainit t0 l) os))
     + Qsum (map (fun t => contribution t0 i t (snd (arun (ainit t0 l) os))) ts)).
Proof. exact (sum_of_contributions t0 l i Shared v0 os ts). Qed.
Print Assumptions C15_shared_exact.

(** In any state: a task holding the state may not activate it again. *)
Theorem C15_no_double_activation a i t r : holds a t i -> astep a (AActivate i t r) = (a, AErr ESim).
Proof. exact (shared_held_refuses a i t r). Qed.
Print Assumptions C15_no_double_activation.

(** In any state: deactivating by one task releases that task and no other. *)
Theorem C15_others_stay a i t u j :
  holds (fst (astep a (ADeactivate i t))) u j <-> holds a u j /\ (u, j) <> (t, i).
Proof. exact (deactivate_releases a i t u j). Qed.
Print Assumptions C15_others_stay.

(** ** C16: for every sequence of operations, failing ones included *)
Theorem C16_one_holder t0 l os i t u :
  let a := fst (arun (ainit t0 l) os) in
  kind_of a i <> Some Shared -> holds a t i -> holds a u i -> t = u.
Proof. exact (one_holder _ i t u (lock_inv_run os _ (lock_inv_init t0 l))). Qed.
Print Assumptions C16_one_holder.

Theorem C16_second_activation_refused a i t u r :
  kind_of a i <> Some Shared -> holds a t i -> astep a (AActivate i u r) = (a, AErr ESim).
Proof. exact (held_refuses a i t u r). Qed.
Print Assumptions C16_second_activation_refused.

Theorem C16_stranger_cannot_deactivate a i t : ~ holds a t i ->
  exists e, astep a (ADeactivate i t) = (a, AErr e).
Proof. exact (not_holder_refused a i t). Qed.
Print Assumptions C16_stranger_cannot_deactivate.

Theorem C16_activation_acquires a i t r : snd (astep a (AActivate i t r)) = AOk -> forall u j,
  holds (fst (astep a (AActivate i t r))) u j <-> holds a u j \/ (u, j) = (t, i).
Proof. exact (activate_acquires a i t r). Qed.
Print Assumptions C16_activation_acquires.

Theorem C16_deactivate_all t0 l os t : Forall (well_used (map fst l)) os ->
  let a := fst (arun (ainit t0 l) os) in
  snd (astep a (ADeactivateAll t)) = AOk /\
  forall u j, holds (fst (astep a (ADeactivateAll t))) u j <-> holds a u j /\ u <> t.
Proof. intro H. exact (deactivate_all_releases _ _ t (sound_run _ os H _ (sound_init t0 l))). Qed.
Print Assumptions C16_deactivate_all.

(** ** C59 *)

(** Activating a state that is not active, or a linear state without a rate,
    raises, yet the state stays locked for the task: another task's proper
    activation is then refused, and in the second case the state cannot be read. *)
Theorem C59_failed_activation_refuted :
  let a := ainit 0 [(Linear, 5); (Plain, 7)] in
  let '(a1, r1) := astep a (AActivate 0 1 None) in
  let '(a2, r2) := astep a (AActivate 1 1 (Some 1)) in
  r1 = AErr EKey /\ r2 = AErr EAssert /\
  snd (astep a (AActivate 0 2 (Some 1))) = AOk /\
  snd (astep a1 (AActivate 0 2 (Some 1))) = AErr ESim /\
  snd (astep a1 (ARead 0)) = AErr EKey /\
  snd (astep (fst (astep a1 (ADeactivate 0 1))) (ARead 0)) = AErr EKey /\
  holds a2 1 1.
Proof. vm_compute. repeat split. eexists. split; [reflexivity|]. left. reflexivity. Qed.
Print Assumptions C59_failed_activation_refuted.

(** The refusals that come from the lock change nothing. *)
Theorem C59_lock_refusal_partial a i t r :
  (nth_error (a_slots a) i = None \/ holds a t i \/ (exists u, holds a u i /\ kind_of a i <> Some Shared)) ->
  astep a (AActivate i t r) = (a, AErr ESim).
Proof.
  intros [H|[H|(u & H & Hk)]].
  - cbn. unfold activate. rewrite H. reflexivity.
  - exact (shared_held_refuses a i t r H).
  - exact (held_refuses a i u t r Hk H).
Qed.
Print Assumptions C59_lock_refusal_partial.

(** ** Examples *)
Definition ex_l : list (skind * Q) := [(Linear, 0); (Shared, 10)].
Definition ex_os : list aop :=
  [AActivate 0 1 (Some 2); AActivate 1 1 (Some 1); ATime 3; ARead 0; AActivate 1 2 (Some (-2));
   ATime 5; ADeactivate 0 1; ADeactivate 1 1; ATime 7; ARead 1].
Example ex_proper : proper (ideal_init 0 ex_l) ex_os.
Proof.
  unfold ex_os. repeat (apply proper_cons; [cbn; try (split; discriminate); reflexivity || exact I|]). apply proper_nil.
Qed.
Example ex_finished : Forall loop_finished (snd (arun (ainit 0 ex_l) ex_os)).
Proof. vm_compute. repeat constructor. Qed.
Example ex_values :
  reads (fst (arun (ainit 0 ex_l) ex_os)) 0 10 /\ reads (fst (arun (ainit 0 ex_l) ex_os)) 1 7 /\
  last_assigned 0 0 (snd (arun (ainit 0 ex_l) ex_os)) = 0 /\
  contribution 0 0 1 (snd (arun (ainit 0 ex_l) ex_os)) == 10 /\
  contribution 0 1 1 (snd (arun (ainit 0 ex_l) ex_os)) == 5 /\
  contribution 0 1 2 (snd (arun (ainit 0 ex_l) ex_os)) == -8.
Proof.
  unfold reads. repeat split; try (vm_compute; reflexivity).
  - eexists. split; vm_compute; reflexivity.
  - eexists. split; vm_compute; reflexivity.
Qed.
Example ex_reads : proper (ideal_init 0 ex_l) (no_reads ex_os ++ [ARead 0; ARead 1]).
Proof.
  unfold ex_os. cbn [no_reads filter is_read negb app].
  repeat (apply proper_cons; [cbn; try (split; discriminate); reflexivity || exact I|]). apply proper_nil.
Qed.
Example ex_assign_after_read :
  proper (ideal_init 0 [(Linear, 0)]) [AActivate 0 1 (Some 1); ATime 10; ARead 0; AAssign 0 100; ATime 12].
Proof.
  apply proper_cons; [split; discriminate|]. apply proper_cons; [exact I|]. apply proper_assign.
  apply proper_cons; [exact I|]. apply proper_nil.
Qed.
Example ex_growth :
  proper (fst (ideal_run (ideal_init 0 ex_l) ex_os)) [ARead 0; ATime 9] /\
  forallb (quiet 1) [ARead 0; ATime 9] = true /\
  reads (fst (arun (fst (arun (ainit 0 ex_l) ex_os)) [ARead 0; ATime 9])) 1 3.
Proof.
  split; [repeat (apply proper_cons; [exact I|]); apply proper_nil|]. split; [reflexivity|].
  eexists. split; vm_compute; reflexivity.
Qed.
Example ex_locks :
  let a := fst (arun (ainit 0 ex_l) [AActivate 0 1 (Some 2); AActivate 1 1 (Some 1); AActivate 1 2 (Some 3)]) in
  holds a 1 0 /\ kind_of a 0 = Some Linear /\ ~ holds a 2 0 /\ holds a 2 1 /\
  snd (astep a (ADeactivateAll 1)) = AOk /\ holds (fst (astep a (ADeactivateAll 1))) 2 1.
Proof.
  vm_compute. repeat split; try (eexists; split; [reflexivity|]; cbn; tauto).
  intros (x & E & H). injection E as <-. destruct H as [H|[]]. discriminate.
Qed.
Example ex_well_used : Forall (well_used (map fst ex_l)) ex_os.
Proof. unfold ex_os. repeat constructor; cbn; discriminate. Qed.
