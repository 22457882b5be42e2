(** Theorems C133 and C134: rehearsals and the events of the simulation. *)
From Verif Require Import Common StateModel KnowledgeModel KevModel KevSpec KevProofs.

(** ** C133 *)

(** Take what rehearsed code did out of the record of a simulation: what is left is the record of a simulation in which
    nothing was rehearsed, and it ends with the same knowledge and the same payloads.  Provided no rehearsed code
    triggered an event of the simulation. *)
Theorem C133_unseen (m : nat) (os : list kop) :
  Forall (apart m) os -> hands_off m (snd (krun (kinit m) os)) ->
  let seen := filter (visible m) (snd (krun (kinit m) os)) in
  snd (krun (kinit m) (map fst seen)) = seen /\
  real_know (fst (krun (kinit m) (map fst seen))) = real_know (fst (krun (kinit m) os)) /\
  forall o, real_obj m o = true -> payload_of (fst (krun (kinit m) (map fst seen))) o = payload_of (fst (krun (kinit m) os)) o.
Proof.
  intros P H seen.
  destruct (unseen m os (kinit m) (kinit m) (init_inv m) (rel_refl (kinit m) (fun s F => match F with end)) eq_refl P H) as [A B].
  fold seen in A, B. split; [exact A|].
  destruct (run_inv m os (kinit m) (init_inv m) eq_refl P) as [I M].
  destruct B as [R1 R2 R3 _ _ _ _]. rewrite M in *. split.
  - unfold real_know. rewrite R1, M. clear - R2.
    generalize (k_acts (fst (krun (kinit m) (map fst seen)))) (k_acts (fst (krun (kinit m) os))) R2. clear R2.
    induction m as [|k IH]; intros l l' H; [reflexivity|]. pose proof (H 0%nat ltac:(lia)) as H0.
    destruct l as [|x l], l' as [|y l']; cbn in H0; try discriminate; [reflexivity|]. injection H0 as ->. cbn. f_equal.
    apply IH. intros a La. apply (H (S a)). lia.
  - intros o Ho. unfold payload_of. rewrite (R3 o Ho). reflexivity.
Qed.

(** The proviso holds if no event of the simulation is in the knowledge of an actor when it is cloned: events rehearsed
    code makes for itself are its own. *)
Theorem C133_own (m : nat) (os : list kop) :
  Forall (apart m) os -> always (nothing_held m) (kinit m) os -> hands_off m (snd (krun (kinit m) os)).
Proof. intros P N. apply strict_off; auto; [intros o e; discriminate|apply init_inv]. Qed.

(** *** Example: two actors; the first waits on a hold; the second is rehearsed, with a hold of its own under the same
    name, which is succeeded there; then the real hold is succeeded. *)
Definition story : list kop :=
  [KCreate 0 5%Z true; KOn 0 (0, 0)%nat DYield; KClone 1 []; KCreate 2 5%Z true; KOn 2 (2, 0)%nat DYield; KSucceed 2 5%Z (Some 1%Z);
   KTick; KGet 0 5%Z; KCreate 1 5%Z true; KSucceed 0 5%Z (Some 7%Z); KTick; KWake; KOn 0 (0, 0)%nat DPayload].
Example C133_ex : Forall (apart 2) story /\ always (nothing_held 2) (kinit 2) story /\
  map snd (filter (visible 2) (snd (krun (kinit 2) story)))
  = [OObj (0, 0)%nat; OWaits 0; OVal (Some (VEvent (0, 0)%nat)); OObj (1, 0)%nat; OFired (0, 0, 0)%nat; OProc (0, 0, 0)%nat; OWoke 0 (Some 7%Z); OPay (Some 7%Z)] /\
  In (KSucceed 2 5%Z (Some 1%Z), OFired (2, 0, 0)%nat) (snd (krun (kinit 2) story)).
Proof.
  split; [repeat constructor|]. split.
  { cbn. repeat split. intros x n o e [= <-] []. }
  split; [vm_compute; reflexivity|]. vm_compute. do 5 right. left. reflexivity.
Qed.

(** ** C134 *)

(** Rehearsed code never changes what the actors of the simulation know, nor the payload or the state of their Events. *)
Theorem C134_kept_partial (m : nat) (os : list kop) (op : kop) (a : nat) (o : oid) :
  Forall (apart m) (os ++ [op]) -> author op = Some a -> (m <= a)%nat -> real_obj m o = true ->
  let w := fst (krun (kinit m) os) in
  real_know (fst (kstep w op)) = real_know w /\ k_objs (fst (kstep w op)) o = k_objs w o.
Proof.
  intros P A L O w. apply Forall_app in P. destruct P as [P1 P2].
  destruct (run_inv m os (kinit m) (init_inv m) eq_refl P1) as [I M]. fold w in I, M.
  apply (keeps_step w op a o I); rewrite ?M; auto. inversion P2; assumption.
Qed.
Example C134_ex : Forall (apart 1) ([KCreate 0 5%Z true; KClone 0 []] ++ [KSucceed 1 5%Z None]) /\ real_obj 1 (0, 0)%nat = true.
Proof. split; [repeat constructor|reflexivity]. Qed.

(** A rehearsal that succeeds a knowledge event wakes the process that waits in the simulation: the copy of the Event
    has the simpy event.  The payload does not arrive. *)
Definition held : list kop := [KCreate 0 5%Z true; KOn 0 (0, 0)%nat DYield].
Theorem C134_woken_refuted : exists os, Forall (apart 1) (held ++ os) /\
  Forall (fun op => match op with KClone 0 [] | KTick | KWake => True | _ => author op = Some 1%nat end) os /\
  snd (krun (fst (krun (kinit 1) held)) os)
  = [(KClone 0 [], OActor 1); (KSucceed 1 5%Z (Some 9%Z), OFired (0, 0, 0)%nat); (KTick, OProc (0, 0, 0)%nat); (KWake, OWoke 0 None)].
Proof.
  exists [KClone 0 []; KSucceed 1 5%Z (Some 9%Z); KTick; KWake]. split; [repeat constructor|]. split; [repeat constructor|]. vm_compute. reflexivity.
Qed.
(** The event is still under its name in the simulation; succeeding it there raises, RuntimeError before it is processed,
    SimulationError afterwards, and takes the name away. *)
Theorem C134_again_refuted :
  let w := fst (krun (kinit 1) (held ++ [KClone 0 []; KSucceed 1 5%Z (Some 9%Z)])) in
  snd (kstep w (KGet 0 5%Z)) = OVal (Some (VEvent (0, 0)%nat)) /\
  snd (kstep w (KSucceed 0 5%Z (Some 7%Z))) = ORun /\
  snd (krun w [KTick; KWake; KSucceed 0 5%Z (Some 7%Z); KGet 0 5%Z]) =
    [(KTick, OProc (0, 0, 0)%nat); (KWake, OWoke 0 None); (KSucceed 0 5%Z (Some 7%Z), OSim); (KGet 0 5%Z, OVal None)].
Proof. vm_compute. auto. Qed.
(** And the other way: what happens to the event in the simulation is seen by a clone made before. *)
Theorem C134_back_refuted :
  let w := fst (krun (kinit 1) (held ++ [KClone 0 []])) in
  snd (krun w [KOn 1 (1, 0)%nat DComplete; KSucceed 0 5%Z (Some 7%Z); KTick; KOn 1 (1, 0)%nat DComplete; KOn 1 (1, 0)%nat DPayload]) =
    [(KOn 1 (1, 0)%nat DComplete, OBool false); (KSucceed 0 5%Z (Some 7%Z), OFired (0, 0, 0)%nat); (KTick, OProc (0, 0, 0)%nat);
     (KOn 1 (1, 0)%nat DComplete, OBool true); (KOn 1 (1, 0)%nat DPayload, OPay None)].
Proof. vm_compute. reflexivity. Qed.

Print Assumptions C133_unseen.
Print Assumptions C133_own.
Print Assumptions C134_kept_partial.
Print Assumptions C134_woken_refuted.
Print Assumptions C134_again_refuted.
Print Assumptions C134_back_refuted.
