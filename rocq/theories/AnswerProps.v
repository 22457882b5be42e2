(** Theorems about the answers a container gives (C115). *)
From Coq Require Import Permutation.
From Verif Require Import Common ContainerModel ContainerSpec ContainerProofs AnswerSpec AnswerProofs.

(** C115: every request is waiting, or has one answer: nothing is answered twice, nothing
    forgotten, nothing answered that was not asked. *)
Theorem C115_once cap lvl t0 os s h : crun (cinit cap lvl t0) os = (s, h) ->
  Permutation (map fst (asked 0 os)) (open_requests s ++ answers h) /\ NoDup (open_requests s ++ answers h).
Proof.
  intro H. pose proof (once cap lvl t0 os s h H) as P. split; [exact P|]. eapply Permutation_NoDup; [exact P|apply asked_nodup].
Qed.
(** What happens to a request is what it asked for: the amount is the amount asked for, a put
    raises the level, a get lowers it. *)
Theorem C115_as_asked cap lvl t0 os s h : crun (cinit cap lvl t0) os = (s, h) ->
  (forall r a, In (CIn r a) h \/ In (CPutDone r a) h -> In (r, RPut a) (asked 0 os)) /\
  (forall r a, In (COut r a) h \/ In (CGot r a) h \/ In (CLost r a) h -> In (r, RGet a) (asked 0 os)).
Proof.
  intro H. apply (run_fair (asked 0 os)) in H as [_ F]; [exact F|auto|apply init_numbered|].
  repeat split; cbn; contradiction.
Qed.
(** The level has changed before the answer comes. *)
Theorem C115_granted_first cap lvl t0 os s h : crun (cinit cap lvl t0) os = (s, h) ->
  (forall r a, In (CPutDone r a) h -> In (CIn r a) h) /\ (forall r a, In (CGot r a) h \/ In (CLost r a) h -> In (COut r a) h).
Proof.
  intro H. apply (crun_inv granted) in H as [A B]; [|split; cbn; intros; intuition|intros; eapply step_granted; eassumption].
  split; intros r a I; [apply A|apply B]; tauto.
Qed.
(** Amounts that are not positive are refused, and no others. *)
Theorem C115_refused s a :
  (cstep s (CPut a) = (s, [CValueError]) <-> a <= 0) /\ (cstep s (CGet a) = (s, [CValueError]) <-> a <= 0) /\
  (0 < a -> c_next (fst (cstep s (CPut a))) = S (c_next s) /\ c_next (fst (cstep s (CGet a))) = S (c_next s)).
Proof.
  cbn [cstep]. assert (P : forall x s' h, ctrig_put x = (s', h) -> c_next s' = c_next x) by (intros x s' h E; apply (put_open _ _ _ 0%nat) in E; tauto).
  assert (G : forall x s' h, ctrig_get x = (s', h) -> c_next s' = c_next x) by (intros x s' h E; apply (get_open _ _ _ 0%nat) in E; tauto).
  destruct (Qleb a 0) eqn:E; qbool.
  - split; [split; auto|]. split; [split; auto|]. intro. exfalso. lra.
  - split; [|split].
    + split; [|intro; exfalso; lra]. intro H. apply P in H. cbn in H. lia.
    + split; [|intro; exfalso; lra]. intro H. apply G in H. cbn in H. lia.
    + intros _. split; [destruct (ctrig_put _) as [s' h] eqn:H; apply P in H|destruct (ctrig_get _) as [s' h] eqn:H; apply G in H]; cbn in *; exact H.
Qed.
(** A get whose amount was granted and that is cancelled before it is told never gets it; one
    that is not cancelled never loses it. *)
Theorem C115_given_up cap lvl t0 os1 s1 h1 os2 s2 h2 r a : crun (cinit cap lvl t0) os1 = (s1, h1) -> In (CEGet r a) (c_agenda s1) ->
  crun (cinit cap lvl t0) (os1 ++ CCancel r :: os2) = (s2, h2) -> forall b, ~ In (CGot r b) h2.
Proof. exact (given_up cap lvl t0 os1 s1 h1 os2 s2 h2 r a). Qed.
Theorem C115_kept cap lvl t0 os s h r a : crun (cinit cap lvl t0) os = (s, h) -> ~ In (CCancel r) os -> ~ In (CLost r a) h.
Proof. intros H N. refine (never_lost os _ _ _ r a H _ N). intros []. Qed.

Definition busy : list cop := [CPut 3; CGet 9; CGet 0; CProcess; CPut 1; CProcess; CCancel 1; CProcess; CPut 20; CPut 7; CCancel 3; CGet 2].
Example C115_ex : exists s h, crun (cinit (Some 10) 5 0) busy = (s, h) /\
  asked 0 busy = [(0, RPut 3); (1, RGet 9); (2, RPut 1); (3, RPut 20); (4, RPut 7); (5, RGet 2)]%nat /\ open_requests s = [4; 5]%nat /\
  answers h = [0; 2; 1; 3]%nat /\ In CValueError h /\ In (CLost 1 9) h.
Proof. eexists _, _. split; [vm_compute; reflexivity|]. vm_compute. repeat split; auto 20. Qed.

Print Assumptions C115_once.
Print Assumptions C115_as_asked.
Print Assumptions C115_granted_first.
Print Assumptions C115_refused.
Print Assumptions C115_given_up.
Print Assumptions C115_kept.
