(** Theorems about task networks. *)
From Verif Require Import Common NetModel NetSpec NetProofs.

(** C23: what a loop does when its task ends. *)
Theorem C23_queue_first : forall s p n d t x q l,
  in_task s p n d t -> sget t (n_classes d) <> Some KTerminal -> sget t (n_links d) = Some l ->
  queue_of s n = Some (x :: q) -> sget x (n_classes d) <> None ->
  snd (qstep s (QFinish p)) = QStarted x /\
  queue_of (fst (qstep s (QFinish p))) n = Some q /\
  in_task (fst (qstep s (QFinish p))) p n d x.
Proof. exact finish_queued. Qed.
Print Assumptions C23_queue_first.

Theorem C23_default_when_empty : forall s p n d t t' al,
  in_task s p n d t -> sget t (n_classes d) <> Some KTerminal -> sget t (n_links d) = Some (mkLinks (Some t') al) ->
  queue_of s n = Some [] -> sget t' (n_classes d) <> None ->
  snd (qstep s (QFinish p)) = QStarted t' /\
  queue_of (fst (qstep s (QFinish p))) n = Some [] /\
  in_task (fst (qstep s (QFinish p))) p n d t'.
Proof. exact finish_default. Qed.
Print Assumptions C23_default_when_empty.

Theorem C23_neither_raises : forall s p n d t al,
  in_task s p n d t -> sget t (n_links d) = Some (mkLinks None al) -> queue_of s n = Some [] ->
  snd (qstep s (QFinish p)) = QSimErr /\
  (forall os, snd (qstep (qrun (fst (qstep s (QFinish p))) os) (QFinish p)) = QDead).
Proof. exact finish_neither. Qed.
Print Assumptions C23_neither_raises.

(** Whole histories, any number of networks and loops: the tasks of a network
    started while its queue was not empty, followed by what is still queued,
    are exactly the tasks queued, in order: none skipped, none twice. *)
Theorem C23_queue_order : forall n os s q,
  queue_of s n = Some q -> sget n (a_nets s) <> None -> calm s os -> Forall (no_reset n) os ->
  exists q', queue_of (qrun s os) n = Some q' /\
    q ++ queued n s os = started_from_queue n s os ++ q'.
Proof. exact queue_ledger. Qed.
Print Assumptions C23_queue_order.

(** The loop raises SimulationError for no other reason than the advertised
    ones (in particular never "commanded to perform another task"). *)
Theorem C23_only_these_errors :
  (forall s p n d t, in_task s p n d t -> snd (qstep s (QFinish p)) = QSimErr ->
     sget t (n_classes d) = Some KTerminal \/
     (queue_of s n = Some [] /\ exists l, sget t (n_links d) = Some l /\ l_default l = None)) /\
  (forall s n init, snd (qstep s (QLoop n init)) = QSimErr -> queue_of s n = Some [] /\ init = None).
Proof. exact (conj finish_error loop_error). Qed.
Print Assumptions C23_only_these_errors.

Open Scope string_scope.
Open Scope list_scope.
(** ** Concrete networks *)
Definition demo : netdef :=
  mkNet [("A", KTask); ("B", KTask); ("C", KTask)]
        [("A", mkLinks (Some "B") ["B"]); ("B", mkLinks (Some "A") ["A"; "C"]); ("C", mkLinks None [])].
Definition demo_ops : list qop :=
  [QAdd "net" demo; QSet "net" ["A"; "B"; "C"]; QLoop "net" None; QFinish 0; QSet "net" ["A"];
   QFinish 0; QSet "net" ["A"; "A"]; QFinish 0; QFinish 0; QFinish 0].
Example C23_ex : calm act0 demo_ops /\ starts 0 act0 demo_ops = ["A"; "B"; "C"; "A"; "A"; "B"]
  /\ queue_of (qrun act0 demo_ops) "net" = Some []
  /\ started_from_queue "net" act0 demo_ops = ["A"; "B"; "C"; "A"; "A"]
  /\ queued "net" act0 demo_ops = ["A"; "B"; "C"; "A"; "A"].
Proof. vm_compute. repeat split; discriminate. Qed.
Example C23_ex_raises :
  snd (qstep (qrun act0 [QAdd "net" demo; QLoop "net" (Some "C")]) (QFinish 0)) = QSimErr.
Proof. vm_compute. reflexivity. Qed.

(** C24: whatever happens to the actor's other networks, the tasks started by
    the loop of the factory's network. *)
Theorem C24_single_looping : forall s n os, queue_of s n = Some [] ->
  (forall p r, nth_error (a_procs s) p = Some r -> r_net r <> n) -> Forall (elsewhere n) os ->
  let p := List.length (a_procs s) in
  forall t, sget n (a_nets s) = Some (single_looping t) ->
  starts p s (QLoop n (Some t) :: os) = repeat t (S (finishes p os)).
Proof. exact run_single_looping. Qed.
Print Assumptions C24_single_looping.

Theorem C24_single_terminating : forall s n os, queue_of s n = Some [] ->
  (forall p r, nth_error (a_procs s) p = Some r -> r_net r <> n) -> Forall (elsewhere n) os ->
  let p := List.length (a_procs s) in
  forall t, sget n (a_nets s) = Some (single_terminating t) ->
  starts p s (QLoop n (Some t) :: os) = firstn (S (finishes p os)) [t; (t ++ "_FINAL")%string].
Proof. exact run_single_terminating. Qed.
Print Assumptions C24_single_terminating.

Theorem C24_ordered_terminating : forall s n os, queue_of s n = Some [] ->
  (forall p r, nth_error (a_procs s) p = Some r -> r_net r <> n) -> Forall (elsewhere n) os ->
  let p := List.length (a_procs s) in
  forall name t ts, sget n (a_nets s) = Some (ordered_terminating name (t :: ts)) ->
  NoDup (t :: ts) -> ~ In (name ++ "_TERMINATING")%string (t :: ts) ->
  starts p s (QLoop n (Some t) :: os)
    = firstn (S (finishes p os)) ((t :: ts) ++ [(name ++ "_TERMINATING")%string]).
Proof. exact run_ordered_terminating. Qed.
Print Assumptions C24_ordered_terminating.

Theorem C24_ordered_loop : forall s n os, queue_of s n = Some [] ->
  (forall p r, nth_error (a_procs s) p = Some r -> r_net r <> n) -> Forall (elsewhere n) os ->
  let p := List.length (a_procs s) in
  forall t ts, sget n (a_nets s) = Some (ordered_loop (t :: ts)) -> NoDup (t :: ts) ->
  starts p s (QLoop n (Some t) :: os) = cycled (t :: ts) (S (finishes p os)).
Proof. exact run_ordered_loop. Qed.
Print Assumptions C24_ordered_loop.

(** is_feasible allows just the task that comes next, and the first after the last of a loop. *)
Lemma feasible_one : forall d t l f x, sget t (n_links d) = Some (mkLinks l [x]) -> is_feasible d t f = Some true <-> f = x.
Proof.
  intros d t l f x H. unfold is_feasible. rewrite H. cbn [l_allowed smem existsb]. rewrite orb_false_r. split.
  - intro E. injection E as E. apply String.eqb_eq in E. auto.
  - intros ->. rewrite String.eqb_refl. reflexivity.
Qed.
Theorem C24_allowed :
  (forall t f, is_feasible (single_looping t) t f = Some true <-> f = t) /\
  (forall t f, is_feasible (single_terminating t) t f = Some true <-> f = (t ++ "_FINAL")%string) /\
  (forall name pre t post f, NoDup (pre ++ t :: post) -> ~ In (name ++ "_TERMINATING")%string (pre ++ t :: post) ->
     is_feasible (ordered_terminating name (pre ++ t :: post)) t f = Some true <-> f = hd (name ++ "_TERMINATING")%string post) /\
  (forall pre t post f, NoDup (pre ++ t :: post) ->
     is_feasible (ordered_loop (pre ++ t :: post)) t f = Some true <-> f = hd (hd t pre) post).
Proof.
  split; [|split; [|split]].
  - intros t f. apply feasible_one with (l := Some t). cbn. rewrite String.eqb_refl. reflexivity.
  - intros t f. apply feasible_one with (l := Some (t ++ "_FINAL")%string). cbn. rewrite String.eqb_refl. reflexivity.
  - intros name pre t post f ND NI. set (e := (name ++ "_TERMINATING")%string) in *.
    destruct (ordered_at (Some e) (hd ""%string (pre ++ t :: post)) pre t post (mkNet [] [])) as [HL _]; [exact ND| |].
    + intro X. injection X as X. apply NI. rewrite X. apply in_elt.
    + unfold ordered_terminating. fold e. rewrite (feasible_one _ _ _ _ _ HL). destruct post; reflexivity.
  - intros pre t post f ND.
    destruct (ordered_at None (hd ""%string (pre ++ t :: post)) pre t post (mkNet [] [])) as [HL _]; [exact ND|discriminate|].
    unfold ordered_loop. rewrite (feasible_one _ _ _ _ _ HL). destruct post; [|reflexivity]. destruct pre; reflexivity.
Qed.
Print Assumptions C24_allowed.
Example C24_ex_allowed : is_feasible (ordered_loop ["A"; "B"; "C"]) "C" "A" = Some true /\ is_feasible (ordered_loop ["A"; "B"; "C"]) "A" "C" = Some false.
Proof. vm_compute. auto. Qed.

Theorem C24_terminal_never_ends : forall s p n d t,
  in_task s p n d t -> sget t (n_classes d) = Some KTerminal -> snd (qstep s (QFinish p)) = QSimErr.
Proof. exact terminal_never_ends. Qed.
Print Assumptions C24_terminal_never_ends.

Example C24_ex_term :
  starts 0 (qrun act0 [QAdd "net" (ordered_terminating "net" ["A"; "B"])])
    [QLoop "net" (Some "A"); QFinish 0; QAdd "x" demo; QFinish 0; QFinish 0; QFinish 0]
  = ["A"; "B"; "net_TERMINATING"].
Proof. vm_compute. reflexivity. Qed.
Example C24_ex_loop :
  starts 0 (qrun act0 [QAdd "net" (ordered_loop ["A"; "B"; "C"])])
    [QLoop "net" (Some "A"); QFinish 0; QFinish 0; QFinish 0; QFinish 0]
  = ["A"; "B"; "C"; "A"; "B"].
Proof. vm_compute. reflexivity. Qed.

(** With a task class repeated, the links of its last occurrence win and the
    tasks in between are never run. *)
Theorem C24_repeated_class_refuted : exists name t ts s,
  queue_of s name = Some [] /\ sget name (a_nets s) = Some (ordered_terminating name (t :: ts)) /\
  (t :: ts) = ["A"; "B"; "A"; "C"] /\
  starts 0 s [QLoop name (Some t); QFinish 0; QFinish 0; QFinish 0; QFinish 0; QFinish 0] = ["A"; "C"; "net_TERMINATING"].
Proof.
  exists "net", "A", ["B"; "A"; "C"], (qrun act0 [QAdd "net" (ordered_terminating "net" ["A"; "B"; "A"; "C"])]).
  vm_compute. auto.
Qed.
Print Assumptions C24_repeated_class_refuted.
(** A class whose name is the network's plus _TERMINATING is replaced by the
    terminal task: neither it nor the others are run. *)
Theorem C24_name_clash_refuted : exists name t ts s,
  NoDup (t :: ts) /\ queue_of s name = Some [] /\ sget name (a_nets s) = Some (ordered_terminating name (t :: ts)) /\
  In "x_TERMINATING" (t :: ts) /\
  starts 0 s [QLoop name (Some t); QFinish 0; QFinish 0; QFinish 0; QFinish 0; QFinish 0]
    = ["x_TERMINATING"].
Proof.
  exists "x", "x_TERMINATING", ["B"], (qrun act0 [QAdd "x" (ordered_terminating "x" ["x_TERMINATING"; "B"])]).
  split; [repeat constructor; cbn; intuition discriminate|].
  split; [vm_compute; reflexivity|]. split; [vm_compute; reflexivity|]. split; [left; reflexivity|vm_compute; reflexivity].
Qed.
Print Assumptions C24_name_clash_refuted.

(** C51 *)
Theorem C51_fresh : forall s base d, exists x,
  snd (qstep s (QSuggest base)) = QName (Some x) /\
  snd (qstep s (QHas x)) = QBool false /\ snd (qstep s (QAdd x d)) = QOk /\
  (snd (qstep s (QHas base)) = QBool false -> x = base) /\
  (x = base \/ exists j, (0 < j)%nat /\ x = numbered base j).
Proof. exact suggestion_can_be_added. Qed.
Print Assumptions C51_fresh.
Example C51_ex : snd (qstep (qrun act0 [QAdd "n" demo; QAdd "n_2" demo; QAdd "n_1" demo]) (QSuggest "n")) = QName (Some "n_3").
Proof. vm_compute. reflexivity. Qed.

(** C61: the links are not enforced for queued tasks. *)
Theorem C61_defaults_follow_links_partial : forall s p n d t,
  (forall k l x, sget k (n_links d) = Some l -> l_default l = Some x -> In x (l_allowed l)) ->
  in_task s p n d t -> queue_of s n = Some [] ->
  forall t', snd (qstep s (QFinish p)) = QStarted t' -> is_feasible d t t' = Some true.
Proof. exact default_is_feasible. Qed.
Print Assumptions C61_defaults_follow_links_partial.
Theorem C61_queue_ignores_links_refuted : exists s p n d t t',
  in_task s p n d t /\ snd (qstep s (QFinish p)) = QStarted t' /\ is_feasible d t t' = Some false.
Proof.
  exists (qrun act0 [QAdd "net" demo; QSet "net" ["A"; "C"]; QLoop "net" None]), 0%nat, "net", demo, "A", "C".
  vm_compute. auto.
Qed.
Print Assumptions C61_queue_ignores_links_refuted.
