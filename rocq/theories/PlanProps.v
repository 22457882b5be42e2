(** Theorems about what rehearsing a network rehearses (C111, C112, C113) and about
    what is done to the understudy (C114). *)
From Verif Require Import Common StateModel StateProofs KnowledgeModel ActiveModel NetModel CloneModel CloneSpec CloneProofs CloneProps PlanSpec PlanProofs.
Open Scope string_scope.

(** ** C111: the tasks of the list *)
(** Without an end task, rehearsing returns exactly when every task of the list can be
    rehearsed in turn and each is allowed after the one before. The understudy is then
    as those rehearsals leave it, the network at the task it was at. Otherwise it raises. *)
Theorem C111_listed d n plan names extra w fuel : (List.length names < fuel)%nat ->
  (exists w1, did d plan 0 (clone extra w) names w1 /\ linked d names /\ rehearse_network d n plan names None fuel extra w = (back_to w w1, NDone)) \/
  (~ (exists w1, did d plan 0 (clone extra w) names w1 /\ linked d names) /\ snd (rehearse_network d n plan names None fuel extra w) = NRaised).
Proof. exact (listed d n plan names extra w fuel). Qed.
(** With an end task in the list, the tasks before it are rehearsed and no others. *)
Theorem C111_until d n plan pre e post extra w fuel : ~ In e pre -> (List.length pre < fuel)%nat ->
  (exists w1, did d plan 0 (clone extra w) pre w1 /\ linked d (pre ++ [e]) /\ rehearse_network d n plan (pre ++ e :: post) (Some e) fuel extra w = (back_to w w1, NDone)) \/
  (~ (exists w1, did d plan 0 (clone extra w) pre w1 /\ linked d (pre ++ [e])) /\ snd (rehearse_network d n plan (pre ++ e :: post) (Some e) fuel extra w) = NRaised).
Proof. exact (until d n plan pre e post extra w fuel). Qed.
(** The understudy's clock is the actor's plus the times the tasks take. *)
Theorem C111_time d n plan (T : string -> Q) names extra w fuel w' :
  (forall t x, takes (fst (plan t x)) == T t) -> (List.length names < fuel)%nat ->
  rehearse_network d n plan names None fuel extra w = (w', NDone) ->
  u_clock w' == ac_clock (w_real w) + fold_right Qplus 0 (map T names).
Proof.
  intros H F E. destruct (listed d n plan names extra w fuel F) as [(w1 & D & _ & R)|[_ R]]; [|rewrite E in R; discriminate].
  rewrite E in R. injection R as ->. change (u_clock (back_to w w1)) with (u_clock w1). rewrite (did_clock d plan T H _ _ _ _ D).
  assert (C : u_clock (clone extra w) = ac_clock (w_real w)) by (unfold clone; destruct (copy_all _ _ _), (copy_all _ _ _), (copy_all _ _ _); reflexivity). rewrite C. reflexivity.
Qed.
(** Names that are not tasks of the network raise. *)
Theorem C111_unknown d n plan names t extra w fuel : In t names -> sget t (n_classes d) = None -> (List.length names < fuel)%nat ->
  snd (rehearse_network d n plan names None fuel extra w) = NRaised.
Proof.
  intros I U F. destruct (listed d n plan names extra w fuel F) as [(w1 & D & _ & R)|[_ R]]; [|exact R]. exfalso. clear -I U D.
  revert I. induction D as [|i x a b ts c DO DD IH]; intros []; [subst; destruct DO; congruence|auto].
Qed.
(** Each task sees the understudy the tasks before have left. *)
Example C111_ex :
  let '(w, r) := rehearse_network demo_net "net" demo_plan ["A"; "B"; "A"] None 9 [] demo in
  (r, Qred (u_clock w), u_state w 1%Z, u_know w 3%Z, u_queue w "net", w_cur w) = (NDone, 16, Some (CAtom 6), None, Some ["A"], Some "A") /\
  linked demo_net ["A"; "B"; "A"] /\ (exists w1, did demo_net demo_plan 0 (clone [] demo) ["A"; "B"; "A"] w1).
Proof.
  split; [vm_compute; reflexivity|]. split; [cbn; repeat split; eexists; split; try reflexivity; cbn; auto|].
  eexists. econstructor; [split; [discriminate|eexists; split; reflexivity]|]. econstructor; [split; [discriminate|eexists; split; reflexivity]|].
  econstructor; [split; [discriminate|eexists; split; reflexivity]|constructor].
Qed.
Example C111_ex_raises : snd (rehearse_network demo_net "net" demo_plan ["A"; "A"] None 9 [] demo) = NRaised /\
  snd (rehearse_network demo_net "net" demo_plan ["A"; "C"] None 9 [] demo) = NRaised.
Proof. split; vm_compute; reflexivity. Qed.
Example C111_ex_until : let '(w, r) := rehearse_network demo_net "net" demo_plan ["A"; "B"; "A"] (Some "B") 9 [] demo in
  (r, Qred (u_clock w), u_know w 3%Z) = (NDone, 13, Some (CRef 3)).
Proof. vm_compute. reflexivity. Qed.

(** ** C112: going on to the end task *)
(** When the end task is not in the list, rehearsing returns exactly if the tasks of the
    list can be rehearsed, and from there, each time taking the first of the
    understudy's queue or else the default, tasks can be rehearsed until the end task
    would be the next one. That one is not rehearsed. *)
Theorem C112_end_task d n plan init t e extra w w' : ~ In e (init ++ [t]) ->
  (exists fuel, rehearse_network d n plan (init ++ [t]) (Some e) fuel extra w = (w', NDone)) <->
  exists w1 ts w2, did d plan 0 (clone extra w) (init ++ [t]) w1 /\ linked d (init ++ [t]) /\
    goes_on d plan n e (List.length (init ++ [t])) t w1 ts w2 /\ w' = back_to w w2.
Proof. exact (beyond d n plan init t e extra w w'). Qed.
(** With nothing queued and tasks that queue nothing, the tasks are the defaults up to
    the end task. *)
Theorem C112_defaults d n plan init t e extra w w' : ~ In e (init ++ [t]) -> (forall x y, Forall no_queues (fst (plan x y))) -> queues w n = Some [] ->
  (exists fuel, rehearse_network d n plan (init ++ [t]) (Some e) fuel extra w = (w', NDone)) <->
  exists ts w2, defaults d t (ts ++ [e]) /\ ~ In e ts /\ linked d (init ++ [t]) /\ did d plan 0 (clone extra w) ((init ++ [t]) ++ ts) w2 /\ w' = back_to w w2.
Proof.
  intros NI Q E. rewrite (beyond d n plan init t e extra w w' NI).
  assert (U : forall ts i a b, did d plan i a ts b -> u_queue b n = u_queue a n).
  { induction ts as [|x ts IH]; intros i a b D; inversion D as [|? ? ? c ? ? DO DD]; subst; [reflexivity|]. rewrite (IH _ _ _ DD). exact (did_quiet d plan n Q _ _ _ _ DO). }
  assert (E0 : u_queue (clone extra w) n = Some []).
  { revert E. unfold u_queue, queues, queue_at, clone. destruct (copy_all _ _ _), (copy_all _ _ _), (copy_all _ _ _). cbn. destruct (sget n (ac_q (w_real w))); [|discriminate]. intro H. exact H. }
  assert (AP : forall ts rs i a b c, did d plan i a ts b -> did d plan (i + List.length ts) b rs c -> did d plan i a (ts ++ rs) c).
  { induction ts as [|x ts IH]; intros rs i a b c D1 D2; inversion D1 as [|? ? ? m ? ? DO DD]; subst; cbn [app List.length] in *; [rewrite Nat.add_0_r in D2; exact D2|].
    econstructor; [exact DO|]. eapply IH; [exact DD|]. replace (S i + List.length ts)%nat with (i + S (List.length ts))%nat by lia. exact D2. }
  assert (SP : forall ts rs i a c, did d plan i a (ts ++ rs) c -> exists b, did d plan i a ts b /\ did d plan (i + List.length ts) b rs c).
  { induction ts as [|x ts IH]; intros rs i a c D; cbn [app List.length] in *; [exists a; rewrite Nat.add_0_r; split; [constructor|exact D]|].
    inversion D as [|? ? ? m ? ? DO DD]; subst. destruct (IH _ _ _ _ DD) as (b & B1 & B2). exists b. split; [econstructor; eassumption|]. replace (i + S (List.length ts))%nat with (S i + List.length ts)%nat by lia. exact B2. }
  split.
  - intros (w1 & ts & w2 & D & L & G & ->). exists ts, w2. apply (goes_defaults d plan n e Q) in G as (A & B & C); [|rewrite (U _ _ _ _ D); exact E0].
    split; [exact A|]. split; [exact B|]. split; [exact L|]. split; [|reflexivity]. eapply AP; eassumption.
  - intros (ts & w2 & A & B & L & D & ->). apply SP in D as (w1 & D1 & D2). exists w1, ts, w2. split; [exact D1|]. split; [exact L|]. split; [|reflexivity].
    apply (goes_defaults d plan n e Q); [rewrite (U _ _ _ _ D1); exact E0|]. auto.
Qed.
Definition ring : netdef := mkNet [("A", KTask); ("B", KTask); ("C", KTask)] [("A", mkLinks (Some "B") ["B"; "C"]); ("B", mkLinks (Some "C") ["C"]); ("C", mkLinks (Some "A") ["A"])].
Definition tick : string -> cworld -> list cop * bool := fun t _ => ([CAdvance (if String.eqb t "A" then 1 else 2)], true).
Definition idle : cworld := mkCW [] [[]] (mkCA [] [] [("net", 0%nat)] 10 0) (mkCA [] [] [] 0 0) (Some "C") None None.
Example C112_ex : let '(w, r) := rehearse_network ring "net" tick ["A"] (Some "C") 9 [] idle in
  (r, Qred (u_clock w)) = (NDone, 13) /\ defaults ring "A" ["B"; "C"] /\ queues idle "net" = Some [] /\ (forall x y, Forall no_queues (fst (tick x y))).
Proof.
  split; [vm_compute; reflexivity|]. split; [cbn; repeat split; eexists; split; reflexivity|]. split; [reflexivity|].
  intros x y. constructor; [exact I|constructor].
Qed.
(** A task that queues another one is followed by it. *)
Definition detour : string -> cworld -> list cop * bool := fun t _ => if String.eqb t "B" then ([CQAdd "net" "B"; CQAdd "net" "C"; CAdvance 1], true) else ([CAdvance 1], true).
Example C112_ex_queue : let '(w, r) := rehearse_network ring "net" (fun t x => if Qeqb (u_clock x) 11 then detour t x else ([CAdvance 1], true)) ["A"] (Some "C") 9 [] idle in
  (r, Qred (u_clock w)) = (NDone, 13).
Proof. vm_compute. reflexivity. Qed.

(** ** C113: what may not be expected *)
(** "Rehearsing to an end task returns or raises": it goes on for ever when the end task
    never comes up. *)
Theorem C113_ends_refuted : forall fuel, snd (rehearse_network demo_net "net" tick ["A"] (Some "C") fuel [] idle) = NMore.
Proof.
  assert (G : forall fuel i t w, (1 <= i)%nat -> t = "A" \/ t = "B" -> u_queue w "net" = Some [] -> snd (nloop demo_net "net" tick ["A"] (Some "C") fuel i (Some t) w) = NMore).
  { induction fuel as [|f IH]; intros i t w Hi T U; [reflexivity|]. cbn [nloop]. rewrite (turn_after demo_net "net" tick ["A"] (Some "C") "C" eq_refl) by exact Hi.
    assert (N : next_clearing demo_net "net" t w = Some (w, if String.eqb t "A" then "B" else "A")).
    { unfold next_clearing. unfold u_queue in U. unfold queue_at. destruct (sget "net" (ac_q (w_und w))); [|discriminate]. injection U as U. rewrite U. destruct T as [-> | ->]; reflexivity. }
    rewrite N. destruct T as [-> | ->]; cbn; apply IH; auto; lia. }
  intros [|f]; [reflexivity|]. unfold rehearse_network. cbn [nloop].
  assert (E : nturn demo_net "net" tick ["A"] (Some "C") 0 None (clone [] idle) = (crun (with_cur (clone [] idle) (Some "A") (Some 0%nat)) [CAdvance 1], NMore, Some "A")) by reflexivity.
  rewrite E. pose proof (G f 1%nat "A" (crun (with_cur (clone [] idle) (Some "A") (Some 0%nat)) [CAdvance 1]) (le_n _) (or_introl eq_refl) eq_refl) as X.
  destruct (nloop demo_net "net" tick ["A"] (Some "C") f 1 (Some "A") _) as [a b]. cbn [snd] in X. subst b. reflexivity.
Qed.
(** "An end task makes any list good enough": the empty list raises. *)
Theorem C113_nothing_listed_refuted d n plan e extra w fuel : fuel <> O -> snd (rehearse_network d n plan [] (Some e) fuel extra w) = NRaised.
Proof. destruct fuel as [|f]; [congruence|]. intros _. reflexivity. Qed.
(** "What is rehearsed can be run": a task from the queue is rehearsed though the links do
    not allow it after the one before. *)
Theorem C113_queue_unchecked_refuted : ~ allowed demo_net "B" "B" /\
  goes_on demo_net (fun _ _ => ([], true)) "net" "A" 1 "B" (crun (clone [] demo) []) ["B"] (fst (cstep (with_cur (fst (cstep (clone [] demo) (CQPop "net"))) (Some "B") (Some 1%nat)) (CQPop "net"))) /\
  snd (rehearse_network demo_net "net" (fun _ _ => ([], true)) ["B"] (Some "A") 9 [] demo) = NDone.
Proof.
  split; [intros (lk & E & I); injection E as <-; cbn in I; destruct I as [I|[]]; discriminate|]. split; [|vm_compute; reflexivity].
  econstructor; [split; [discriminate|left; eexists; split; reflexivity]|discriminate|split; [discriminate|eexists; split; reflexivity]|].
  constructor. split; [discriminate|]. left. eexists. split; vm_compute; reflexivity.
Qed.
(** "The first task must be allowed after the one the network is at" *)
Theorem C113_start_unchecked_refuted : w_cur demo = Some "A" /\ ~ allowed demo_net "A" "A" /\
  snd (rehearse_network demo_net "net" demo_plan ["A"] None 9 [] demo) = NDone.
Proof. split; [reflexivity|]. split; [intros (lk & E & I); injection E as <-; cbn in I; destruct I as [I|[]]; discriminate|vm_compute; reflexivity]. Qed.

(** ** C114: what is done to the understudy *)
(** It begins as a copy: the same numbers, new objects with the same fields, the
    knowledge handed over on top, the same clock and queues. *)
Theorem C114_start extra w : NoDup (map fst (ac_st (w_real w))) -> NoDup (map fst (ac_kn (w_real w))) -> NoDup (map fst extra) -> closed w extra ->
  let w' := clone extra w in
  (forall k, copied w w' (kget k (ac_st (w_real w))) (u_state w' k)) /\
  (forall k, copied w w' (match kget k extra with Some v => Some v | None => kget k (ac_kn (w_real w)) end) (u_know w' k)) /\
  u_clock w' = ac_clock (w_real w) /\ (forall m, u_queue w' m = queues w m).
Proof.
  intros N1 N2 N3 [H _]. destruct (clone_start extra w N1 N2 N3) as (A & B & C & D & E).
  - intros k l I. apply H. exists k. apply in_or_app. auto.
  - intros k l I. apply H. exists k. apply in_or_app. right. apply in_or_app. auto.
  - intros k l I. apply H. exists k. apply in_or_app. right. apply in_or_app. auto.
  - cbn zeta. split; [exact A|]. split; [exact B|]. split; [exact C|]. intro m. unfold u_queue, queues, queue_at. rewrite D, E. destruct (sget m (ac_q (w_real w))); reflexivity.
Qed.
(** Whatever statements have run since, what is referred to exists, and every queue is a
    list of its own. *)
Theorem C114_sound extra w os : closed w extra -> (forall m l, sget m (ac_q (w_real w)) = Some l -> (l < List.length (w_lists w))%nat) ->
  (forall m m' l, sget m (ac_q (w_real w)) = Some l -> sget m' (ac_q (w_real w)) = Some l -> m = m') ->
  all_there (crun (clone extra w) os) /\ own_lists (crun (clone extra w) os).
Proof.
  intros C Q1 Q2. split; [apply there_run, there_clone, C|]. apply own_run. unfold clone. destruct (copy_all _ _ _), (copy_all _ _ _), (copy_all _ _ _). split; cbn; assumption.
Qed.
(** A statement that returns has done what it says and nothing else. *)
Theorem C114_statement w o w' : own_lists w -> all_there w -> cstep w o = (w', true) -> done_to o w w'.
Proof. intros O T. exact (step_done w o w' O (there_exist w T)). Qed.
(** A statement raises exactly when what it needs is missing, and then does nothing. *)
Theorem C114_raises w o : all_there w ->
  (snd (cstep w o) = true <-> needs o w) /\ (snd (cstep w o) = false -> fst (cstep w o) = w).
Proof.
  intro T. split; [exact (step_needs w o (there_exist w T))|]. intro H. destruct (cstep w o) as [w' r] eqn:E. cbn in *. subst r. exact (step_refused w o w' E).
Qed.
Example C114_ex : all_there (clone [] demo) /\ own_lists (clone [] demo) /\ NoDup (map fst (ac_st (w_real demo))) /\
  u_state (clone [] demo) 2%Z = Some (CRef 2) /\ nth_error (w_heap (clone [] demo)) 2 = nth_error (w_heap demo) 0 /\
  needs (CField (PState 2%Z) 0%Z (EAtom 1%Z)) (clone [] demo) /\ ~ needs (CForget 9%Z) (clone [] demo) /\ ~ needs (CQSet "net" []) (clone [] demo).
Proof.
  destruct C25_demo_flat as (_ & C & S). split; [apply there_clone; exact C|]. split.
  { assert (Q : forall m l, sget m (ac_q (w_real demo)) = Some l -> m = "net" /\ l = 0%nat).
    { intros m l. cbn [demo w_real ac_q demo_real sget]. destruct (String.eqb_spec "net" m) as [<-|]; [intro E; injection E as <-; auto|discriminate]. }
    apply (C114_sound [] demo []); [exact C|intros m l E|intros m m' l E E'].
    - apply Q in E as [_ ->]. cbn. lia.
    - apply Q in E as [-> _]. apply Q in E' as [-> _]. reflexivity. }
  split; [repeat constructor; cbn; intuition discriminate|]. split; [reflexivity|]. split; [reflexivity|]. split; [split; [exact I|eexists; eexists; split; reflexivity]|].
  split; [intro H; apply H; reflexivity|intro H; discriminate].
Qed.

Print Assumptions C111_listed.
Print Assumptions C111_until.
Print Assumptions C111_time.
Print Assumptions C111_unknown.
Print Assumptions C112_end_task.
Print Assumptions C112_defaults.
Print Assumptions C113_ends_refuted.
Print Assumptions C113_nothing_listed_refuted.
Print Assumptions C113_queue_unchecked_refuted.
Print Assumptions C113_start_unchecked_refuted.
Print Assumptions C114_start.
Print Assumptions C114_sound.
Print Assumptions C114_statement.
Print Assumptions C114_raises.
