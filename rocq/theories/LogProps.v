(** Properties C127 and C128: the debug log of an actor. *)
From Coq Require Import String Sorted.
From Verif Require Import Common StateModel KnowledgeModel KnowledgeSpec NetModel UnitsModel LogModel LogSpec LogProofs.
Open Scope string_scope.
Open Scope list_scope.

(** C127.  On a stage whose days are not empty, every call returns or raises what it does without a
    log, and leaves the knowledge and the queues as it does without a log. *)
Theorem C127_plain :
  forall V c (s : lst V) o s' r, has_days c -> o <> ORead -> lstep c s o = (s', r) ->
    plain (l_kn s) (l_net s) o = (l_kn s', l_net s', r).
Proof.
  intros V c s o s' r H N E. destruct (step_all V c s o s' r H E) as (_ & _ & _ & _ & P & _). exact (P N).
Qed.

(** C127.  So with any two settings of the log a program gets the same answers, but for the log itself. *)
Theorem C127_settings :
  forall V c c' os (s s2 : lst V) t1 t2 rs1 rs2, has_days c -> has_days c' ->
    l_kn s = l_kn s2 -> l_net s = l_net s2 ->
    lrun c s os = (t1, rs1) -> lrun c' s2 os = (t2, rs2) ->
    l_kn t1 = l_kn t2 /\ l_net t1 = l_net t2 /\
    Forall2 (fun x y => x = y \/ exists l l', x = LRead l /\ y = LRead l') rs1 rs2.
Proof. intros V c c' os s s2 t1 t2 rs1 rs2 H H'. exact (run_same V c c' H H' os s s2 t1 t2 rs1 rs2). Qed.

(** C127.  Exactly what each call adds to the log, in what order; nothing with logging off. *)
Theorem C127_lines :
  forall V c (s : lst V) o s' r, has_days c -> lstep c s o = (s', r) ->
    exists ms, says (l_kn s) (l_net s) o ms /\ l_log s' = l_log s ++ lines c (l_now s) ms.
Proof.
  intros V c s o s' r H E. destruct (step_all V c s o s' r H E) as (ms & A & B & _). exists ms. split; assumption.
Qed.

(** C127.  The log only grows, at its end, in order of time; with logging off it never changes. *)
Theorem C127_order :
  forall V c os (s s' : lst V) rs, has_days c -> Forall no_wait_back os -> lrun c s os = (s', rs) ->
    exists new, l_log s' = l_log s ++ new /\
      Forall (fun e => l_now s <= e_time e /\ e_time e <= l_now s') new /\
      StronglySorted (fun a b => e_time a <= e_time b) new /\
      (c_on c = false -> new = []).
Proof. intros V c os s s' rs H W E. exact (proj2 (run_order V c H os s s' rs W E)). Qed.

(** C127.  log() and get_log() give all of it. *)
Theorem C127_read :
  forall V c (s : lst V), lstep c s ORead = (s, LRead (l_log s)).
Proof. reflexivity. Qed.

(** C127.  With logging on, what an actor knows that it did not know at first has been logged as set. *)
Theorem C127_held :
  forall V c os (s s' : lst V) rs, has_days c -> c_on c = true -> lrun c s os = (s', rs) ->
    exists ms, map e_msg (l_log s') = map e_msg (l_log s) ++ ms /\
      forall n v, look (l_kn s') n = Some v -> look (l_kn s) n = Some v \/ exists b, In (MSet n v b) ms.
Proof.
  intros V c os s s' rs H On E. destruct (run_told V c H On os s s' rs E) as (ms & A & B & _).
  exists ms. split; [exact A|exact B].
Qed.

(** C127.  The methods of Task do what those of the actor do when they are given the name of the
    task's class as the caller; wherever they are called. *)
Theorem C127_tasks :
  forall V c (s : lst V) st st' cls caller o,
    match o with NCreateEvent _ | NSucceed _ _ | NFire _ _ | NReset _ | NProcessed _ => False | _ => True end ->
    lstep c s (OTask st cls caller o) = lstep c s (OActor st' (Some cls) o).
Proof. intros V c s st st' cls caller o W. exact (task_actor V c st st' cls caller s o W). Qed.
Theorem C127_no_network :
  forall V c (s : lst V) st o, lstep c s (OTaskQueue st None o) = (s, LAssert).
Proof. reflexivity. Qed.

Definition on_stage : lconf := mkLc true None None (Some "ticks") (Some 10).
Definition act0 : lst Z := mkLs 0 (ninit false) (mkAct [] [("net", [])] []) [].
Definition fun_f : list frame := [mkFr "f" "f"; mkFr "<module>" "<module>"].
Definition task_t : list frame := [mkFr "task" "Work.task"; mkFr "_step" "Task._step"].
Definition some_calls : list (lop Z) :=
  [OActor fun_f None (NSet 1 (KOther 5) false); OActor task_t None (NSet 1 (KOther 6) false); OWait 12;
   OTask task_t "Work" None (NSetBulk [(2, KOther 7); (1, KOther 8); (3, KNone)] false);
   OTask task_t "Work" (Some "me") (NTakeBulk [2; 4]); OBegin [] "net" "Rest"; OActor [] None (NClear 1); ORead]%Z.

Example C127_example :
  let '(s, rs) := lrun on_stage act0 some_calls in
  has_days on_stage /\ Forall no_wait_back some_calls /\ c_on on_stage = true /\
  map e_msg (l_log s) = [MSet 1%Z (KOther 5%Z) "f"; MSet 1%Z (KOther 6%Z) "Work.task"; MSet 2%Z (KOther 7%Z) "Work";
                         MSet 1%Z (KOther 8%Z) "Work"; MClear 2%Z "Work"; MSetQueue "_begin_next_task"; MBegin "Rest";
                         MClear 1%Z "Unknown caller"] /\
  map e_time (l_log s) = [0; 0; 12; 12; 12; 12; 12; 12] /\
  map e_stamp (l_log s) <> map (fun _ => None) (l_log s) /\
  firstn 7 rs = [LKn NOk; LKn NSimError; LNone; LKn NSimError; LKn NSimError; LQu QOk; LKn NOk].
Proof.
  vm_compute. split; [intros q Hq; injection Hq as <-; discriminate|]. split; [repeat constructor; discriminate|].
  repeat split. discriminate.
Qed.

(** C128.  If nothing that puts in knowledge is refused, the last line about a name is what it holds. *)
Theorem C128_made_partial :
  forall V c os (s s' : lst V) rs, has_days c -> c_on c = true -> lrun c s os = (s', rs) ->
    Forall2 (fun o r => ~ put_refused o r) os rs ->
    exists ms, map e_msg (l_log s') = map e_msg (l_log s) ++ ms /\
      forall n, look (l_kn s') n = told n (look (l_kn s) n) ms.
Proof.
  intros V c os s s' rs H On E F. destruct (run_told V c H On os s s' rs E) as (ms & A & _ & T).
  exists ms. split; [exact A|exact (T F)].
Qed.

(** C128.  A single change through the actor is logged with the name of the function that made it, or
    with the caller it gave. *)
Theorem C128_caller_partial :
  forall V c (s : lst V) st caller n v ow s' r, has_days c -> c_on c = true ->
    let who := match caller with Some x => x | None => calling st end in
    (lstep c s (OActor st caller (NSet n v ow)) = (s', r) ->
       map e_msg (l_log s') = map e_msg (l_log s) ++ [MSet n v who]) /\
    (lstep c s (OActor st caller (NClear n)) = (s', r) ->
       map e_msg (l_log s') = map e_msg (l_log s) ++ [MClear n who]).
Proof.
  intros V c s st caller n v ow s' r H On. split; intro E;
    destruct (step_all V c s _ s' r H E) as (ms & A & B & _); cbn [says tells] in A; subst ms;
    rewrite B, map_app, (lines_msgs V c _ _ On); reflexivity.
Qed.

(** C128 is false: a refused change is logged like any other. *)
Theorem C128_made_refuted :
  exists (s' : lst Z) rs,
    lrun on_stage act0 [OActor fun_f None (NSet 1%Z (KOther 5%Z) false); OActor fun_f None (NSet 1%Z (KOther 6%Z) false)] = (s', rs) /\
    map e_msg (l_log s') = [MSet 1%Z (KOther 5%Z) "f"; MSet 1%Z (KOther 6%Z) "f"] /\
    look (l_kn s') 1%Z = Some (KOther 5%Z).
Proof. do 2 eexists. split; [vm_compute; reflexivity|]. split; reflexivity. Qed.

(** C128 is false: for changes in bulk, events, and queues set through a task the line names a method of
    Actor or Task and not the function that called it; the caller given to
    get_and_clear_actor_bulk_knowledge is not used. *)
Theorem C128_caller_refuted :
  (exists (s' : lst Z) r, lstep on_stage act0 (OActor fun_f None (NSetBulk [(1, KOther 5)]%Z false)) = (s', r) /\
     map e_msg (l_log s') = [MSet 1%Z (KOther 5%Z) "set_bulk_knowledge"]) /\
  (exists (s' : lst Z) r, lstep on_stage act0 (OActor fun_f None (NCreateEvent 1%Z)) = (s', r) /\
     map e_msg (l_log s') = [MSet 1%Z (KEvent 0) "create_knowledge_event"]) /\
  (exists (s' : lst Z) r, lstep on_stage act0 (OTaskQueue task_t (Some "net") (QuSet ["Rest"])) = (s', r) /\
     map e_msg (l_log s') = [MSetQueue "set_actor_task_queue"]) /\
  (exists (s' : lst Z) rs, lrun on_stage act0 [OActor fun_f None (NSet 1%Z KNone false);
                              OTask task_t "Work" (Some "me") (NTakeBulk [1%Z])] = (s', rs) /\
     map e_msg (l_log s') = [MSet 1%Z KNone "f"; MClear 1%Z "Work"]).
Proof.
  split; [|split; [|split]]; do 2 eexists; (split; [vm_compute; reflexivity|reflexivity]).
Qed.

(** C128 is false: with a day of no units of time, logging makes the calls raise and do nothing. *)
Theorem C128_harmless_refuted :
  let c := mkLc true None None (Some "ticks") (Some 0) in
  let off := mkLc false None None (Some "ticks") (Some 0) in
  let o := OActor fun_f None (NSet 1%Z (KOther 5%Z) false) in
  (exists s', lstep c act0 o = (s', LBroken) /\ look (l_kn s') 1%Z = None) /\
  (exists s', lstep off act0 o = (s', LKn NOk) /\ look (l_kn s') 1%Z = Some (KOther 5%Z)).
Proof. cbv zeta. split; eexists; (split; [vm_compute; reflexivity|reflexivity]). Qed.

Example C128_example :
  let '(s, rs) := lrun on_stage act0
     [OActor fun_f None (NSet 1 (KOther 5) false); OActor fun_f None (NSet 1 (KOther 6) true); OActor fun_f None (NClear 2);
      OTask task_t "Work" None (NSetBulk [(2, KOther 7); (3, KNone)] false); OTask task_t "Work" None (NTake 2)]%Z in
  map (fun n => told n None (map e_msg (l_log s))) [1; 2; 3]%Z = [Some (KOther 6%Z); None; Some KNone] /\
  map (look (l_kn s)) [1; 2; 3]%Z = [Some (KOther 6%Z); None; Some KNone] /\
  rs = [LKn NOk; LKn NOk; LKn NSimError; LKn NOk; LKn (NValue (KOther 7%Z))].
Proof. vm_compute. repeat split. Qed.

Print Assumptions C127_plain.
Print Assumptions C127_settings.
Print Assumptions C127_lines.
Print Assumptions C127_order.
Print Assumptions C127_read.
Print Assumptions C127_held.
Print Assumptions C127_tasks.
Print Assumptions C127_no_network.
Print Assumptions C128_made_partial.
Print Assumptions C128_caller_partial.
Print Assumptions C128_made_refuted.
Print Assumptions C128_caller_refuted.
Print Assumptions C128_harmless_refuted.
