(** Theorems about tasks that fail. *)
From Verif Require Import Common StateModel ActiveModel ActiveSpec MimicModel MimicSpec KnowledgeModel EvModel EvSpec TaskModel TaskSpec.
From Verif Require Import TaskProps.
From Verif Require Import FailModel FailSpec FailProofs.

Section Generic.
Variable W : Type.
Variable armw : W -> ev -> W.
Variable cleanup : W -> ev -> W * bool.
Variable task : body.
Variable rts : nat -> routine.
Variable raises : frame -> val -> option nat.
Notation step := (fstep armw cleanup task rts raises).
Notation run := (frun armw cleanup task rts raises).

(** Whatever happens to the task: an exception leaves it only if something it awaits fails
    with it, or code it resumes raises it.  From then on the process does nothing: no code
    of the body or of routines is resumed, nothing is cleaned up or cancelled, and the
    surroundings change only by what others do. *)
Theorem C137_ends_there g w is g' w' os x : run g w is = (g', w', os) -> In (FRaised x) os ->
  exists l1 i l2 g1 w1 o1 o o2 st, is = l1 ++ i :: l2 /\ run g w l1 = (g1, w1, o1) /\ (forall y, ~ In (FRaised y) o1) /\
    step g1 w1 i = (GDead x st, w1, o) /\ os = o1 ++ o ++ o2 /\ Forall (eq (FOut OIllegal)) o2 /\
    g' = GDead x st /\ w' = others w1 l2 /\
    ((i = FFail x /\ awaiting g1 /\ o = [FRaised x]) \/
     (exists f v, i = FIn ITick /\ about_to_resume g1 f st v /\ raises f v = Some x /\ o = [FOut (OResume f v); FRaised x])).
Proof. apply run_raise. Qed.
(** What is awaited fails: the exception leaves the process, whoever awaits it (the body, a
    routine, the cancellation of a routine). *)
Theorem C137_awaited_fails g w x : awaiting g -> exists st, step g w (FFail x) = (GDead x st, w, [FRaised x]).
Proof. apply step_fail. Qed.
(** The body or a routine raises: the exception leaves the process.  What a routine raises
    is not given to the body that runs it. *)
Theorem C137_code_raises g w f st v x : about_to_resume g f st v -> raises f v = Some x ->
  step g w (FIn ITick) = (GDead x st, w, [FOut (OResume f v); FRaised x]).
Proof. apply step_raises. Qed.
(** As long as nothing fails, the task runs as in the model of tasks. *)
Theorem C137_without_failures : (forall f v, raises f v = None) -> forall is c w,
  run (GOn c) w (map FIn is) = lift (trun armw cleanup task rts c w is).
Proof. intros N is c w. exact (no_failures W armw cleanup task rts raises N is c w). Qed.

(** An Interrupt with which the awaited event failed, answered with IGNORE any number of
    times: it comes again at once, and nothing else ever happens. *)
Theorem C137_ignored_comes_again c w e n : c_phase c = PWait e ->
  run (GOn c) w (repeat (FFailInt RIgnore) (S n)) = (GStuck c e, w, repeat (FOut (OSame e)) (S n)).
Proof. apply ignored_forever. Qed.
Theorem C137_only_answers c e w i : fst (fst (step (GStuck c e) w i)) = GStuck c e \/ exists a, i = FFailInt a /\ ignores a = false.
Proof. apply stuck_step. Qed.
End Generic.

(** Any other answer fails the task, because the event that is over cannot be cancelled:
    it is neither ended nor restarted, and no routine is cancelled. *)
Theorem C137_interrupt_of_awaited V typ me t task rts raises c (u : surroundings V) e answers :
  c_phase c = PWait e -> failed (u_heap u) e -> forallb ignores answers = false ->
  exists c' u' x os, frun arm_sur (clean typ me t) task rts raises (GOn c) u (map FFailInt answers) = (GOn c', u', os) /\
    c_phase c' = PFail x /\ Forall quiet os /\ In (FOut (OFail x)) os.
Proof. apply interrupted_run. Qed.

(** ** C138 *)

(** The actor has an active state and a mimic of task 1 and knows the awaited event; the
    task waits for a process or an item of a store, in a routine. *)
Definition ex_fsur : surroundings unit :=
  mkSur (u_act ex_sur) (u_mim ex_sur) [(5%Z, KEvent 0)] [(KMulti false, SPend); (KProc, SPend); (KReq, SPend)].
Definition ex_await : ev := EMulti 0 [ELeaf 1; ELeaf 2].
Definition ex_ctl : ctl := mkC (PWait ex_await) [FRout 3 1; FTask [None; None]] None.
Definition ex_quiet : frame -> val -> option nat := fun _ _ => None.
Notation exf := (frun (W := surroundings unit) arm_sur (clean any_type 0 1) ex_task ex_rts).

(** Interrupted, the task gives all of this back and cancels its routine; when the process
    fails (exception 7), everything stays: the state is active, the mimic is on, the
    knowledge is there, the request is in its queue and the routine is not cancelled.  The
    same when the body raises. *)
Theorem C138_left_behind_refuted :
  (let '(g, u, os) := exf ex_quiet (GOn ex_ctl) ex_fsur [FIn (IInterrupt REnd); FIn (IDone None); FIn (IDone None)] in
   os = map FOut [OClean ex_await; OCancel 3 (ELeaf 5); OCancel 3 (ELeaf 6); OEnd] /\
   ~ holds (u_act u) 1 0 /\ mlook 0 (w_mimic (u_mim u)) = None /\ kget 5%Z (u_know u) = None /\ estat_of (u_heap u) 2 = Some SGone) /\
  (let '(g, u, os) := exf ex_quiet (GOn ex_ctl) ex_fsur [FFail 7; FIn (IInterrupt REnd); FIn (IDone None)] in
   os = [FRaised 7; FOut OIllegal; FOut OIllegal] /\
   holds (u_act u) 1 0 /\ mlook 0 (w_mimic (u_mim u)) = Some 1%nat /\ kget 5%Z (u_know u) = Some (KEvent 0) /\ estat_of (u_heap u) 2 = Some SPend) /\
  (let '(g, u, os) := exf (fun f v => match f with FTask _ => Some 8%nat | FRout _ _ => None end) (GOn (mkC PRun [FTask [None]] None)) ex_fsur [FIn ITick] in
   os = [FOut (OResume (FTask [None]) None); FRaised 8] /\ holds (u_act u) 1 0).
Proof.
  split; [|split]; vm_compute.
  - split; [reflexivity|]. split; [|auto]. intros (i & H & K). injection H as <-. tauto.
  - split; [reflexivity|]. split; [|auto]. eexists. split; [reflexivity|]. cbn. auto.
  - split; [reflexivity|]. eexists. split; [reflexivity|]. cbn. auto.
Qed.
(** The task's own routine raises, or the process the task waits for: the body, which would
    go on after them, is not resumed. *)
Theorem C138_cannot_be_handled_refuted :
  snd (exf (fun f v => match f with FRout _ _ => Some 9%nat | FTask _ => None end) (GOn (mkC PRun [FRout 3 0; FTask [None; None]] None)) ex_fsur
         [FIn ITick; FIn ITick; FIn ITick]) = [FOut (OResume (FRout 3 0) None); FRaised 9; FOut OIllegal; FOut OIllegal] /\
  snd (exf ex_quiet (GOn ex_ctl) ex_fsur [FFail 7; FIn ITick; FIn ITick]) = [FRaised 7; FOut OIllegal; FOut OIllegal].
Proof. vm_compute. split; reflexivity. Qed.
(** The awaited process was interrupted and is over: answering RESTART or END fails the
    task instead. *)
Definition ex_over : surroundings unit := mkSur (u_act ex_sur) ex_one [] [(KProc, SDone)].
Theorem C138_answers_refuted :
  snd (exf ex_quiet (GOn (mkC (PWait (ELeaf 0)) [FTask [None]] None)) ex_over [FFailInt RRestart; FIn ITick]) =
    [FOut (OFail TCleanup); FOut OIllegal] /\
  snd (exf ex_quiet (GOn (mkC (PWait (ELeaf 0)) [FTask [None]] None)) ex_over [FFailInt REnd]) = [FOut (OFail TCleanup)] /\
  snd (exf ex_quiet (GOn (mkC (PWait (ELeaf 0)) [FTask [None]] None)) ex_over (repeat (FFailInt RIgnore) 3)) =
    [FOut (OSame (ELeaf 0)); FOut (OSame (ELeaf 0)); FOut (OSame (ELeaf 0))].
Proof. vm_compute. repeat split. Qed.

(** ** Examples *)
Example C137_ends_ex : let os := snd (exf ex_quiet (GOn tinit) ex_fsur [FIn ITick; FFail 7; FIn ITick]) in
  os = [FOut (OResume (FTask []) None); FOut (OYield (ELeaf 0)); FRaised 7; FOut OIllegal] /\ In (FRaised 7) os.
Proof. vm_compute. split; [reflexivity|tauto]. Qed.
Example C137_awaiting_ex : awaiting (GOn ex_ctl) /\ awaiting (GOn (mkC (PCancel [(3%nat, [ELeaf 5])] false) [] None)).
Proof. split; [left; eexists; reflexivity|right; eexists _, _; reflexivity]. Qed.
Example C137_resume_ex : about_to_resume (GOn (mkC PRun [FRout 3 0; FTask [None; None]] None)) (FRout 3 0) [FTask [None; None]] None.
Proof. cbn. auto. Qed.
Example C137_none_ex : forall f v, ex_quiet f v = None.
Proof. reflexivity. Qed.
Example C137_failed_ex : failed (u_heap ex_over) (ELeaf 0) /\ failed [(KMulti true, SDone); (KProc, SDone)] (EMulti 0 [ELeaf 1]) /\
  forallb ignores [RIgnore; RRestart] = false.
Proof. cbn. repeat split; try reflexivity; try discriminate. eexists; reflexivity. Qed.

Print Assumptions C137_ends_there.
Print Assumptions C137_awaited_fails.
Print Assumptions C137_code_raises.
Print Assumptions C137_without_failures.
Print Assumptions C137_ignored_comes_again.
Print Assumptions C137_only_answers.
Print Assumptions C137_interrupt_of_awaited.
Print Assumptions C138_left_behind_refuted.
Print Assumptions C138_cannot_be_handled_refuted.
Print Assumptions C138_answers_refuted.
