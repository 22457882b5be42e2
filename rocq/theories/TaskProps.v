(** Theorems about running, interrupting and restarting tasks. *)
From Verif Require Import Common StateModel ActiveModel ActiveSpec MimicModel MimicSpec KnowledgeModel EvModel EvSpec TaskModel TaskSpec TaskProofs.

Section Generic.
Variable W : Type.
Variable armw : W -> ev -> W.
Variable cleanup : W -> ev -> W * bool.
Variable task : body.
Variable rts : nat -> routine.
Notation run := (trun armw cleanup task rts).

(** ** C27 *)

(** Adding ignored interrupts anywhere the task is waiting changes neither the
    state of the run nor the surroundings nor anything that is observed, except
    that the same event is waited for again. *)
Theorem C27_ignored_has_no_effect c w l l' : ignored l l' ->
  Forall (fun o => legal o = true) (snd (run c w l')) ->
  fst (run c w l') = fst (run c w l) /\
  filter not_again (snd (run c w l')) = filter not_again (snd (run c w l)).
Proof. exact (ignored_same W armw cleanup task rts c w l l'). Qed.

(** One ignored interrupt: the task waits for the very same event, without
    asking it for a new simpy event, and the surroundings are untouched. *)
Theorem C27_same_event c w e : c_phase c = PWait e ->
  run c w [IInterrupt RIgnore; ITick] = (c, w, [OSame e]).
Proof. destruct c as [ph st ret]. cbn. intros ->. reflexivity. Qed.

(** ** C26 and C28: the order of things *)

(** END: first the cleanup, then all cancellation events of the routines from
    the innermost out, then the end and nothing else. *)
Theorem C26_end_order c w e ds : c_phase c = PWait e -> snd (cleanup w e) = true ->
  waits (length (plan rts (c_stack c))) ds ->
  exists w', run c w (IInterrupt REnd :: ds) =
    (mkC PEnd [] None, w', OClean e :: plan rts (c_stack c) ++ [OEnd]).
Proof.
  intros Hp Hc Hw. destruct (interrupt_run W armw cleanup task rts c w e ds Hp Hc Hw) as [w' R].
  exists w'. specialize (R REnd [] (or_introl eq_refl)). rewrite app_nil_r in R. exact R.
Qed.

(** RESTART: the same, and then the run goes on exactly like a new one in the
    surroundings END would have left. *)
Theorem C28_restart_is_new c w e ds : c_phase c = PWait e -> snd (cleanup w e) = true ->
  waits (length (plan rts (c_stack c))) ds ->
  exists w', run c w (IInterrupt REnd :: ds) =
      (mkC PEnd [] None, w', OClean e :: plan rts (c_stack c) ++ [OEnd]) /\
    forall is, run c w (IInterrupt RRestart :: ds ++ is) =
      let '(c2, w2, o2) := run tinit w' is in (c2, w2, (OClean e :: plan rts (c_stack c)) ++ o2).
Proof.
  intros Hp Hc Hw. destruct (interrupt_run W armw cleanup task rts c w e ds Hp Hc Hw) as [w' R].
  exists w'. split.
  - specialize (R REnd [] (or_introl eq_refl)). rewrite app_nil_r in R. exact R.
  - intro is. exact (R RRestart is (or_intror eq_refl)).
Qed.

(** Where END fails in its cleanup, RESTART fails in the same way, and nothing runs again. *)
Theorem C28_fails_like_end c w e is : c_phase c = PWait e -> snd (cleanup w e) = false ->
  run c w (IInterrupt RRestart :: is) = run c w (IInterrupt REnd :: is) /\
  Forall (fun o => match o with OResume _ _ => False | _ => True end) (snd (run c w (IInterrupt RRestart :: is))).
Proof.
  intros Hp Hc. cbn [trun tstep]. unfold interrupt. rewrite Hp. destruct (cleanup w e) as [w' ok]. cbn in Hc. subst ok. split; [reflexivity|].
  assert (G : forall is v c0, (exists x, c_phase c0 = PFail x) -> Forall (fun o => match o with OResume _ _ => False | _ => True end) (snd (run c0 v is))).
  { induction is0 as [|i is0 IH]; intros v c0 [x H0]; [constructor|]. cbn [trun].
    assert (S : exists v' o, tstep armw cleanup task rts c0 v i = (c0, v', o) /\ (o = [] \/ o = [OIllegal])).
    { destruct i; cbn; unfold tick, interrupt; rewrite ?H0; eauto. }
    destruct S as (v' & o & -> & Ho). specialize (IH v' c0 (ex_intro _ x H0)).
    destruct (run c0 v' is0) as [[c2 w2] o2]. cbn [snd] in *. apply Forall_app. split; [|exact IH].
    destruct Ho as [-> | ->]; repeat constructor. }
  match goal with |- context [run ?c1 ?w1 is] => specialize (G is w1 c1 (ex_intro _ _ eq_refl)); destruct (run c1 w1 is) as [[c2 w2] o2] end. cbn [snd] in *. constructor; [exact I|exact G].
Qed.

(** An interrupt that arrives while the cancellations are running is not
    caught: the task dies and the remaining cancellations never run. *)
Theorem C26_second_interrupt_kills c w todo b a : c_phase c = PCancel todo b ->
  exists c', run c w [IInterrupt a] = (c', w, [OFail TInterrupt]) /\
    forall is, Forall (fun o => match o with OCancel _ _ => False | _ => True end) (snd (run c' w is)).
Proof.
  intro Hp. exists (fail c TInterrupt). split; [cbn; unfold interrupt; rewrite Hp; reflexivity|].
  assert (G : forall is v c0, c_phase c0 = PFail TInterrupt -> Forall (fun o => match o with OCancel _ _ => False | _ => True end) (snd (run c0 v is))).
  { induction is as [|i is IH]; intros v c0 H0; [constructor|]. cbn [trun].
    assert (S : exists v' o, tstep armw cleanup task rts c0 v i = (c0, v', o) /\ (o = [] \/ o = [OIllegal])).
    { destruct i; cbn; unfold tick, interrupt; rewrite ?H0; eauto. }
    destruct S as (v' & o & -> & Ho). specialize (IH v' c0 H0).
    destruct (run c0 v' is) as [[c2 w2] o2]. cbn [snd] in *. apply Forall_app. split; [|exact IH].
    destruct Ho as [-> | ->]; repeat constructor. }
  intro is. apply G. reflexivity.
Qed.

(** ** C29 *)

(** The value of an event yielded by the task body goes to the task body. *)
Theorem C29_event_value got st e w ret v : got <> [] -> exists o,
  snd (run (mkC (PWait e) (FTask got :: st) ret) w [IDone v; ITick]) = OResume (FTask got) v :: o /\
  deliveries o = [].
Proof.
  intro Hg. destruct (event_value W armw cleanup task rts got st e w ret v) as (o & E & D).
  exists o. split; [|exact D]. rewrite E. destruct got; [contradiction|]. reflexivity.
Qed.

(** A routine that yields any number of events and returns something other
    than None, yielded by a task that was last resumed with None: whatever the
    values of the routine's events, the task is resumed with the result.
    Missing: results that are None, and tasks last resumed with a value. *)
Theorem C29_routine_result_partial r es x : scripted (rts r) es (Some x) -> forall vs (got : list val) w,
  length vs = length es -> task (got ++ [None]) = ARout r ->
  exists o1 o2, snd (run (mkC PRun [FTask got] None) w ((ITick :: play vs ++ [ITick]) ++ [ITick])) =
    o1 ++ OResume (FTask (got ++ [None])) (Some x) :: o2 /\
    deliveries o1 = (FTask got, None) :: map (fun k => (FRout r k, None)) (seq 0 (S (length es))) /\
    deliveries o2 = [].
Proof. intros S vs got w. exact (routine_delivers W armw cleanup task rts r es (Some x) S vs got w). Qed.

(** The same for a routine that returns None: the task is resumed with the
    value of the routine's last event. *)
Theorem C29_none_result_is_stale r es : scripted (rts r) es None -> forall vs (got : list val) w,
  length vs = length es -> task (got ++ [None]) = ARout r ->
  exists o1 o2, snd (run (mkC PRun [FTask got] None) w ((ITick :: play vs ++ [ITick]) ++ [ITick])) =
    o1 ++ OResume (FTask (got ++ [None])) (last_val (map snd vs)) :: o2 /\
    deliveries o1 = (FTask got, None) :: map (fun k => (FRout r k, None)) (seq 0 (S (length es))) /\
    deliveries o2 = [].
Proof. intros S vs got w. exact (routine_delivers W armw cleanup task rts r es None S vs got w). Qed.

(** Yielding a routine after having received a value: TypeError, the routine
    does not run. *)
Theorem C29_routine_after_value_raises got x r w : got <> [] -> task (got ++ [Some x]) = ARout r ->
  exists c', run (mkC PRun [FTask got] (Some x)) w [ITick; ITick] =
    (c', w, [OResume (FTask got) (Some x); OFail TType]).
Proof.
  intros Hg Ht. destruct got as [|g got]; [contradiction|]. eexists.
  cbn [trun tstep tick c_phase c_stack c_ret fresh andb].
  assert (Ht' : act_of task rts (FTask (g :: got)) (Some x) = ARout r) by exact Ht. rewrite Ht'. reflexivity.
Qed.

(** A routine's body never learns the values of the events it yields. *)
Theorem C29_routine_bodies_get_none is c w r k v :
  In (OResume (FRout r k) v) (snd (run c w is)) -> v = None.
Proof. exact (run_rout W armw cleanup task rts is c w r k v). Qed.

(** A routine cannot yield a routine. *)
Theorem C29_nested_routine_raises r k st w r2 : r_run (rts r) k = ARout r2 ->
  exists c', run (mkC PRun (FRout r k :: st) None) w [ITick] =
    (c', w, [OResume (FRout r k) None; OFail TSim]).
Proof.
  intro H. eexists. cbn [trun tstep tick c_phase c_stack c_ret fresh].
  assert (FR : (Nat.eqb k 0 && false = false)%bool) by apply andb_false_r. rewrite FR. cbn [act_of]. rewrite H. reflexivity.
Qed.
End Generic.

(** ** C26: what is left behind *)

(** Interrupting with END or RESTART when the actor's mimics are all the
    task's and nothing awaited has been triggered: the cleanup succeeds and
    leaves nothing of the task's.  Missing: the cases refuted below. *)
Theorem C26_leaves_nothing_partial V typ me t (u : surroundings V) e :
  lived typ u -> own_mimics typ me t (u_mim u) -> cancellable (u_heap u) e ->
  exists u', clean typ me t u e = (u', true) /\ left_nothing me t e u u'.
Proof. exact (clean_ok V typ me t u e). Qed.

(** The whole of it: from the interrupt to the end. *)
Theorem C26_end_partial V typ me t task rts c (u : surroundings V) e ds :
  c_phase c = PWait e ->
  lived typ u -> own_mimics typ me t (u_mim u) -> cancellable (u_heap u) e ->
  waits (length (plan rts (c_stack c))) ds ->
  exists u1 u2, clean typ me t u e = (u1, true) /\ left_nothing me t e u u1 /\
    trun arm_sur (clean typ me t) task rts c u (IInterrupt REnd :: ds) =
      (mkC PEnd [] None, u2, OClean e :: plan rts (c_stack c) ++ [OEnd]).
Proof.
  intros Hp HL HM HC Hw. destruct (clean_ok V typ me t u e HL HM HC) as (u1 & E1 & LN).
  destruct (C26_end_order (surroundings V) arm_sur (clean typ me t) task rts c u e ds Hp) as [u2 R].
  - rewrite E1. reflexivity.
  - exact Hw.
  - exists u1, u2. auto.
Qed.

(** Another task of the same actor has a mimic; or the awaited Any has just
    been triggered; or the awaited All contains an Event that has happened:
    cleaning up raises, so the task fails, no routine is cancelled and the
    pending Get stays in its queue. *)
Definition any_type : nat -> Z -> bool := fun _ _ => true.
Definition ex_mimics : world := mrun any_type
  (minit 0 [mkCell 0 false true false 0 []; mkCell 0 false true false 0 []; mkCell 1 false true false 20 []])
  [MMimic 0 2 1; MMimic 1 2 2].
Definition ex_routine : nat -> routine := fun _ => mkR (fun _ => AYield (ELeaf 2)) [ELeaf 2].
Definition ex_run (m : world) (h : heap) (e : ev) :=
  trun arm_sur (clean any_type 0 1) (fun _ => AYield e) ex_routine
    (mkC (PWait e) [FRout 0 1; FTask [None]] None)
    (mkSur (V := unit) (ainit 0 []) m [] h) [IInterrupt REnd].
Definition ex_one : world := minit 0 [].
Theorem C26_cleanup_raises_refuted :
  let get := ELeaf 2 in
  let any := EMulti 0 [ELeaf 1; get] in
  snd (ex_run ex_mimics [(KMulti false, SFresh); (KWait, SFresh); (KReq, SPend)] get) = [OFail TCleanup] /\
  estat_of (u_heap (snd (fst (ex_run ex_mimics [(KMulti false, SFresh); (KWait, SFresh); (KReq, SPend)] get)))) 2 = Some SPend /\
  snd (ex_run ex_one [(KMulti false, STrig); (KWait, SDone); (KReq, SPend)] any) = [OFail TCleanup] /\
  estat_of (u_heap (snd (fst (ex_run ex_one [(KMulti false, STrig); (KWait, SDone); (KReq, SPend)] any)))) 2 = Some SPend /\
  snd (ex_run ex_one [(KMulti true, SPend); (KEvt, SDone); (KReq, SPend)] any) = [OFail TCleanup] /\
  estat_of (u_heap (snd (fst (ex_run ex_one [(KMulti true, SPend); (KEvt, SDone); (KReq, SPend)] any)))) 2 = Some SPend.
Proof. vm_compute. repeat split. Qed.

(** ** C62 *)

(** A knowledge event that is awaited inside an Any stays in the knowledge,
    although the interrupt has succeeded it. *)
Theorem C62_knowledge_event_in_any_refuted :
  let u := mkSur (V := unit) (ainit 0 []) ex_one [(5%Z, KEvent 1)] [(KMulti false, SPend); (KEvt, SPend); (KWait, SPend)] in
  let '(u', ok) := clean any_type 0 1 u (EMulti 0 [ELeaf 1; ELeaf 2]) in
  ok = true /\ kget 5%Z (u_know u') = Some (KEvent 1) /\ estat_of (u_heap u') 1 = Some STrig.
Proof. vm_compute. repeat split. Qed.

Print Assumptions C27_ignored_has_no_effect.
Print Assumptions C27_same_event.
Print Assumptions C26_end_order.
Print Assumptions C28_restart_is_new.
Print Assumptions C28_fails_like_end.
Print Assumptions C26_second_interrupt_kills.
Print Assumptions C29_event_value.
Print Assumptions C29_routine_result_partial.
Print Assumptions C29_none_result_is_stale.
Print Assumptions C29_routine_after_value_raises.
Print Assumptions C29_routine_bodies_get_none.
Print Assumptions C29_nested_routine_raises.
Print Assumptions C26_leaves_nothing_partial.
Print Assumptions C26_end_partial.
Print Assumptions C26_cleanup_raises_refuted.
Print Assumptions C62_knowledge_event_in_any_refuted.

(** ** Examples *)

(** A task that waits for event 0, then runs routine 3 (two events, result 9),
    then returns. *)
Definition ex_task : body := fun got =>
  match got with
  | [_] => AYield (ELeaf 0)
  | [_; _] => ARout 3
  | _ => AReturn None
  end.
Definition ex_rts : nat -> routine := fun _ =>
  mkR (fun k => match k with O => AYield (ELeaf 1) | 1%nat => AYield (ELeaf 2) | _ => AReturn (Some 9%nat) end)
      [ELeaf 5; ELeaf 6].
Definition ex_arm : nat -> ev -> nat := fun n _ => S n.
Definition ex_clean : nat -> ev -> nat * bool := fun n _ => (n, true).
Notation ex := (trun ex_arm ex_clean ex_task ex_rts).

Example ex_normal : snd (ex tinit 0%nat
    [ITick; IDone None; ITick; ITick; IInterrupt RIgnore; ITick; IDone (Some 4%nat); ITick; IDone None; ITick; ITick]) =
  [OResume (FTask []) None; OYield (ELeaf 0); OResume (FTask [None]) None;
   OResume (FRout 3 0) None; OYield (ELeaf 1); OSame (ELeaf 1);
   OResume (FRout 3 1) None; OYield (ELeaf 2); OResume (FRout 3 2) None;
   OResume (FTask [None; None]) (Some 9%nat); OEnd].
Proof. reflexivity. Qed.
Example ex_ignored : ignored (W := nat) [ITick; IDone None; ITick; ITick; IDone (Some 4%nat)]
    [ITick; IDone None; ITick; ITick; IInterrupt RIgnore; ITick; IDone (Some 4%nat)] /\
  Forall (fun o => legal o = true) (snd (ex tinit 0%nat [ITick; IDone None; ITick; ITick; IInterrupt RIgnore; ITick; IDone (Some 4%nat)])).
Proof. split; repeat constructor. Qed.
(** END inside the routine. *)
Example ex_end : ex tinit 0%nat [ITick; IDone None; ITick; ITick; IInterrupt REnd; IDone None; IDone None] =
  (mkC PEnd [] None, 4%nat,
   [OResume (FTask []) None; OYield (ELeaf 0); OResume (FTask [None]) None; OResume (FRout 3 0) None; OYield (ELeaf 1);
    OClean (ELeaf 1); OCancel 3 (ELeaf 5); OCancel 3 (ELeaf 6); OEnd]).
Proof. reflexivity. Qed.
Example ex_restart : waits (W := nat) (length (plan ex_rts [FRout 3 1; FTask [None; None]])) [IDone None; IWorld 7%nat; IDone None] /\
  snd (ex (mkC (PWait (ELeaf 1)) [FRout 3 1; FTask [None; None]] None) 0%nat
    [IInterrupt RRestart; IDone None; IWorld 7%nat; IDone None; ITick]) =
  [OClean (ELeaf 1); OCancel 3 (ELeaf 5); OCancel 3 (ELeaf 6); OResume (FTask []) None; OYield (ELeaf 0)].
Proof. split; [repeat constructor|reflexivity]. Qed.
Example ex_scripted : scripted (ex_rts 3) [ELeaf 1; ELeaf 2] (Some 9%nat) /\ ex_task ([None] ++ [None]) = ARout 3.
Proof.
  split; [|reflexivity]. split; [|reflexivity]. intros [|[|[|k]]] e H; inversion H; reflexivity.
Qed.

(** Interrupted again while the first cancellation event is awaited: the second
    one is never reached. *)
Theorem C26_second_interrupt_refuted :
  ex tinit 0%nat [ITick; IDone None; ITick; ITick; IInterrupt REnd; IInterrupt RIgnore] =
  (mkC (PFail TInterrupt) [] None, 3%nat,
   [OResume (FTask []) None; OYield (ELeaf 0); OResume (FTask [None]) None; OResume (FRout 3 0) None; OYield (ELeaf 1);
    OClean (ELeaf 1); OCancel 3 (ELeaf 5); OFail TInterrupt]).
Proof. vm_compute. reflexivity. Qed.
Print Assumptions C26_second_interrupt_refuted.
Example C28_fails_ex : c_phase (mkC (PWait (ELeaf 2)) [FRout 0 1; FTask [None]] None) = PWait (ELeaf 2) /\
  snd (clean any_type 0 1 (mkSur (V := unit) (ainit 0 []) ex_mimics [] [(KMulti false, SFresh); (KWait, SFresh); (KReq, SPend)]) (ELeaf 2)) = false.
Proof. vm_compute. split; reflexivity. Qed.

(** A routine without a result whose event had value 4: the task gets 4, the
    routine's body got None.  A value before the routine: TypeError.  A routine
    in a routine: SimulationError. *)
Definition ex_plain (a0 a1 : act) : nat -> routine := fun _ => mkR (fun k => match k with O => a0 | _ => a1 end) [].
Theorem C29_refuted :
  deliveries (snd (trun ex_arm ex_clean ex_task (ex_plain (AYield (ELeaf 1)) (AReturn None)) tinit 0%nat
    [ITick; IDone None; ITick; ITick; IDone (Some 4%nat); ITick; ITick])) =
  [(FTask [], None); (FTask [None], None); (FRout 3 0, None); (FRout 3 1, None); (FTask [None; None], Some 4%nat)] /\
  snd (ex tinit 0%nat [ITick; IDone (Some 7%nat); ITick; ITick]) =
  [OResume (FTask []) None; OYield (ELeaf 0); OResume (FTask [None]) (Some 7%nat); OFail TType] /\
  snd (trun ex_arm ex_clean ex_task (ex_plain (ARout 4) (AReturn None)) tinit 0%nat [ITick; IDone None; ITick; ITick]) =
  [OResume (FTask []) None; OYield (ELeaf 0); OResume (FTask [None]) None; OResume (FRout 3 0) None; OFail TSim].
Proof. vm_compute. repeat split. Qed.
Print Assumptions C29_refuted.

(** The actor has an active state and a mimic of this task's (1), an active
    state of another task's (2), and knows the awaited event under a name. *)
Definition ex_sur : surroundings unit :=
  mkSur (fst (arun (ainit 0 [(Linear, 5); (Linear, 6)]) [AActivate 0 1 (Some 1); AActivate 1 2 (Some 1)]))
        (mrun any_type (minit 0 [mkCell 0 false true false 0 []; mkCell 1 false true false 20 []]) [MMimic 0 1 1])
        [(5%Z, KEvent 0); (6%Z, KOther tt)] [(KEvt, SPend)].
Example ex_clean_ok : lived any_type ex_sur /\ own_mimics any_type 0 1 (u_mim ex_sur) /\ cancellable (u_heap ex_sur) (ELeaf 0) /\
  holds (u_act ex_sur) 1 0 /\ holds (u_act ex_sur) 2 1.
Proof.
  split; [|split; [|split; [|split]]].
  - split.
    + exists 0, [(Linear, 5); (Linear, 6)], [AActivate 0 1 (Some 1); AActivate 1 2 (Some 1)].
      split; [|reflexivity]. repeat constructor; discriminate.
    + eexists 0, _, [MMimic 0 1 1]. reflexivity.
  - split.
    + intros c s H. destruct c as [|c]; [|vm_compute in H; discriminate].
      exists 1%nat, 20%Z. split; [eapply root_step; [reflexivity|apply root_end; reflexivity]|].
      split; [eexists; split; vm_compute; reflexivity|]. eexists. split; [vm_compute; reflexivity|]. split; reflexivity.
    + intros c s H _. destruct c as [|c]; [|vm_compute in H; discriminate]. vm_compute. auto.
  - split; [eapply fits_leaf; [reflexivity|discriminate]|]. split; [repeat constructor|].
    split; [vm_compute; repeat constructor; simpl; tauto|]. vm_compute. discriminate.
  - eexists. split; [vm_compute; reflexivity|]. vm_compute. auto.
  - eexists. split; [vm_compute; reflexivity|]. vm_compute. auto.
Qed.

(** An on_interrupt that returns nothing, or something that is not an InterruptStates, is a
    SimulationError: the task ends there, and neither it nor its surroundings change. *)
Theorem C26_wrong_answer W armw cleanup task rts c (w : W) e a : c_phase c = PWait e -> a = RNone \/ a = RWrong ->
  exists c', trun armw cleanup task rts c w [IInterrupt a] = (c', w, [OFail TSim]) /\ c_phase c' = PFail TSim.
Proof. intros P A. exists (fail c TSim). cbn [trun tstep]. unfold interrupt. rewrite P. destruct A as [-> | ->]; auto. Qed.
(** The clean-up stops at the first step that raises: a state that cannot be deactivated
    leaves mimics, knowledge and events as they are, a mimic that cannot be released leaves
    knowledge and events; otherwise it fails exactly if the event cannot be cancelled. *)
Theorem C26_stops_at_failure V typ me t (u u' : surroundings V) e ok : clean typ me t u e = (u', ok) ->
  u_act u' = fst (astep (u_act u) (ADeactivateAll t)) /\
  (snd (astep (u_act u) (ADeactivateAll t)) <> AOk -> ok = false /\ u_mim u' = u_mim u /\ u_know u' = u_know u /\ u_heap u' = u_heap u) /\
  (snd (astep (u_act u) (ADeactivateAll t)) = AOk -> u_mim u' = fst (mimic_off_all typ (u_mim u) me t) /\
    (snd (mimic_off_all typ (u_mim u) me t) <> MOk -> ok = false /\ u_know u' = u_know u /\ u_heap u' = u_heap u) /\
    (snd (mimic_off_all typ (u_mim u) me t) = MOk -> u_heap u' = fst (cancel_top e (u_heap u)) /\ ok = snd (cancel_top e (u_heap u)))).
Proof.
  unfold clean. destruct (astep (u_act u) (ADeactivateAll t)) as [a1 r1]. cbn [fst snd].
  destruct (mimic_off_all typ (u_mim u) me t) as [m1 r2]. cbn [fst snd]. destruct (cancel_top e (u_heap u)) as [h1 b]. cbn [fst snd].
  destruct r1; try (intro H; injection H as <- <-; cbn; split; [reflexivity|]; split; [auto|discriminate]).
  destruct r2; intro H; injection H as <- <-; cbn; (split; [reflexivity|]; split; [contradiction|]; intros _; split; [reflexivity|]; split; [auto; try contradiction|auto; discriminate]).
Qed.
Print Assumptions C26_wrong_answer.
Print Assumptions C26_stops_at_failure.
Example C26_wrong_ex : snd (ex tinit 0%nat [ITick; IInterrupt RNone; ITick]) = [OResume (FTask []) None; OYield (ELeaf 0); OFail TSim; OIllegal].
Proof. vm_compute. reflexivity. Qed.
