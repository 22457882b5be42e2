(** Theorems C131 and C132: a rehearsal foretells the run. *)
From Coq Require Import Lqa.
From Verif Require Import Common StateModel ActiveModel KnowledgeModel PredModel PredSpec PredProofs.

Lemma start_rel w : idle (wd_actor w) -> wd_heap w = [] -> exists v, clone w = Some v /\ wrel 0 [] [] w v.
Proof.
  intros I H. eexists. split; [apply clone_idle, I|]. split; [reflexivity|]. split; [reflexivity|]. cbn. rewrite H.
  repeat split; auto; try contradiction; destruct i; discriminate.
Qed.

Ltac granted_by_computing :=
  intros t o r I; vm_compute in I;
  repeat (destruct I as [I|I]; [first [discriminate I | injection I; intros; subst; split; [discriminate|intros; discriminate]]|]); destruct I.

(** ** C131 *)

(** Alone, from an actor without active states: the understudy ends as the actor would, at the same time, the task
    returns or raises as it would, and all it sees on the way is the same. *)
Theorem C131_task (p : prog) (w : world) :
  idle (wd_actor w) -> wd_heap w = [] -> tidy 0 [] [] p -> granted (snd (run p w)) ->
  exists r, rehearse p w = Some r /\
    shows (fst (fst r)) = shows (fst (fst (run p w))) /\ snd (fst r) = snd (fst (run p w)) /\ snd r = snd (run p w).
Proof.
  intros I H T G. destruct (start_rel w I H) as (v & Ev & W). unfold rehearse. rewrite Ev. cbn.
  eexists. split; [reflexivity|]. destruct (predicts 0 [] [] p T w v W G) as [P _]. unfold outcome in P.
  injection P as A B C D E. unfold shows. rewrite A, B, C, D, E. auto.
Qed.

(** The same for tasks one after the other, as rehearse_network and the network's loop perform them. *)
Theorem C131_network (ps : list prog) (w : world) :
  idle (wd_actor w) -> wd_heap w = [] -> (forall n p, In p ps -> tidy n [] [] p) -> granted (snd (run_chain ps w)) ->
  exists r, rehearse_chain ps w = Some r /\
    shows (fst (fst r)) = shows (fst (fst (run_chain ps w))) /\ snd (fst r) = snd (fst (run_chain ps w)) /\ snd r = snd (run_chain ps w).
Proof.
  intros I H T G. destruct (start_rel w I H) as (v & Ev & W). unfold rehearse_chain. rewrite Ev. cbn.
  eexists. split; [reflexivity|]. pose proof (chain_predicts ps T 0%nat w v W G) as P. unfold outcome, run_chain in *.
  injection P as A B C D E. unfold shows. rewrite A, B, C, D, E. auto.
Qed.

(** Tasks one after the other: one is as it is alone, an error is the end, otherwise the others go on where they ended. *)
Theorem C131_in_turn (ps qs : list prog) (w : world) :
  (forall p, run_chain [p] w = run p w /\ rehearse_chain [p] w = rehearse p w) /\
  run_chain (ps ++ qs) w = (let '(w1, e, l) := run_chain ps w in match e with Raised => (w1, Raised, l) | Returned => let '(w2, e2, l2) := run_chain qs w1 in (w2, e2, l ++ l2) end).
Proof.
  split.
  - intro p. unfold run_chain, rehearse_chain, rehearse. split; [|destruct (clone w) as [v|]; [cbn|reflexivity]; unfold option_map; f_equal].
    + cbn. destruct (run p w) as [[w1 []] l]; [rewrite app_nil_r|]; reflexivity.
    + destruct (rehearse_on p v) as [[w1 []] l]; [rewrite app_nil_r|]; reflexivity.
  - unfold run_chain. revert w. induction ps as [|p ps IH]; intro w; cbn; [destruct (chain run qs w) as [[w1 e] l]; reflexivity|].
    destruct (run p w) as [[w1 []] l]; [|reflexivity]. rewrite IH. destruct (chain run ps w1) as [[w2 []] l2]; [|reflexivity]. destruct (chain run qs w2) as [[w3 e3] l3]. rewrite app_assoc. reflexivity.
Qed.

(** *** Example: fly until the fuel is used or the time is up, note how it ended *)
Definition fly (n : key) : prog :=
  Do (SA (AActivate 0 1 (Some (-2)))) (fun _ =>
  New 5 None (fun a => New (7 # 2) None (fun b =>
  match a, b with
  | Some a, Some b =>
      Yield (EAny [a; b]) (fun _ =>
      Done b (fun d =>
      Do (SA (ARead 0)) (fun v =>
      Do (SA (ADeactivate 0 1)) (fun _ =>
      match d, v with
      | Some true, OA (AVal q) => if Qltb q 4 then Do (SK (NSet n (KOther 1%Z) true)) (fun _ => Now (fun _ => Ret)) else Ret
      | _, _ => Fail
      end))))
  | _, _ => Fail
  end))).
Definition w0 : world := mkWd (mkA 10 [mkSlot Linear 10 None []; mkSlot Plain 3 None []] []) (mkKn [] [] false) [] 0.
Lemma w0_idle : idle (wd_actor w0).
Proof. split; [reflexivity|]. repeat constructor. Qed.
Lemma fly_tidy n m : tidy m [] [] (fly n).
Proof.
  unfold fly. constructor. intro r. apply T_new; [auto| |apply T_new; [auto|constructor|constructor]].
  apply T_new; [auto| |constructor]. apply T_yield; cbn [ids].
  - discriminate.
  - repeat constructor; cbn; intuition lia.
  - intros i [<-|[<-|[]]]; cbn; auto.
  - reflexivity.
  - apply T_done; [cbn; auto|]. intro b. constructor. intro v. constructor. intro x.
    destruct b as [[]|]; try constructor. destruct v as [[]|]; try constructor. destruct (Qltb _ 4); [|constructor]. constructor. intro y. constructor. intro z. constructor.
Qed.
Example C131_ex :
  granted (snd (run (fly 7%Z) w0)) /\ option_map (fun r => (snd (fst r), now (fst (fst r)), snd r)) (rehearse (fly 7%Z) w0)
  = Some (Returned, 10 + (7 # 2),
          [SaidAt 10 (SA (AActivate 0 1 (Some (-2)))) (OA AOk); Made (Some 0%nat); Made (Some 1%nat); Yielded 10 (EAny [0; 1]%nat); Asked 1 (Some true);
           SaidAt (10 + (7 # 2)) (SA (ARead 0)) (OA (AVal (10 + 0 * -2 + (10 + (7 # 2) - 10) * -2)));
           SaidAt (10 + (7 # 2)) (SA (ADeactivate 0 1)) (OA AOk);
           SaidAt (10 + (7 # 2)) (SK (NSet 7%Z (KOther 1%Z) true)) (OK NOk); SawClock (10 + (7 # 2))]).
Proof.
  split; [|vm_compute; reflexivity]. granted_by_computing.
Qed.
Example C131_ex_network : granted (snd (run_chain [fly 7%Z; fly 8%Z] w0)) /\ (forall n p, In p [fly 7%Z; fly 8%Z] -> tidy n [] [] p).
Proof.
  split.
  - granted_by_computing.
  - intros n p [<-|[<-|[]]]; apply fly_tidy.
Qed.

(** ** C132 *)

(** The understudy's states have the values the actor's have now, whatever is active. *)
Theorem C132_start_partial (w v : world) : clone w = Some v ->
  now v = now w /\ n_dict (wd_kn v) = n_dict (wd_kn w) /\
  forall i x, nth_error (a_slots (wd_actor w)) i = Some x ->
    exists y q, nth_error (a_slots (wd_actor v)) i = Some y /\ snd (read_slot (now w) x) = inl q /\ snd (read_slot (now v) y) = inl q.
Proof.
  unfold clone. destruct (clone_slots (now w) (a_slots (wd_actor w))) as [l|] eqn:E; [|discriminate]. intros [= <-].
  split; [reflexivity|]. split; [reflexivity|]. cbn. change (now (mkWd _ _ _ _)) with (now w).
  revert l E. induction (a_slots (wd_actor w)) as [|z sl IH]; cbn; intros l E i x H; [destruct i; discriminate|].
  destruct (read_slot (now w) z) as [z1 [q|er]] eqn:Ez; [|discriminate].
  destruct (clone_slots (now w) sl) as [l1|]; [|discriminate]. injection E as <-. destruct i as [|i]; cbn in H.
  - injection H as ->. exists (mkSlot (v_kind x) q None []), q. split; [reflexivity|]. split; [rewrite Ez; reflexivity|].
    unfold read_slot, linear_active, shared_active. cbn. destruct (v_kind x); reflexivity.
  - destruct (IH l1 eq_refl i x H) as (y & q0 & A & B & C). exists y, q0. auto.
Qed.

(** Code that does not depend on the answers, whatever Waits it uses again: the rehearsal does not end before the run. *)
Theorem C132_late_partial (p : prog) (w : world) : wd_heap w = [] -> straight 0 p -> forall r, rehearse p w = Some r ->
  now (fst (fst (run p w))) <= now (fst (fst r)).
Proof.
  intros H S r. unfold rehearse, clone. destruct (clone_slots _ _) as [l|]; [|discriminate]. intros [= <-].
  apply (late 0); [exact S|]. split; [apply Qle_refl|]. cbn. rewrite H. repeat split; auto; destruct i; discriminate.
Qed.

(** *** Witnesses *)
Definition busy : world :=
  mkWd (mkA 10 [mkSlot Linear 10 (Some (mkD 10 (Some (-2)) (Some 9%nat) None None)) [9%nat]] [(9%nat, 0%nat)]) (mkKn [(7%Z, KOther 1%Z)] [] false) [] 0.
Definition look : prog := New 3 None (fun a => match a with Some a => Yield (EOne a) (fun _ => Do (SA (ARead 0)) (fun _ => Ret)) | None => Fail end).
Example C132_ex_start : exists v, clone busy = Some v.
Proof. eexists. reflexivity. Qed.

(** A state another task has activated goes on in the run and stands still in the rehearsal. *)
Theorem C132_active_refuted :
  exists w p, wd_heap w = [] /\ tidy 0 [] [] p /\ granted (snd (run p w)) /\
    exists r q q', rehearse p w = Some r /\ snd (fst r) = Returned /\ snd (fst (run p w)) = Returned /\
      In (SaidAt (now (fst (fst r))) (SA (ARead 0)) (OA (AVal q))) (snd r) /\
      In (SaidAt (now (fst (fst r))) (SA (ARead 0)) (OA (AVal q'))) (snd (run p w)) /\ q == 10 /\ q' == 4.
Proof.
  exists busy, look. split; [reflexivity|]. split.
  { apply T_new; [auto| |constructor]. apply T_yield; cbn [ids]; [discriminate|repeat constructor; cbn; tauto|intros i [<-|[]]; cbn; auto|reflexivity|].
    constructor. intro. constructor. }
  split; [granted_by_computing|].
  do 3 eexists. split; [vm_compute; reflexivity|]. split; [reflexivity|]. split; [vm_compute; reflexivity|].
  split; [vm_compute; right; right; left; reflexivity|]. split; [vm_compute; right; right; left; reflexivity|]. split; vm_compute; reflexivity.
Qed.

(** The rehearsal activates a state that is locked in the run. *)
Theorem C132_locked_refuted :
  exists w p, wd_heap w = [] /\ tidy 0 [] [] p /\ granted (snd (run p w)) /\ snd (fst (run p w)) = Raised /\
    exists r, rehearse p w = Some r /\ snd (fst r) = Returned.
Proof.
  exists busy, (Do (SA (AActivate 0 1 (Some 1))) (fun r => match r with OA AOk => Ret | _ => Fail end)).
  split; [reflexivity|]. split; [constructor; intros [[]|]; constructor|].
  split; [granted_by_computing|].
  split; [vm_compute; reflexivity|]. eexists. split; vm_compute; reflexivity.
Qed.

(** A knowledge event under a name that is taken: an error in the run, none in the rehearsal, which loses what was known. *)
Theorem C132_event_refuted :
  exists w p, idle (wd_actor w) /\ wd_heap w = [] /\ tidy 0 [] [] p /\ snd (fst (run p w)) = Raised /\
    exists r, rehearse p w = Some r /\ snd (fst r) = Returned /\
      n_dict (wd_kn (fst (fst (run p w)))) = n_dict (wd_kn w) /\ n_dict (wd_kn (fst (fst r))) <> n_dict (wd_kn w).
Proof.
  exists (mkWd (wd_actor w0) (mkKn [(7%Z, KOther 1%Z)] [] false) [] 0),
    (Do (SK (NCreateEvent 7%Z)) (fun r => match r with OK NSimError => Fail | _ => Ret end)).
  split; [apply w0_idle|]. split; [reflexivity|]. split; [constructor; intros [|[]]; constructor|].
  split; [vm_compute; reflexivity|]. eexists. split; [vm_compute; reflexivity|]. split; [reflexivity|]. split; [vm_compute; reflexivity|]. vm_compute. discriminate.
Qed.

(** A Wait that lost in an Any and is waited for afterwards counts twice in the rehearsal. *)
Definition again : prog :=
  New 10 None (fun a => New 3 None (fun b => match a, b with
    | Some a, Some b => Yield (EAny [a; b]) (fun _ => Yield (EOne a) (fun _ => Ret)) | _, _ => Fail end)).
Example C132_ex_late : straight 0 again.
Proof.
  apply St_new; [lra|]. apply St_new; [lra|]. apply St_yield; [discriminate|repeat constructor; cbn; intuition lia|repeat constructor|reflexivity|].
  apply St_yield; [discriminate|repeat constructor; cbn; tauto|repeat constructor|reflexivity|]. constructor.
Qed.
Theorem C132_again_refuted :
  exists w p, idle (wd_actor w) /\ wd_heap w = [] /\ straight 0 p /\
    exists r, rehearse p w = Some r /\ snd (fst r) = Returned /\ snd (fst (run p w)) = Returned /\
      now (fst (fst (run p w))) == now w + 10 /\ now (fst (fst r)) == now w + 13.
Proof.
  exists w0, again. split; [apply w0_idle|]. split; [reflexivity|]. split; [apply C132_ex_late|].
  eexists. split; [vm_compute; reflexivity|]. repeat split; vm_compute; reflexivity.
Qed.

(** A Wait that lost in an Any is complete some time later in the run, never in the rehearsal. *)
Theorem C132_behind_refuted :
  exists w p a, idle (wd_actor w) /\ wd_heap w = [] /\ snd (fst (run p w)) = Returned /\
    In (Asked a (Some true)) (snd (run p w)) /\
    exists r, rehearse p w = Some r /\ In (Asked a (Some false)) (snd r) /\ now (fst (fst r)) = now (fst (fst (run p w))).
Proof.
  exists w0, (New 10 None (fun a => New 3 None (fun b => New 8 None (fun c => match a, b, c with
    | Some a, Some b, Some c => Yield (EAny [a; b]) (fun _ => Yield (EOne c) (fun _ => Done a (fun _ => Ret))) | _, _, _ => Fail end)))), 0%nat.
  split; [apply w0_idle|]. split; [reflexivity|]. split; [vm_compute; reflexivity|].
  split; [vm_compute; do 5 right; left; reflexivity|].
  eexists. split; [vm_compute; reflexivity|]. split; [vm_compute; do 5 right; left; reflexivity|vm_compute; reflexivity].
Qed.

(** What an Any gives back is there in the run only. *)
Theorem C132_answer_refuted :
  exists w p, idle (wd_actor w) /\ wd_heap w = [] /\ snd (fst (run p w)) = Returned /\
    exists r, rehearse p w = Some r /\ snd (fst r) = Raised.
Proof.
  exists w0, (New 3 None (fun a => match a with Some a => Yield (EAny [a]) (fun v => match v with ACond [0%nat] => Ret | _ => Fail end) | None => Fail end)).
  split; [apply w0_idle|]. split; [reflexivity|]. split; [vm_compute; reflexivity|]. eexists. split; vm_compute; reflexivity.
Qed.

(** An Any of nothing is over at once in the run and raises in the rehearsal. *)
Theorem C132_nothing_refuted :
  exists w p, idle (wd_actor w) /\ wd_heap w = [] /\ snd (fst (run p w)) = Returned /\
    exists r, rehearse p w = Some r /\ snd (fst r) = Raised.
Proof.
  exists w0, (Yield (EAny []) (fun _ => Ret)). split; [apply w0_idle|]. split; [reflexivity|]. split; [vm_compute; reflexivity|]. eexists. split; vm_compute; reflexivity.
Qed.

(** A rehearsal time of its own is believed. *)
Theorem C132_estimate_refuted :
  exists w p, idle (wd_actor w) /\ wd_heap w = [] /\ snd (fst (run p w)) = Returned /\
    exists r, rehearse p w = Some r /\ snd (fst r) = Returned /\ now (fst (fst r)) == now w + 1 /\ now (fst (fst (run p w))) == now w + 3.
Proof.
  exists w0, (New 3 (Some 1) (fun a => match a with Some a => Yield (EOne a) (fun _ => Ret) | None => Fail end)).
  split; [apply w0_idle|]. split; [reflexivity|]. split; [vm_compute; reflexivity|]. eexists. split; [vm_compute; reflexivity|]. repeat split; vm_compute; reflexivity.
Qed.

Print Assumptions C131_task.
Print Assumptions C131_network.
Print Assumptions C131_in_turn.
Print Assumptions C132_start_partial.
Print Assumptions C132_late_partial.
Print Assumptions C132_active_refuted.
Print Assumptions C132_locked_refuted.
Print Assumptions C132_event_refuted.
Print Assumptions C132_again_refuted.
Print Assumptions C132_behind_refuted.
Print Assumptions C132_answer_refuted.
Print Assumptions C132_nothing_refuted.
Print Assumptions C132_estimate_refuted.
