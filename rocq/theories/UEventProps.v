(** Theorems about reusable events (C33). *)
From Coq Require Import Permutation.
From Verif Require Import Common UEventModel UEventSpec UEventProofs.

Definition at_ (b : bool) (os : list uop) : ust := fst (urun (uinit b) os).

(** Whatever is done with the Event, a wait is woken at most once. *)
Theorem C33_once b os : let tr := snd (urun (uinit b) os) in NoDup (woken tr) /\ incl (woken tr) (waits tr).
Proof.
  cbn zeta. pose proof (run_live os _ (init_UI b)) as R. destruct (urun (uinit b) os) as [s tr]. cbn [snd]. destruct R as (P & W & _).
  change (live (uinit b)) with (@nil nat) in P. cbn [app] in P. split.
  - assert (N : NoDup (woken tr ++ live s)) by (apply (Permutation_NoDup (Permutation_sym P)); rewrite W; apply seq_NoDup).
    clear - N. induction (woken tr) as [|x l IH]; [constructor|]. cbn in N. inversion N; subst. constructor; [|auto].
    intro H. apply H1. apply in_or_app. auto.
  - intros x H. apply (Permutation_in _ P). apply in_or_app. auto.
Qed.
(** A success that is accepted wakes everything waiting at that moment, whatever
    is done in the meantime... *)
Theorem C33_everybody b os p w os' : let s := at_ b os in waiting s w ->
  snd (ustep s (USucceed p)) = UOk ->
  let '(s', tr) := urun (fst (ustep s (USucceed p))) os' in quiet s' -> In w (woken tr).
Proof.
  cbn zeta. intros W A. pose proof (run_UI os _ (init_UI b)) as I. fold (at_ b os) in I.
  pose proof (run_way os' _ w (step_UI _ (USucceed p) I) (accept_way _ p w I A W)) as R.
  pose proof (run_UI os' _ (step_UI _ (USucceed p) I)) as I2.
  destruct (urun (fst (ustep (at_ b os) (USucceed p))) os') as [s' tr]. cbn [fst] in I2. intro Q. destruct R as [R|R]; [|exact R].
  exfalso. exact (quiet_no_way s' w I2 Q R).
Qed.
(** ... and with the payload of that success, as long as the next success is
    announced only after it was delivered to everybody. *)
Theorem C33_everybody_payload_partial b os p w os' : let s := at_ b os in waiting s w ->
  snd (ustep s (USucceed p)) = UOk -> patient (fst (ustep s (USucceed p))) os' ->
  let '(s', tr) := urun (fst (ustep s (USucceed p))) os' in
  (quiet s' -> In (w, p) (wakings tr)) /\ forall q, In (w, q) (wakings tr) -> q = p.
Proof.
  cbn zeta. intros W A P. pose proof (C33_everybody b os p w os' W A) as E. cbn zeta in E.
  pose proof (run_UI os _ (init_UI b)) as I. fold (at_ b os) in I.
  pose proof (run_deliver os' _ w (step_UI _ (USucceed p) I) (accept_way _ p w I A W) P) as D.
  assert (PL : u_payload (fst (ustep (at_ b os) (USucceed p))) = p).
  { cbn [ustep] in *. destruct (complete (at_ b os)); [discriminate|]. rewrite trigger_payload. reflexivity. }
  rewrite PL in D. destruct (urun (fst (ustep (at_ b os) (USucceed p))) os') as [s' tr]. cbn [snd] in D. split; [|exact D].
  intro Q. specialize (E Q). apply woken_wakings in E. destruct E as [q Hq]. rewrite (D q Hq) in Hq. exact Hq.
Qed.
(** Whole runs in which successes wait for each other: whoever is woken finds the
    payload of the latest success. *)
Theorem C33_payload_partial b os : patient (uinit b) os -> forall t1 w q t2,
  snd (urun (uinit b) os) = t1 ++ (UWake, UWoke w q) :: t2 -> q = latest None t1.
Proof.
  intros P t1 w q t2 E. destruct (urun_split os _ _ _ _ E) as (a & c & -> & -> & X). cbn [fst] in *.
  pose proof (run_UI a _ (init_UI b)) as I.
  assert (PA : patient (uinit b) a).
  { clear - P. revert P. generalize (uinit b). induction a as [|x a IH]; intros s P; [exact Logic.I|]. cbn in *. destruct P. auto. }
  pose proof (run_payload a _ (init_UI b) PA) as L. destruct (step_payload (fst (urun (uinit b) a)) UWake I Logic.I) as [_ F].
  rewrite <- X in F. cbn [wakings flat_map snd app] in F. inversion F as [|? ? G _]; subst. cbn in G.
  destruct (urun (uinit b) a) as [s1 tr1]. cbn [fst snd] in *. rewrite G. exact L.
Qed.
(** Waiting again after everything was delivered: not woken before there is a new
    success (or cancellation). *)
Theorem C33_anew b os w os' : let s := at_ b os in quiet s -> snd (ustep s UYield) = UWaits w ->
  let tr := snd (urun (fst (ustep s UYield)) os') in existsb is_trigger tr = false -> ~ In w (woken tr).
Proof.
  cbn zeta. intros Q E. pose proof (run_UI os _ (init_UI b)) as I. fold (at_ b os) in I.
  pose proof (run_dormant os' _ w (step_UI _ UYield I) (yield_dormant _ w I Q E)) as R.
  destruct (urun (fst (ustep (at_ b os) UYield)) os') as [s' tr]. cbn [snd]. intro T. apply (R T).
Qed.
(** A new Event is auto-reset: a yield is never refused. *)
Theorem C33_yield_again os : exists w, snd (ustep (at_ true os) UYield) = UWaits w.
Proof.
  pose proof (run_UI os _ (init_UI true)) as I. fold (at_ true os) in I.
  assert (AU : u_auto (at_ true os) = true).
  { unfold at_. assert (G : forall os s, u_auto (fst (urun s os)) = u_auto s).
    { clear. induction os as [|o os IH]; intro s; [reflexivity|]. cbn [urun].
      assert (S : u_auto (fst (ustep s o)) = u_auto s).
      { assert (R : forall t, u_auto (fst (register t)) = u_auto t) by (intro t; unfold register; destruct (nth_error _ _) as [[? ?]|]; reflexivity).
        assert (T : forall t, u_auto (fst (trigger t)) = u_auto t) by (intro t; unfold trigger; destruct (nth_error _ _) as [[[] ?]|]; reflexivity).
        destruct o; cbn [ustep].
        - destruct (complete s); [|apply R]. destruct (u_auto s) eqn:E; [rewrite R; exact E|exact E].
        - destruct (complete s); [reflexivity|apply (T (set_payload s p))].
        - reflexivity.
        - apply T.
        - destruct (u_ready s); [|reflexivity]. destruct (u_agenda s); [reflexivity|]. destruct (nth_error _ _); reflexivity.
        - destruct (u_ready s); reflexivity. }
      destruct (ustep s o) as [s1 a]. cbn [fst] in S. specialize (IH s1). destruct (urun s1 os). cbn [fst] in *. congruence. }
    rewrite G. reflexivity. }
  cbn [ustep]. rewrite AU. exists (u_next (at_ true os)). destruct (complete (at_ true os)).
  - apply (register_live (do_reset (at_ true os))). cbn [do_reset u_cur u_evs]. rewrite app_length. simpl. lia.
  - apply register_live. apply I.
Qed.
(** Waits on an Event that is reset before it succeeded are never woken. *)
Theorem C33_reset_strands b os w os' : let s := at_ b os in waiting s w -> cur_stat s = EPending ->
  ~ In w (woken (snd (urun (fst (ustep s UReset)) os'))).
Proof.
  cbn zeta. intros (v & E & W) C. pose proof (run_UI os _ (init_UI b)) as I. fold (at_ b os) in I.
  apply run_stranded; [apply step_UI; exact I|]. exists (u_cur (at_ b os)), v. cbn [ustep fst do_reset u_evs u_cur].
  pose proof (ui_cur _ I) as L. rewrite nth_error_app1 by exact L. unfold cur_stat in C. rewrite E in C.
  split; [exact E|]. split; [exact C|]. split; [exact W|lia].
Qed.

(** Examples *)
Definition twice : list uop := [UYield; UYield; USucceed (Some 1%nat); UTick; UWake; UWake; UYield; USucceed (Some 2%nat); UTick; UWake].
Example twice_ok : patient (uinit true) twice /\ wakings (snd (urun (uinit true) twice)) = [(0%nat, Some 1%nat); (1%nat, Some 1%nat); (2%nat, Some 2%nat)].
Proof. split; [vm_compute; intuition|reflexivity]. Qed.
Example anew_ok : quiet (at_ true [UYield; USucceed (Some 1%nat); UTick; UWake]) /\
  snd (ustep (at_ true [UYield; USucceed (Some 1%nat); UTick; UWake]) UYield) = UWaits 1.
Proof. vm_compute. auto. Qed.
Example waiting_ok : waiting (at_ true [UYield]) 0 /\ cur_stat (at_ true [UYield]) = EPending /\
  snd (ustep (at_ true [UYield]) (USucceed (Some 1%nat))) = UOk.
Proof. split; [|split; reflexivity]. eexists. split; [reflexivity|]. left. reflexivity. Qed.

(** "Never overwritten before it is delivered" is false: a second succeed before
    the first is delivered raises RuntimeError, but after replacing the payload. *)
Theorem C33_overwritten_refuted :
  map snd (snd (urun (uinit true) [UYield; USucceed (Some 1%nat); USucceed (Some 2%nat); UTick; UWake]))
  = [UWaits 0; UOk; URuntime; UOk; UWoke 0 (Some 2%nat)].
Proof. reflexivity. Qed.
(** With a reset in between nothing raises. *)
Theorem C33_overwritten_reset_refuted :
  map snd (snd (urun (uinit true) [UYield; USucceed (Some 1%nat); UReset; USucceed (Some 2%nat); UTick; UWake]))
  = [UWaits 0; UOk; UOk; UOk; UOk; UWoke 0 (Some 2%nat)].
Proof. reflexivity. Qed.
(** The first of two processes woken can do the same to the second. *)
Theorem C33_overwritten_by_waiter_refuted :
  wakings (snd (urun (uinit true) [UYield; UYield; USucceed (Some 1%nat); UTick; UWake; UReset; USucceed (Some 2%nat); UWake]))
  = [(0%nat, Some 1%nat); (1%nat, Some 2%nat)].
Proof. reflexivity. Qed.
(** Cancelling wakes with the payload of an earlier success. *)
Theorem C33_cancel_stale_refuted :
  wakings (snd (urun (uinit true) [UYield; USucceed (Some 1%nat); UTick; UWake; UYield; UCancel; UTick; UWake]))
  = [(0%nat, Some 1%nat); (1%nat, Some 1%nat)].
Proof. reflexivity. Qed.
(** A process waiting when the Event is reset misses the next success. *)
Theorem C33_reset_refuted :
  map snd (snd (urun (uinit true) [UYield; UReset; USucceed (Some 1%nat); UTick; UWake]))
  = [UWaits 0; UOk; UOk; UOk; UIllegal].
Proof. reflexivity. Qed.

Print Assumptions C33_once.
Print Assumptions C33_everybody.
Print Assumptions C33_everybody_payload_partial.
Print Assumptions C33_payload_partial.
Print Assumptions C33_anew.
Print Assumptions C33_yield_again.
Print Assumptions C33_reset_strands.
Print Assumptions C33_overwritten_refuted.
Print Assumptions C33_overwritten_reset_refuted.
Print Assumptions C33_overwritten_by_waiter_refuted.
Print Assumptions C33_cancel_stale_refuted.
Print Assumptions C33_reset_refuted.
