(** C35: what a windowed get takes, returns and puts back. *)
From Verif Require Import Common StoreModel StoreSpec FateSpec WinModel WinSpec WinProofs.

Section Win.
Variable A : Type.
Variable eqb : A -> A -> bool.
Variable truthy : A -> bool.
Variable item_func : list A -> Z.
Variable req : greq A.
Variable timeout : Q.
Variable reset : bool.
Local Notation stored := (stored A).
Local Notation taken := (taken A).
Local Notation delivered := (delivered A).
Local Notation cancelled := (cancelled A).
Local Notation wrun := (wrun A eqb truthy item_func req timeout reset).
Local Notation timely := (timely A eqb truthy item_func req timeout reset).
Local Notation winit := (winit A item_func).
Local Notation of_requests := (of_requests A).
Local Notation accepted := (accepted A).
Local Notation closes := (closes A timeout reset).

Lemma reach k c t0 os : let '(w, h, _) := wrun (winit k c t0) os in WI A w h.
Proof.
  pose proof (run_WI A eqb truthy item_func req timeout reset os _ [] (init_WI A item_func k c t0)) as H.
  destruct (wrun (winit k c t0) os) as [[w h] tr]. exact H.
Qed.
Lemma reach_T k c t0 os : timely (winit k c t0) os -> let '(w, h, _) := wrun (winit k c t0) os in TI A w h.
Proof.
  intro T. assert (T0 : TI A (winit k c t0) []) by (intros _ g []).
  pose proof (run_TI A eqb truthy item_func req timeout reset os _ [] (init_WI A item_func k c t0) T0 T) as H.
  destruct (wrun (winit k c t0) os) as [[w h] tr]. exact H.
Qed.

(** The list returned is what the store delivered to the routine's requests, in
    that order, whatever else happens in the store, before and after. *)
Theorem C35_result k c t0 os w h tr :
  wrun (winit k c t0) os = (w, h, tr) -> w_phase w = PDone -> w_result w = of_requests (w_gets w) (delivered h).
Proof.
  intros E P. pose proof (reach k c t0 os) as I. rewrite E in I. pose proof (wi_phase _ _ _ I) as PH. unfold phase_ok in PH. rewrite P in PH.
  symmetry. apply PH.
Qed.

(** If the routine never gives up a request that is granted but not processed,
    everything its requests took is in the list returned, in order of taking. *)
Theorem C35_returns_partial k c t0 os w h tr :
  wrun (winit k c t0) os = (w, h, tr) -> timely (winit k c t0) os -> w_phase w = PDone ->
  w_result w = of_requests (w_gets w) (taken h).
Proof.
  intros E T P. pose proof (reach k c t0 os) as I. pose proof (reach_T k c t0 os T) as TT. rewrite E in I, TT.
  assert (HB : w_phase w <> PBroken) by congruence. rewrite (of_taken _ _ _ I TT HB).
  pose proof (wi_phase _ _ _ I) as PH. unfold phase_ok in PH. rewrite P in PH. destruct PH as (_ & O & D).
  rewrite (over_flight _ _ _ I TT HB O), app_nil_r. symmetry. exact D.
Qed.
(** While it runs: what it took is what it has, then what is on its way. *)
Theorem C35_waiting_partial k c t0 os w h tr r :
  wrun (winit k c t0) os = (w, h, tr) -> timely (winit k c t0) os -> w_phase w = PWait r ->
  of_requests (w_gets w) (taken h) = w_result w ++ (match w_got w with Some x => [x] | None => [] end) ++ of_requests (w_gets w) (in_flight A (w_s w)).
Proof.
  intros E T P. pose proof (reach k c t0 os) as I. pose proof (reach_T k c t0 os T) as TT. rewrite E in I, TT.
  assert (HB : w_phase w <> PBroken) by congruence. rewrite (of_taken _ _ _ I TT HB).
  pose proof (wi_phase _ _ _ I) as PH. unfold phase_ok in PH. rewrite P in PH. destruct PH as (_ & _ & _ & _ & D & _).
  rewrite D, <- app_assoc. reflexivity.
Qed.

(** Once interrupted, the routine stores back what it was delivered, in order:
    all of it when cancel() has finished, a first part of it before. *)
Theorem C35_puts_back k c t0 os w h tr :
  wrun (winit k c t0) os = (w, h, tr) -> w_phase w = PFinished ->
  of_requests (w_puts w) (stored h) = of_requests (w_gets w) (delivered h).
Proof.
  intros E P. pose proof (reach k c t0 os) as I. rewrite E in I. pose proof (wi_phase _ _ _ I) as PH. unfold phase_ok in PH. rewrite P in PH. apply PH.
Qed.
Theorem C35_putting_back k c t0 os w h tr p :
  wrun (winit k c t0) os = (w, h, tr) -> w_phase w = PBack p ->
  exists rest, of_requests (w_gets w) (delivered h) = of_requests (w_puts w) (stored h) ++ rest /\
    (rest = w_result w \/ exists q x, p = Some q /\ In (q, x) (s_putq (w_s w)) /\ rest = x :: w_result w).
Proof.
  intros E P. pose proof (reach k c t0 os) as I. rewrite E in I. pose proof (wi_phase _ _ _ I) as PH. unfold phase_ok in PH. rewrite P in PH.
  destruct p as [p|].
  - destruct PH as (_ & _ & _ & [(x & Q1 & Q2)|[_ Q2]]); [exists (x :: w_result w)|exists (w_result w)]; (split; [symmetry; exact Q2|]); eauto 6.
  - destruct PH as (_ & _ & Q). exists (w_result w). split; [symmetry; exact Q|auto].
Qed.
Theorem C35_puts_back_partial k c t0 os w h tr :
  wrun (winit k c t0) os = (w, h, tr) -> timely (winit k c t0) os -> w_phase w = PFinished ->
  of_requests (w_puts w) (stored h) = of_requests (w_gets w) (taken h).
Proof.
  intros E T P. pose proof (reach k c t0 os) as I. pose proof (reach_T k c t0 os T) as TT. rewrite E in I, TT.
  assert (HB : w_phase w <> PBroken) by congruence. rewrite (of_taken _ _ _ I TT HB).
  pose proof (wi_phase _ _ _ I) as PH. unfold phase_ok in PH. rewrite P in PH. destruct PH as (O & _ & _ & D).
  rewrite (over_flight _ _ _ I TT HB O), app_nil_r. exact D.
Qed.
(** Once it is over no request of the routine is left in the store. *)
Theorem C35_nothing_pending k c t0 os w h tr r :
  wrun (winit k c t0) os = (w, h, tr) -> w_phase w = PDone \/ w_phase w = PFinished -> In r (w_gets w) -> ~ In r (map fst (s_getq (w_s w))).
Proof.
  intros E P Hr Q. pose proof (reach k c t0 os) as I. rewrite E in I. pose proof (wi_phase _ _ _ I) as PH. unfold phase_ok in PH.
  assert (O : over_with A (w_s w) h r) by (destruct P as [P|P]; rewrite P in PH; apply PH; exact Hr). clear PH.
  destruct (SF_NoDup _ _ _ (wi_s _ _ _ I)) as (_ & _ & N1 & N2 & _). destruct O as [S|[C|[F _]]].
  - apply (N2 r Q). apply (taken_ids _ _ _ _ (wi_s _ _ _ I)). auto.
  - apply (proj1 (proj2 (N1 r C))). exact Q.
  - apply (N2 r Q). apply (taken_ids _ _ _ _ (wi_s _ _ _ I)). auto.
Qed.

(** The window: it returns exactly when the window that was opened by the first
    item (by the last item with reset_window) closes, and with every item
    accepted; no item is accepted after the window closed. *)
Theorem C35_window k c t0 os tr1 o a tr2 : 0 <= timeout ->
  snd (wrun (winit k c t0) os) = tr1 ++ (o, a) :: tr2 ->
  match a with
  | WGot x t => forall d, closes (accepted tr1) = Some d -> t <= d
  | WReturned l t => l = map fst (accepted tr1) /\ exists d, closes (accepted tr1) = Some d /\ t == d
  | _ => True
  end.
Proof.
  intros T0 E. assert (W : WW A timeout reset (winit k c t0) []) by reflexivity.
  destruct (run_WW A eqb truthy item_func req timeout reset os T0 _ [] [] (init_WI A item_func k c t0) W) as [_ H].
  exact (H tr1 o a tr2 E).
Qed.
(** While it waits the clock does not pass the end of the window. *)
Theorem C35_open k c t0 os w h tr r d : 0 <= timeout ->
  wrun (winit k c t0) os = (w, h, tr) -> w_phase w = PWait r -> closes (accepted tr) = Some d -> s_now (w_s w) <= d.
Proof.
  intros T0 E P C. assert (W : WW A timeout reset (winit k c t0) []) by reflexivity.
  destruct (run_WW A eqb truthy item_func req timeout reset os T0 _ [] [] (init_WI A item_func k c t0) W) as [H _].
  rewrite E in H. cbn [fst snd app] in H. unfold WW in H. rewrite P in H. destruct H as (_ & D & _ & H & _). apply H. congruence.
Qed.
End Win.

(** ** Examples and counterexamples: a plain store of naturals, window of 3. *)
Definition wrunN reset := wrun nat Nat.eqb (fun _ => true) (fun l => Z.of_nat (length l)) (mkG (fun _ : nat => true) None false) 3 reset.
Definition initN := winit nat (fun l => Z.of_nat (length l)) KStore None 0.
Definition timelyN reset := timely nat Nat.eqb (fun _ => true) (fun l => Z.of_nat (length l)) (mkG (fun _ : nat => true) None false) 3 reset.
Definition put x : list (wop nat) := [WStore (OpPut x); WStore OpProcess; WStore OpProcess].
Definition time t : list (wop nat) := [WStore (OpTime t)].

(** Two items in the window, one after it. *)
Definition collect : list (wop nat) := [WStart] ++ put 1%nat ++ [WResume] ++ time 2 ++ put 2%nat ++ [WResume] ++ time 3 ++ [WTimeout; WResume] ++ time 4 ++ put 3%nat.
Example collect_ok : let '(w, h, tr) := wrunN false initN collect in
  w_phase w = PDone /\ w_result w = [1; 2]%nat /\ of_requests nat (w_gets w) (taken nat h) = [1; 2]%nat /\ s_items (w_s w) = [3]%nat /\
  accepted nat tr = [(1%nat, 0); (2%nat, 2)].
Proof. vm_compute. auto 6. Qed.
Example collect_timely : timelyN false initN collect.
Proof. vm_compute. intuition discriminate. Qed.
(** With reset_window it returns at 5, not at 3. *)
Definition collect_reset : list (wop nat) := [WStart] ++ put 1%nat ++ [WResume] ++ time 2 ++ put 2%nat ++ [WResume] ++ time 5 ++ [WTimeout; WResume].
Example collect_reset_ok : let '(w, h, tr) := wrunN true initN collect_reset in
  w_phase w = PDone /\ last tr (WStart, WOk) = (WResume, WReturned [1; 2]%nat 5).
Proof. vm_compute. auto. Qed.
(** Interrupted after two items. *)
Definition interrupted : list (wop nat) := [WStart] ++ put 1%nat ++ [WResume] ++ time 2 ++ put 2%nat ++ [WResume; WInterrupt; WNext; WStore OpProcess; WNext; WStore OpProcess; WNext].
Example interrupted_ok : let '(w, h, tr) := wrunN false initN interrupted in
  w_phase w = PFinished /\ s_items (w_s w) = [1; 2]%nat /\ of_requests nat (w_puts w) (stored nat h) = [1; 2]%nat.
Proof. vm_compute. auto. Qed.
Example interrupted_timely : timelyN false initN interrupted.
Proof. vm_compute. intuition discriminate. Qed.

(** Not true in general.  An item is put in the instant at which the window
    closes, before the Timeout is processed.  The put is processed after it and
    grants the routine's request; the Any is processed before the request is:
    the request is cancelled, the item is gone and is not returned.  (simpy
    processes the events of an instant in the order in which they were
    scheduled: Timeout, put, Any, get.) *)
Definition at_the_edge : list (wop nat) :=
  [WStart] ++ put 1%nat ++ [WResume] ++ time 3 ++ [WStore (OpPut 2%nat); WTimeout; WStore OpProcess; WResume; WStore OpProcess].
Theorem C35_returns_refuted : let '(w, h, tr) := wrunN false initN at_the_edge in
  w_phase w = PDone /\ of_requests nat (w_gets w) (taken nat h) = [1; 2]%nat /\ w_result w = [1]%nat /\ s_items (w_s w) = [] /\ lost nat h = [(2%nat, 2%nat)].
Proof. vm_compute. auto 6. Qed.
(** The same for an interrupt in the instant in which an item is granted: the
    process that put the item interrupts the task once its put is processed. *)
Definition cut_short : list (wop nat) :=
  [WStart] ++ put 1%nat ++ [WResume; WStore (OpPut 2%nat); WStore OpProcess; WInterrupt; WNext; WStore OpProcess; WStore OpProcess; WNext].
Theorem C35_puts_back_refuted : let '(w, h, tr) := wrunN false initN cut_short in
  w_phase w = PFinished /\ of_requests nat (w_gets w) (taken nat h) = [1; 2]%nat /\ of_requests nat (w_puts w) (stored nat h) = [1]%nat /\
  lost nat h = [(2%nat, 2%nat)].
Proof. vm_compute. auto 6. Qed.
(** An interrupt in the instant in which an item was delivered, before the
    routine resumes, raises; nothing is put back. *)
Definition raises : list (wop nat) := [WStart] ++ put 1%nat ++ [WResume] ++ put 2%nat ++ [WInterrupt; WNext].
Theorem C35_interrupt_raises_refuted : let '(w, h, tr) := wrunN false initN raises in
  w_phase w = PBroken /\ In (WInterrupt, WRaised) tr /\ of_requests nat (w_gets w) (taken nat h) = [1; 2]%nat /\ w_puts w = [] /\ s_items (w_s w) = [].
Proof. vm_compute. intuition. Qed.
Print Assumptions C35_result.
Print Assumptions C35_returns_partial.
Print Assumptions C35_waiting_partial.
Print Assumptions C35_puts_back.
Print Assumptions C35_putting_back.
Print Assumptions C35_puts_back_partial.
Print Assumptions C35_nothing_pending.
Print Assumptions C35_window.
Print Assumptions C35_open.
Print Assumptions C35_returns_refuted.
Print Assumptions C35_puts_back_refuted.
Print Assumptions C35_interrupt_raises_refuted.
