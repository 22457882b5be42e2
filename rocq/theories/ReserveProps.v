(** Properties C01-C04: [ReserveContainer]. *)
From Verif Require Import Common ReserveModel ReserveSpec ReserveProofs.

(** C01.  Books balance after every history; the second equation is about the
    level recorded by the monitoring variant. *)
Theorem C01_reserve_conservation :
  forall keyof lvl c t0 os s tr,
    run keyof (init lvl c t0) os = (s, tr) ->
    level s + reserved s == lvl + total_put tr - total_taken tr /\
    real_level s == lvl + total_put tr - total_taken tr.
Proof. exact conservation. Qed.
Print Assumptions C01_reserve_conservation.

(** C01.  Refused calls change nothing (any state). *)
Theorem C01_rejected_calls_change_nothing :
  forall keyof s o s' r,
    step keyof s o = (s', r) -> rejected r -> s' = s.
Proof. exact rejected_unchanged. Qed.
Print Assumptions C01_rejected_calls_change_nothing.

(** C02.  Never negative. *)
Theorem C02_available_nonneg :
  forall keyof lvl c t0 os s tr,
    0 <= lvl -> Forall nonneg_op os ->
    run keyof (init lvl c t0) os = (s, tr) -> 0 <= level s.
Proof. exact available_nonneg. Qed.
Print Assumptions C02_available_nonneg.

(** C02.  A reservation is granted exactly when nothing is held and it fits. *)
Theorem C02_reserve_granted_iff :
  forall keyof lvl c t0 os s tr r q ex s' o,
    run keyof (init lvl c t0) os = (s, tr) ->
    step keyof s (Reserve r q ex) = (s', o) ->
    (o = OReserved true <-> held keyof (keyof r) tr = None /\ q <= level s) /\
    (o = OReserved true ->
       level s' == level s - q /\
       held keyof (keyof r) (tr ++ [(Reserve r q ex, o)]) = Some q) /\
    (o <> OReserved true -> o = OReserved false /\ s' = s).
Proof. exact reserve_result. Qed.
Print Assumptions C02_reserve_granted_iff.

(** C02.  [take] hands out exactly what the history says is held, then nothing
    is held any more. *)
Theorem C02_take_exact :
  forall keyof lvl c t0 os s tr r s' o,
    run keyof (init lvl c t0) os = (s, tr) ->
    step keyof s (Take r) = (s', o) ->
    o = match held keyof (keyof r) tr with Some q => OTaken q | None => OValueError end /\
    held keyof (keyof r) (tr ++ [(Take r, o)]) = None /\
    level s' = level s.
Proof. exact take_result. Qed.
Print Assumptions C02_take_exact.

(** C02.  A negative reservation makes more available than was ever put in,
    above the capacity. *)
Theorem C02_negative_reserve_refuted :
  exists os s tr,
    run (fun z => z) (init 10 (Some 10) 0) os = (s, tr) /\
    total_put tr == 0 /\ 10 < level s.
Proof.
  exists [Reserve 1 (-5) None]. eexists. eexists.
  split; [reflexivity|]. split; vm_compute; reflexivity.
Qed.
Print Assumptions C02_negative_reserve_refuted.

(** C03 is false: [put] compares only the unreserved amount with the
    capacity, so the content exceeds it; after a cancellation even the
    available amount does. *)
Theorem C03_capacity_refuted :
  exists os s tr,
    Forall nonneg_op os /\ Forall no_capacity_increase os /\
    run (fun z => z) (init 10 (Some 10) 0) os = (s, tr) /\
    10 < real_level s /\ 10 < level s.
Proof.
  exists [Reserve 1 5 None; Put 5 false; Cancel 1]. eexists. eexists.
  split; [repeat constructor; unfold nonneg_op; lra|].
  split; [repeat constructor|].
  split; [reflexivity|]. split; vm_compute; reflexivity.
Qed.
Print Assumptions C03_capacity_refuted.

(** C03, what does hold: the content exceeds the capacity by at most what was
    reserved when material was last put in.  Missing for the full claim: the
    bound without the excess term, which is false (above). *)
Theorem C03_capacity_partial :
  forall keyof lvl c t0 os s tr,
    0 <= lvl -> lvl <= c ->
    Forall nonneg_op os -> Forall no_capacity_increase os ->
    run keyof (init lvl (Some c) t0) os = (s, tr) ->
    real_level s <= c + reserved_at_last_put keyof (init lvl (Some c) t0) os 0.
Proof. exact capacity_bound. Qed.
Print Assumptions C03_capacity_partial.

(** C04 is false: the timer of a reservation that was taken cancels a later
    reservation (made without expiry) of the same requester. *)
Theorem C04_stale_timer_refuted :
  exists os s tr t e,
    run (fun z => z) (init 10 None 0) os = (s, tr) /\
    In (Reserve 1 4 None, OReserved true) tr /\
    In (Fire, OExpired t (Some e)) tr /\
    t_ser t = 0%nat /\ e_ser e = 1%nat /\
    held (fun z => z) 1 tr = None /\ ~ In (Cancel 1, OCancelled true) tr.
Proof.
  exists [Reserve 1 3 (Some 5); Take 1; Reserve 1 4 None; Fire].
  eexists. eexists. eexists. eexists.
  split; [reflexivity|]. split; [vm_compute; tauto|].
  split; [cbv; right; right; right; left; reflexivity|].
  repeat split; vm_compute; try reflexivity.
  intro H; repeat (destruct H as [H|H]; [discriminate|]); exact H.
Qed.
Print Assumptions C04_stale_timer_refuted.

(** C04, what does hold when no requester is granted a reservation while a
    timer of an earlier one is pending: the timer releases its reservation, in
    full and no other, exactly if it is still in force; otherwise nothing
    happens.  Missing for the full claim: re-reservations (false, above). *)
Theorem C04_expiry_exact_partial :
  forall keyof lvl c t0 os s tr t ts s' r,
    no_overlap keyof (init lvl c t0) os ->
    run keyof (init lvl c t0) os = (s, tr) ->
    timers s = t :: ts ->
    step keyof s Fire = (s', r) ->
    now s' = t_at t /\
    ((exists e, In e (queued s) /\ e_ser e = t_ser t /\ keyof (e_req e) = keyof (t_req t)) ->
       exists e, r = OExpired t (Some e) /\ In e (queued s) /\ e_ser e = t_ser t /\
                 level s' == level s + e_qty e /\
                 (forall x, In x (queued s') <-> In x (queued s) /\ x <> e)) /\
    (~ (exists e, In e (queued s) /\ e_ser e = t_ser t /\ keyof (e_req e) = keyof (t_req t)) ->
       r = OExpired t None /\ queued s' = queued s /\ level s' = level s).
Proof. exact expiry_exact. Qed.
Print Assumptions C04_expiry_exact_partial.

(** C04.  A granted reservation with expiry [d >= 0] gets a timer due at
    exactly [now + d]... *)
Theorem C04_expiry_scheduled :
  forall keyof s r q d s',
    0 <= d -> step keyof s (Reserve r q (Some d)) = (s', OReserved true) ->
    exists t e, In t (timers s') /\ t_at t = now s + d /\ t_req t = r /\
      In e (queued s') /\ e_req e = r /\ e_qty e = q /\ e_ser e = t_ser t.
Proof. exact reserve_schedules. Qed.
Print Assumptions C04_expiry_scheduled.

(** ... and time never passes a pending timer. *)
Theorem C04_never_overdue :
  forall keyof lvl c t0 os s tr t,
    run keyof (init lvl c t0) os = (s, tr) -> In t (timers s) -> now s <= t_at t.
Proof. exact never_overdue. Qed.
Print Assumptions C04_never_overdue.

(** C04.  What a timer does, whatever happened before: the clock is at its time; if the
    requester holds nothing by then nothing is released; if they hold [q], under
    whichever reservation, [q] is released in full and no other requester is touched. *)
Theorem C04_timer_releases :
  forall keyof lvl c t0 os s tr t ts s' r,
    run keyof (init lvl c t0) os = (s, tr) ->
    timers s = t :: ts -> step keyof s Fire = (s', r) ->
    now s' = t_at t /\ timers s' = ts /\
    (held keyof (keyof (t_req t)) tr = None ->
       r = OExpired t None /\ queued s' = queued s /\ level s' = level s) /\
    (forall q, held keyof (keyof (t_req t)) tr = Some q ->
       (forall e, In e (queued s) -> keyof (e_req e) = keyof (t_req t) -> e_req e = t_req t) ->
       (exists e, r = OExpired t (Some e) /\ e_qty e = q) /\ level s' = level s + q /\
       held keyof (keyof (t_req t)) (tr ++ [(Fire, r)]) = None /\
       forall k, k <> keyof (t_req t) -> held keyof k (tr ++ [(Fire, r)]) = held keyof k tr).
Proof. exact timer_releases. Qed.
Print Assumptions C04_timer_releases.

(** A timer of an earlier reservation takes 4 back; requester 2 keeps their 1. *)
Example C04_timer_releases_ex :
  let '(s, tr) := run (fun z => z) (init 10 None 0) [Reserve 1 3 (Some 5); Take 1; Reserve 1 4 None; Reserve 2 1 None] in
  let '(s', r) := step (fun z => z) s Fire in
  length (timers s) = 1%nat /\ held (fun z => z) 1 tr = Some 4 /\
  now s' == 5 /\ level s == 2 /\ level s' == 6 /\ held (fun z => z) 2 (tr ++ [(Fire, r)]) = Some 1.
Proof. vm_compute. repeat split. Qed.

(** Non-vacuity: a history with every kind of operation meeting the
    hypotheses above. *)
Definition ex_ops : list op :=
  [Reserve 1 3 (Some 5); Reserve 2 20 None; Wait 2; Reserve 2 4 (Some 1); Take 2;
   Put 2 false; Put 100 false; Fire; Fire; Reserve 1 1 None; Cancel 1; Cancel 7].
Example ex_history :
  Forall nonneg_op ex_ops /\ Forall no_capacity_increase ex_ops /\
  no_overlap (fun z => z) (init 10 (Some 12) 0) ex_ops /\
  map snd (snd (run (fun z => z) (init 10 (Some 12) 0) ex_ops)) =
  [OReserved true; OReserved false; OWaited; OReserved true; OTaken 4; OPut; OValueError;
   OExpired (mkTimer (2 + 1) 2 1) None; OExpired (mkTimer (0 + 5) 1 0) (Some (mkEntry 1 3 0 0));
   OReserved true; OCancelled true; OCancelled false].
Proof.
  split; [repeat constructor; unfold nonneg_op; lra|].
  split; [repeat constructor|].
  split; [|reflexivity].
  cbv. repeat split; auto; intros t H;
  repeat (destruct H as [H|H]; [subst; discriminate|]); try contradiction; auto.
Qed.

Example ex_expiry_hyps :
  let s := fst (run (fun z => z) (init 10 None 0) [Reserve 1 3 (Some 5)]) in
  timers s = [mkTimer (0 + 5) 1 0] /\
  exists e, In e (queued s) /\ e_ser e = 0%nat /\ e_req e = 1%Z.
Proof. cbv. split; [reflexivity|]. eexists. split; [left; reflexivity|]. auto. Qed.

(** C03.  A put is refused exactly when it exceeds a capacity that is not to be increased;
    a container without capacity never refuses.  Otherwise both levels rise by the amount. *)
Theorem C03_put_exactly :
  forall keyof s a ci s' o, step keyof s (Put a ci) = (s', o) ->
    (o = OValueError <-> ci = false /\ exists c, cap s = Some c /\ c < level s + a) /\
    (o <> OValueError -> o = OPut /\ level s' == level s + a /\ real_level s' == real_level s + a /\
       queued s' = queued s /\ timers s' = timers s /\ now s' = now s /\ cap s' = cap s).
Proof.
  intros keyof s a ci s' o H. cbn [step] in H. unfold do_put, exceeds in H. destruct (cap s) as [c|] eqn:C.
  - destruct (Qltb c (level s + a)) eqn:L; qbool; destruct ci; cbn [andb negb] in H; injection H as <- <-.
    + split; [split; [discriminate|intros [X _]; discriminate]|]. intros _. repeat split; try reflexivity; auto.
    + split; [split; [intros _; split; [reflexivity|]; exists c; auto|reflexivity]|]. intro X. contradiction.
    + split; [split; [discriminate|intros [X _]; discriminate]|]. intros _. repeat split; try reflexivity; auto.
    + split; [split; [discriminate|intros [_ (c' & E & X)]; injection E as <-; exfalso; lra]|]. intros _. repeat split; try reflexivity; auto.
  - cbn [andb] in H. injection H as <- <-. split; [split; [discriminate|intros [_ (c' & E & X)]; discriminate]|]. intros _. repeat split; try reflexivity; auto.
Qed.
Print Assumptions C03_put_exactly.
Example C03_put_ex : snd (step (fun z => z) (init 5 None 0) (Put 1000000 false)) = OPut /\ snd (step (fun z => z) (init 5 (Some 9) 0) (Put 5 false)) = OValueError.
Proof. vm_compute. auto. Qed.
