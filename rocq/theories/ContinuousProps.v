(** Property theorems about [ContinuousContainer]. *)
From Verif Require Import Common ContainerModel ContainerSpec ContinuousModel ContinuousSpec ContinuousProofs ContinuousObs.

(** A run in which a put fills the container and a get drains it. *)
Definition demo_ops : list kop :=
  [KPut 2 None; KUrgent; KUrgent; KAdvance 1; KGet 1 (Some 2); KUrgent; KUrgent; KUrgent; KUrgent;
   KAdvance 3; KFireUser 1; KUrgent; KUrgent; KAdvance (11#2); KFireCheck 2; KUrgent].
Definition demo (ee ef : bool) : option kst :=
  match kinit 10 1 ee ef 0 with Some s0 => Some (krun s0 demo_ops) | None => None end.

(** C05: whenever the level is looked at it is between zero and capacity. *)
Theorem C05_level_within_bounds cap lvl ee ef t0 s0 os x :
  kinit cap lvl ee ef t0 = Some s0 -> lvl <= cap -> In x (kruns s0 os []) ->
  0 <= cur_level x /\ cur_level x <= cap.
Proof. exact (continuous_bounds cap lvl ee ef t0 s0 os x). Qed.
Print Assumptions C05_level_within_bounds.

Example C05_example :
  exists s0, kinit 10 1 false false 0 = Some s0 /\
    map (fun x => Qred (cur_level x)) (kruns s0 demo_ops []) = [10;10;10;5;5;5;5;3;3;3;3;3;1;1;1;1].
Proof. eexists. split; [reflexivity|]. vm_compute. reflexivity. Qed.

(** Without the hypothesis [lvl <= cap]: the constructor accepts an initial
    amount above capacity. *)
Theorem C05_initial_over_capacity_refuted :
  exists cap lvl s0, kinit cap lvl true true 0 = Some s0 /\ ~ cur_level s0 <= k_cap s0.
Proof. exists 1, 2. eexists. split; [reflexivity|]. vm_compute. intro H. apply H. reflexivity. Qed.
Print Assumptions C05_initial_over_capacity_refuted.
(* the first put then fails with the documented error, though its wait would be negative *)
Example C05_over_capacity_example :
  option_map (fun s0 => k_halt (krun s0 [KPut 1 (Some 1); KUrgent; KUrgent])) (kinit 1 2 false false 0) = Some (Some RAbove).
Proof. vm_compute. reflexivity. Qed.

(** C55: without cancellations the only errors are the documented ones. *)
Theorem C55_only_documented_errors_partial cap lvl ee ef t0 s0 os :
  kinit cap lvl ee ef t0 = Some s0 -> lvl <= cap -> Forall no_cancel os -> Forall sane os ->
  match k_halt (krun s0 os) with
  | None => True
  | Some REmpty => ee = true /\ cur_level (krun s0 os) == 0
  | Some RFull => ef = true /\ cur_level (krun s0 os) == cap
  | Some _ => False
  end.
Proof. exact (continuous_errors cap lvl ee ef t0 s0 os). Qed.
Print Assumptions C55_only_documented_errors_partial.

Example C55_example :
  Forall no_cancel demo_ops /\ Forall sane demo_ops /\
  option_map k_halt (demo true true) = Some (Some RFull) /\ option_map k_halt (demo false false) = Some None.
Proof.
  split; [repeat constructor|]. split; [repeat constructor; cbn; lra|].
  split; vm_compute; reflexivity.
Qed.

(** A get that is cancelled at the very moment the container runs empty: the
    container has already dropped it, and removing it again raises ValueError. *)
Theorem C55_cancel_at_limit_refuted :
  exists s0 os, kinit 10 2 false false 0 = Some s0 /\ Forall sane os /\ k_halt (krun s0 os) = Some RNotActive.
Proof.
  eexists.
  exists [KGet 1 None; KUrgent; KUrgent; KAdvance 2; KPut (1#2) None; KUrgent; KCancel 0; KUrgent; KUrgent; KUrgent].
  split; [reflexivity|]. split; [repeat constructor|]. vm_compute. reflexivity.
Qed.
Print Assumptions C55_cancel_at_limit_refuted.

(** C06: the level is the initial level plus the integral of the net flow. *)
Theorem C06_level_is_integral cap lvl ee ef t0 s0 os :
  kinit cap lvl ee ef t0 = Some s0 -> lvl <= cap ->
  cur_level (krun s0 os) == lvl + volume (kruns s0 os []).
Proof. exact (continuous_integral cap lvl ee ef t0 s0 os). Qed.
Print Assumptions C06_level_is_integral.

(** C06: evaluating the level at any moment changes nothing later. *)
Theorem C06_observation_free cap lvl ee ef t0 s0 os1 os2 :
  kinit cap lvl ee ef t0 = Some s0 -> lvl <= cap ->
  let a := krun s0 (os1 ++ os2) in
  let b := krun s0 (os1 ++ [KTouch] ++ os2) in
  cur_level b == cur_level a /\ k_now b = k_now a /\ k_rate b == k_rate a /\ k_active b = k_active a /\
  told b = told a /\ k_halt b = k_halt a.
Proof. exact (observation_free cap lvl ee ef t0 s0 os1 os2). Qed.
Print Assumptions C06_observation_free.

(** C06: nor does stopping the clock on the way in order to evaluate it. *)
Theorem C06_observation_on_the_way cap lvl ee ef t0 s0 os1 os2 t1 t2 :
  kinit cap lvl ee ef t0 = Some s0 -> lvl <= cap ->
  let s := krun s0 os1 in
  kstep s (KAdvance t2) <> None -> k_now s <= t1 -> t1 <= t2 ->
  let a := krun s (KAdvance t2 :: os2) in
  let b := krun s ([KAdvance t1; KTouch; KAdvance t2] ++ os2) in
  cur_level b == cur_level a /\ k_now b = k_now a /\ k_rate b == k_rate a /\ k_active b = k_active a /\
  told b = told a /\ k_halt b = k_halt a.
Proof. exact (split_advance cap lvl ee ef t0 s0 os1 os2 t1 t2). Qed.
Print Assumptions C06_observation_on_the_way.

Example C06_example :
  exists s0, kinit 10 1 false false 0 = Some s0 /\
   (let s := krun s0 [KPut 2 None; KUrgent; KUrgent] in
    kstep s (KAdvance 3) <> None /\ cur_level (krun s [KAdvance 1; KTouch; KAdvance 3]) == 7 /\
    volume (kruns s0 demo_ops []) == 9).
Proof. eexists. split; [reflexivity|]. split; [vm_compute; discriminate|]. split; vm_compute; reflexivity. Qed.

(** C07: [time_until_done] (with or without an extra rate) is exact. *)
Theorem C07_prediction_exact s e : reachable s ->
  match time_until_done s e with
  | Some d => ~ e + k_rate s == 0 /\ 0 <= d /\
      cur_level s + (e + k_rate s) * d == (if Qltb 0 (e + k_rate s) then k_cap s else 0) /\
      (forall d', 0 <= d' -> d' < d -> 0 < cur_level s + (e + k_rate s) * d' \/ 0 < e + k_rate s) /\
      (forall d', 0 <= d' -> d' < d -> cur_level s + (e + k_rate s) * d' < k_cap s \/ e + k_rate s < 0)
  | None => e + k_rate s == 0
  end.
Proof. exact (predicted_done s e). Qed.
Print Assumptions C07_prediction_exact.

(** C07: the running check is due exactly at the predicted instant. *)
Theorem C07_check_due_at_prediction s :
  reachable s -> k_halt s = None -> k_urgent s = [] -> ~ k_rate s == 0 ->
  exists p due d, k_checking s = Some p /\ nth_error (k_checks s) p = Some (CkWait due) /\
    time_until_done s 0 = Some d /\ due == k_now s + d.
Proof. exact (due_when_predicted s). Qed.
Print Assumptions C07_check_due_at_prediction.

(** C07: users are only ever told while the container is at its limit, flowing
    further into it, and only those pushing it there. *)
Theorem C07_told_only_at_limit s o s' u :
  reachable s -> kstep s o = Some s' -> newly_told s s' u -> responsible s u.
Proof. exact (told_at_limit s o s' u). Qed.
Print Assumptions C07_told_only_at_limit.

(** C07: at the limit time cannot pass before a check has told exactly the
    responsible users, who are then no longer active, or (with the error flag)
    the documented error is raised. *)
Theorem C07_told_at_limit s :
  reachable s -> k_halt s = None -> k_urgent s = [] -> at_limit s ->
  (forall t, k_now s < t -> kstep s (KAdvance t) = None) /\
  exists p s', kstep s (KFireCheck p) = Some s' /\
    (forall u, In u (told s') <-> responsible s u) /\
    (k_halt s' = Some (if Qltb (k_rate s) 0 then REmpty else RFull) /\
       (if Qltb (k_rate s) 0 then k_err_empty s else k_err_full s) = true
     \/ k_halt s' = None /\ (forall u, In u (k_active s') <-> In u (k_active s) /\ ~ responsible s u) /\
        (if Qltb (k_rate s) 0 then k_err_empty s else k_err_full s) = false).
Proof. exact (limit_told s). Qed.
Print Assumptions C07_told_at_limit.

Example C07_example :
  exists s, reachable s /\ k_halt s = None /\ k_urgent s = [] /\ at_limit s /\ responsible s 0 /\
    exists s', kstep s (KFireCheck 2) = Some s' /\ newly_told s s' 0.
Proof.
  destruct (kinit 10 1 false false 0) as [s0|] eqn:E; [|discriminate E].
  exists (krun s0 (firstn 14 demo_ops)). split.
  { exists 10, 1, false, false, 0, s0, (firstn 14 demo_ops). split; [exact E|]. split; [lra|reflexivity]. }
  vm_compute in E. injection E as <-.
  split; [vm_compute; reflexivity|]. split; [vm_compute; reflexivity|].
  split; [split; [vm_compute; discriminate|vm_compute; reflexivity]|].
  split; [split; [vm_compute; auto|]; right; repeat split; vm_compute; reflexivity|].
  eexists. split; [vm_compute; reflexivity|]. split; [vm_compute; auto|]. vm_compute. intros [].
Qed.

(** [time_until_level] uses the level at the last evaluation: five time units
    after a put of rate 1 started on an empty container it still says 10 time
    units until level 10, although the level is 5 and reaches 10 in 5. *)
Theorem C07_time_until_level_refuted :
  exists s d, reachable s /\ k_halt s = None /\ time_until_level s 10 0 = Some d /\
    ~ cur_level s + k_rate s * d == 10.
Proof.
  destruct (kinit 100 0 false false 0) as [s0|] eqn:E; [|discriminate E].
  exists (krun s0 [KPut 1 None; KUrgent; KUrgent; KAdvance 5]). eexists. split.
  { exists 100, 0, false, false, 0, s0. eexists. split; [exact E|]. split; [lra|reflexivity]. }
  vm_compute in E. injection E as <-. split; [vm_compute; reflexivity|]. split; [vm_compute; reflexivity|].
  vm_compute. discriminate.
Qed.
Print Assumptions C07_time_until_level_refuted.

(** It is exact when the level was evaluated at the present instant.  Missing:
    any other moment. *)
Theorem C07_time_until_level_partial s lvl e :
  k_last s == k_now s ->
  match time_until_level s lvl e with
  | Some d => cur_level s + (e + k_rate s) * d == lvl /\ 0 <= d
  | None => forall d, 0 <= d -> ~ cur_level s + (e + k_rate s) * d == lvl
  end.
Proof. exact (level_prediction_both s lvl e). Qed.
Print Assumptions C07_time_until_level_partial.

Example C07_time_until_level_example :
  exists s, reachable s /\ k_last s == k_now s /\ time_until_level s 10 0 = Some 5.
Proof.
  destruct (kinit 100 0 false false 0) as [s0|] eqn:E; [|discriminate E].
  exists (krun s0 [KPut 1 None; KUrgent; KUrgent; KAdvance 5; KTouch]). split.
  { exists 100, 0, false, false, 0, s0. eexists. split; [exact E|]. split; [lra|reflexivity]. }
  vm_compute in E. injection E as <-. split; vm_compute; reflexivity.
Qed.

(** C11 for [SelfMonitoringContinuousContainer]: readings are ordered and never
    repeated, each is the true level at its time, and at every visited moment the
    newest reading and the rate in force give the level: the level is linear
    between readings. *)
Theorem C11_continuous_history cap lvl ee ef t0 s0 os :
  kinit cap lvl ee ef t0 = Some s0 -> lvl <= cap ->
  let s := krun s0 os in
  readings_ordered (k_quant s) /\ readings_distinct (k_quant s) /\
  (forall t v, In (t, v) (k_quant s) -> exists x, In x (kruns s0 os []) /\ k_now x == t /\ cur_level x == v) /\
  (forall x, In x (kruns s0 os []) ->
     exists newer t v older, k_quant s = newer ++ (t, v) :: older /\ k_quant x = (t, v) :: older /\
       t <= k_now x /\ cur_level x == v + k_rate x * (k_now x - t)).
Proof. exact (continuous_record cap lvl ee ef t0 s0 os). Qed.
Print Assumptions C11_continuous_history.

Example C11_continuous_example :
  exists s0, kinit 10 1 false false 0 = Some s0 /\
   map (fun p => (Qred (fst p), Qred (snd p))) (k_quant (krun s0 demo_ops)) = [((11#2), 10); (3, 5); (1, 3); (0, 1)].
Proof. eexists. split; [reflexivity|]. vm_compute. reflexivity. Qed.
