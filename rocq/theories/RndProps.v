(** Properties C145 to C148: what rounding does. *)
From Coq Require Import Qabs Qpower.
From Verif Require Import Common ContainerModel ContinuousModel ActiveModel PathModel RndModel RndSpec RndProofs.

(** ** C145 *)
(** Python's rounding gives a float, and no float is nearer; floats stay as they are, order is kept, and the
    result is off by at most one part in 2^53. *)
Theorem C145_floats : rounding u64 rnd64 /\
  (forall x, float64 (rnd64 x)) /\ (forall x, float64 x -> rnd64 x == x) /\ (forall x y, float64 y -> Qabs (rnd64 x - x) <= Qabs (y - x)).
Proof. split; [exact rnd64_rounding|]. split; [exact rnd64_float|]. split; [exact rnd64_exact|exact rnd64_nearest]. Qed.
Example C145_ex_floats : rnd64 (1 # 10) = 3602879701896397 # 36028797018963968 /\ rnd64 (9007199254740993 # 1) = 9007199254740992 # 1 /\
  rnd64 (9007199254740995 # 1) = 9007199254740996 # 1 /\ rnd64 (-3 # 4) = -3 # 4.
Proof. vm_compute. repeat split. Qed.

(** Without rounding these are the models of the other areas. *)
Theorem C145_exact :
  (forall s, f_cur_level (fun x => x) s = cur_level s) /\ (forall s, f_set_level (fun x => x) s = set_level s) /\
  (forall s dr, f_change_rate (fun x => x) s dr = change_rate s dr) /\ (forall s u, f_add_user (fun x => x) s u = add_user s u) /\
  (forall s u, f_remove_user (fun x => x) s u = remove_user s u) /\ (forall s u, f_user_start (fun x => x) s u = user_start s u) /\
  (forall s u, f_fire_user (fun x => x) s u = fire_user s u) /\
  (forall s us, f_removed (fun x => x) s us == - Qsum (map (rate_of s) us)) /\
  (forall now x, f_linear_active (fun x => x) now x = linear_active now x) /\
  (forall P dist along tol s, f_pread (fun x => x) P dist along tol s = pread dist along tol s).
Proof.
  assert (G : forall P tol legs e t i, f_get_index (fun x => x) P tol legs e t i = get_index tol legs e t i).
  { intros P tol. induction legs as [|l legs IH]; intros e t i; [reflexivity|]. cbn. rewrite IH. reflexivity. }
  assert (U : forall P dist sp wps c, f_setup (fun x => x) P dist sp c wps = setup dist sp c wps).
  { intros P dist sp. induction wps as [|w wps IH]; intro c; [reflexivity|]. cbn. rewrite IH. reflexivity. }
  assert (F : forall s us a, fold_left (fun acc u => acc + - rate_of s u) us a == a - Qsum (map (rate_of s) us)).
  { intros s. induction us as [|v us IH]; intro a; [cbn; ring|]. cbn [fold_left map]. rewrite IH. change (Qsum (rate_of s v :: map (rate_of s) us)) with (rate_of s v + Qsum (map (rate_of s) us)). ring. }
  split; [reflexivity|]. split; [reflexivity|]. split; [reflexivity|]. split; [reflexivity|]. split; [reflexivity|]. split; [reflexivity|]. split; [reflexivity|].
  split; [intros s us; unfold f_removed; rewrite F; ring|]. split; [reflexivity|].
  intros. unfold f_pread, pread, f_do_setup, do_setup. destruct (p_act s) as [k|]; [|reflexivity].
  destruct (k_legs k) as [ls|].
  - rewrite G. reflexivity.
  - rewrite U. destruct (_ && _); [reflexivity|]. cbn. rewrite G. reflexivity.
Qed.

(** So is every step of a container, but for how the net rate is written when several users are stopped at once. *)
Theorem C145_exact_step s o : match f_kstep (fun x => x) s o, kstep s o with Some s1, Some s2 => same_flow s1 s2 | None, None => True | _, _ => False end.
Proof. apply kstep_flow. Qed.

(** A linear state, read any number of times at times that do not go back, is off by at most u times
    twice the largest value per read and three times what was added. *)
Theorem C145_linear u rnd B r ts x t : rounding u rnd -> linear x t r -> onward t ts -> values_within rnd B ts x ->
  Qabs (v_val (f_reads rnd ts x) - (v_val x + r * (last_of t ts - t))) <= u * (2 * B * inject_Z (Z.of_nat (length ts)) + 3 * Qabs r * (last_of t ts - t)).
Proof. intros R L O W. exact (proj1 (proj2 (linear_error u rnd R B r ts x t L O W))). Qed.
Definition tenth : sslot := mkSlot Linear 0 (Some (mkD 0 (Some (3602879701896397 # 36028797018963968)) None None None)) [].
Definition one_to_ten : list Q := [1; 2; 3; 4; 5; 6; 7; 8; 9; 10].
Example C145_ex_linear : linear tenth 0 (3602879701896397 # 36028797018963968) /\ onward 0 one_to_ten /\ values_within rnd64 1 one_to_ten tenth /\
  v_val (f_reads rnd64 one_to_ten tenth) == 9007199254740991 # 9007199254740992 /\ v_val (f_reads rnd64 [10] tenth) == 1.
Proof.
  split; [eexists; split; [reflexivity|split; reflexivity]|]. split; [cbn; repeat split; discriminate|]. split; [|split; vm_compute; reflexivity].
  cbn [values_within one_to_ten]. repeat (split; [eexists; split; [vm_compute; reflexivity|vm_compute; discriminate]|]). exact I.
Qed.

(** Whole numbers and binary fractions are not rounded: if the times are multiples of 2^-a and the rate is one of 2^-b, a linear state
    is exact as long as 53 digits hold it. *)
Theorem C145_grid a b r ts x t : grid b r -> linear x t r -> onward t ts -> grid a t -> Forall (grid a) ts -> grid (a + b) (v_val x) ->
  last_of t ts - t <= Qpower 2 (53 - a) -> Qabs (v_val x) + Qabs r * (last_of t ts - t) <= Qpower 2 (53 - (a + b)) ->
  v_val (f_reads rnd64 ts x) == v_val x + r * (last_of t ts - t).
Proof. intros. eapply linear_grid; eassumption. Qed.
Definition quarters : sslot := mkSlot Linear (5 # 2) (Some (mkD 0 (Some (-3 # 4)) None None None)) [].
Example C145_ex_grid : linear quarters 0 (-3 # 4) /\ grid 2 (-3 # 4) /\ Forall (grid 1) [1 # 2; 4] /\ grid (1 + 2) (v_val quarters) /\
  Qabs (v_val quarters) + Qabs (-3 # 4) * (4 - 0) <= Qpower 2 (53 - (1 + 2)) /\ v_val (f_reads rnd64 [1 # 2; 4] quarters) == -1 # 2.
Proof.
  split; [eexists; split; [reflexivity|split; reflexivity]|]. split; [exists (-3)%Z; reflexivity|].
  split; [constructor; [exists 1%Z; reflexivity|constructor; [exists 8%Z; reflexivity|constructor]]|]. split; [exists 20%Z; reflexivity|]. split; [vm_compute; discriminate|vm_compute; reflexivity].
Qed.

(** A level, at any time after it was last stored. *)
Theorem C145_level u rnd s B : rounding u rnd -> k_last s <= k_now s -> Qabs (f_cur_level rnd s) <= B ->
  Qabs (f_cur_level rnd s - (k_level s + k_rate s * (k_now s - k_last s))) <= u * (2 * B + 3 * (Qabs (k_rate s) * (k_now s - k_last s))).
Proof. intros R. exact (level_error u rnd R s B). Qed.
(** A container that flows out: a check is made for a time not in the past, and then it is empty but for rounding. *)
Theorem C145_empty u rnd s p : rounding u rnd -> k_last s = k_now s -> 0 <= k_now s -> rnd (k_now s) == k_now s -> 0 <= k_level s -> rnd (k_level s) == k_level s ->
  k_rate s < 0 -> (p < length (k_checks s))%nat ->
  exists due, nth_error (k_checks (f_check_start rnd s p)) p = Some (CkWait due) /\ k_now s <= due /\
    forall s', only_time s s' -> k_now s' = due -> Qabs (f_cur_level rnd s') <= u * (13 * k_level s + 4 * (- k_rate s * k_now s)).
Proof. intros R. exact (check_empty_error u rnd R s p). Qed.
Theorem C145_full u rnd s p : rounding u rnd -> k_last s = k_now s -> 0 <= k_now s -> rnd (k_now s) == k_now s -> 0 <= k_level s <= k_cap s -> rnd (k_level s) == k_level s ->
  0 < k_rate s -> (p < length (k_checks s))%nat ->
  exists due, nth_error (k_checks (f_check_start rnd s p)) p = Some (CkWait due) /\ k_now s <= due /\
    forall s', only_time s s' -> k_now s' = due -> Qabs (f_cur_level rnd s' - k_cap s) <= u * (22 * k_cap s + 4 * (k_rate s * k_now s)).
Proof. intros R. exact (check_full_error u rnd R s p). Qed.

(** If all numbers, and the time until the limit is reached, are multiples of powers of two that 53 digits hold, the check comes
    exactly when the limit is reached and finds exactly the limit: zero for a flow out, the capacity for a flow in. *)
Theorem C145_grid_check a b s p w lim : k_last s = k_now s -> (p < length (k_checks s))%nat -> 0 <= k_level s <= k_cap s -> k_cap s <= Qpower 2 (53 - (a + b)) ->
  grid b (k_rate s) -> grid (a + b) (k_level s) -> grid (a + b) (k_cap s) -> grid a (k_now s) -> 0 <= k_now s -> grid a w -> 0 <= w -> k_now s + w <= Qpower 2 (53 - a) ->
  (k_rate s < 0 /\ lim = 0 \/ 0 < k_rate s /\ lim = k_cap s) -> k_rate s * w == lim - k_level s ->
  exists due, nth_error (k_checks (f_check_start rnd64 s p)) p = Some (CkWait due) /\ due == k_now s + w /\
    forall s', only_time s s' -> k_now s' = due -> f_cur_level rnd64 s' == lim /\ k_level (f_set_level rnd64 s') == lim.
Proof.
  intros El Hp HL HC Gr Gl Gc Gn N0 Gw W0 HT Hc Hw.
  assert (X : limit s = lim /\ ~ k_rate s == 0). { unfold limit. destruct Hc as [[H ->]|[H ->]]; (split; [|lra]); [assert (Qltb 0 (k_rate s) = false) as -> by (apply Qltb_ge; lra)|assert (Qltb 0 (k_rate s) = true) as -> by (apply Qltb_lt; lra)]; reflexivity. }
  destruct X as [X1 X2]. rewrite <- X1 in *. eapply check_grid; eassumption.
Qed.

(** ** C146 *)
(** A container made at some time, and what is done with it. *)
Definition kbegin (cap level : Q) (ee ef : bool) (now : Q) (os : list kop) : option kst :=
  match kinit cap level ee ef now with Some s => Some (f_krun rnd64 s os) | None => None end.
Definition draining (due : Q) : list kop := [KGet 3 (Some 5); KUrgent; KUrgent; KAdvance due; KFireCheck 0].
Definition filling (due : Q) : list kop := [KPut 3 (Some 5); KUrgent; KUrgent; KAdvance due; KFireCheck 0].
(** 1 taken at 3 a time unit from time 1 on. *)
Definition due1 : Q := rnd64 (1 + rnd64 (1 # 3)).
Definition due2 : Q := rnd64 (2 + rnd64 (1 # 3)).
Example C145_ex_empty : exists s, kbegin 10 1 false true 1 [KGet 3 (Some 5); KUrgent] = Some s /\ k_last s = k_now s /\ k_level s == 1 /\ rnd64 (k_level s) == k_level s /\
  rnd64 (k_now s) == k_now s /\ k_rate s == -3 /\ length (k_checks s) = 1%nat /\ nth_error (k_checks (f_check_start rnd64 s 0)) 0 = Some (CkWait due1).
Proof. eexists. split; [vm_compute; reflexivity|]. vm_compute. repeat split. Qed.
Example C145_ex_full : exists s, kbegin 1 0 true false 1 [KPut 3 (Some 5); KUrgent] = Some s /\ k_last s = k_now s /\ k_level s == 0 /\
  k_rate s == 3 /\ nth_error (k_checks (f_check_start rnd64 s 0)) 0 = Some (CkWait due1).
Proof. eexists. split; [vm_compute; reflexivity|]. vm_compute. repeat split. Qed.

(** 6 taken at 3/2 a time unit from time 1 on, found empty at time 5; the user is told and the flow has ended. *)
Example C145_ex_grid_check : exists s, kbegin 10 6 false true 1 [KGet (3 # 2) None; KUrgent] = Some s /\ k_last s = k_now s /\ k_rate s == -3 # 2 /\ grid 1 (k_rate s) /\ grid (0 + 1) (k_level s) /\
  grid 0 4 /\ k_rate s * 4 == 0 - k_level s /\ nth_error (k_checks (f_check_start rnd64 s 0)) 0 = Some (CkWait 5) /\
  exists s', kbegin 10 6 false true 1 [KGet (3 # 2) None; KUrgent; KUrgent; KAdvance 5; KFireCheck 0] = Some s' /\ halted s' = false /\ k_level s' == 0 /\ k_rate s' == 0 /\ k_urgent s' = [UInt 0 Limit].
Proof.
  eexists. split; [vm_compute; reflexivity|]. split; [reflexivity|]. split; [reflexivity|]. split; [exists (-3)%Z; reflexivity|]. split; [exists 12%Z; reflexivity|].
  split; [exists 4%Z; reflexivity|]. split; [reflexivity|]. split; [vm_compute; reflexivity|]. eexists. split; [vm_compute; reflexivity|]. vm_compute. repeat split.
Qed.

Lemma later s t s' : f_kstep rnd64 s (KAdvance t) = Some s' -> only_time s s' /\ k_now s' = t.
Proof.
  unfold f_kstep. destruct (halted s); [discriminate|]. destruct (k_urgent s); [|discriminate]. destruct (_ && _); [|discriminate].
  intro E. injection E as <-. repeat split.
Qed.
Lemma rnd64_le x y : x <= y -> rnd64 x <= rnd64 y.
Proof. apply rnd64_mono. Qed.
(** Not noticed: the check finds the container not quite empty and is not repeated.  Nobody is told, nothing else is due, and
    from time 2 on the level is below zero, more so the longer it lasts. *)
Theorem C146_unnoticed_empty_refuted : exists s, kbegin 10 1 false true 1 (draining due1) = Some s /\
  halted s = false /\ k_urgent s = [] /\ k_checks s = [CkEnd] /\ k_active s = [0%nat] /\ k_rate s == -3 /\ 0 < k_level s /\
  (exists s', f_kstep rnd64 s (KAdvance 6) = Some s') /\
  (forall t s', f_kstep rnd64 s (KAdvance t) = Some s' -> 2 <= t -> f_cur_level rnd64 s' <= -1).
Proof.
  eexists. split; [vm_compute; reflexivity|]. split; [reflexivity|]. split; [reflexivity|]. split; [reflexivity|]. split; [reflexivity|]. split; [reflexivity|]. split; [reflexivity|].
  split; [eexists; vm_compute; reflexivity|].
  intros t s' E T. apply later in E. destruct E as ((E1 & E2 & E3 & _) & E4). unfold f_cur_level. rewrite E1, E2, E3, E4. cbn [k_level k_rate k_last].
  assert (D : 1 # 2 <= rnd64 (t - due1)).
  { assert (X : rnd64 (1 # 2) <= rnd64 (t - due1)) by (apply rnd64_le; unfold due1; assert (due1 <= 3 # 2) by (vm_compute; discriminate); unfold due1 in *; lra).
    exact X. }
  match goal with |- rnd64 (_ + rnd64 (_ * rnd64 (t - ?d))) <= _ => change d with due1 end.
  assert (M : rnd64 (-3 * rnd64 (t - due1)) <= rnd64 (-3 # 2)) by (apply rnd64_le; lra). change (rnd64 (-3 # 2)) with (-3 # 2) in M.
  match goal with |- rnd64 (?l + _) <= _ => assert (L : l <= 1 # 2) by (vm_compute; discriminate) end.
  change (-1) with (rnd64 (-1)). apply rnd64_le. lra.
Qed.
(** And when that taker is done, the simulation stops with a RuntimeError: the check it interrupts has ended. *)
Theorem C146_crash_later_refuted : exists s, kbegin 10 1 false true 1 (draining due1 ++ [KAdvance 6; KFireUser 0]) = Some s /\ k_halt s = Some RDead.
Proof. eexists. split; [vm_compute; reflexivity|]. vm_compute. reflexivity. Qed.
(** A container that may run empty: a ContainerError says it is below zero when it runs empty. *)
Theorem C146_below_refuted : exists s, kbegin 10 1 false true 2 (draining due2) = Some s /\ k_err_empty s = false /\ k_halt s = Some RBelow.
Proof. eexists. split; [vm_compute; reflexivity|]. split; reflexivity. Qed.
(** The same when it is full. *)
Theorem C146_unnoticed_full_refuted : exists s, kbegin 1 0 true false 1 (filling due1) = Some s /\
  halted s = false /\ k_urgent s = [] /\ k_checks s = [CkEnd] /\ k_active s = [0%nat] /\ k_level s < k_cap s /\
  exists s', f_kstep rnd64 s (KAdvance 6) = Some s' /\ k_cap s' < f_cur_level rnd64 s'.
Proof.
  eexists. split; [vm_compute; reflexivity|]. split; [reflexivity|]. split; [reflexivity|]. split; [reflexivity|]. split; [reflexivity|]. split; [reflexivity|].
  eexists. split; [vm_compute; reflexivity|]. vm_compute. reflexivity.
Qed.
Theorem C146_above_refuted : exists s, kbegin 1 0 true false 2 (filling due2) = Some s /\ k_err_full s = false /\ k_halt s = Some RAbove.
Proof. eexists. split; [vm_compute; reflexivity|]. split; reflexivity. Qed.
(** Without rounding both are noticed, the user is told and nothing is wrong. *)
Theorem C146_exact : (forall t0, t0 = 1 \/ t0 = 2 -> match kinit 10 1 false true t0 with
    | Some s => let s' := krun s (draining (t0 + (1 # 3))) in k_halt s' = None /\ k_urgent s' = [UInt 0 Limit] /\ k_level s' == 0 /\ k_rate s' == 0 /\ k_active s' = []
    | None => False end) /\
  (forall t0, t0 = 1 \/ t0 = 2 -> match kinit 1 0 true false t0 with
    | Some s => let s' := krun s (filling (t0 + (1 # 3))) in k_halt s' = None /\ k_urgent s' = [UInt 0 Limit] /\ k_level s' == 1 /\ k_rate s' == 0 /\ k_active s' = []
    | None => False end).
Proof. split; intros t0 [-> | ->]; vm_compute; repeat split. Qed.
(** Two puts, at 0.1 and 0.2: when both have ended the rate is not zero, and a check waits for a time far away; a simulation
    that is run until nothing is left goes on until then. *)
Definition two_puts : list kop := [KPut (rnd64 (1 # 10)) (Some 1); KPut (rnd64 (2 # 10)) (Some 2); KUrgent; KUrgent; KUrgent; KUrgent; KUrgent; KUrgent;
  KAdvance 1; KFireUser 0; KUrgent; KUrgent; KAdvance 2; KFireUser 1; KUrgent; KUrgent].
Theorem C146_residue_refuted : exists s, kbegin 10 1 false true 0 two_puts = Some s /\ k_halt s = None /\ k_urgent s = [] /\ k_active s = [] /\
  0 < k_rate s /\ nth_error (k_checks s) 3 = Some (CkWait 306244774661193728).
Proof. eexists. split; [vm_compute; reflexivity|]. vm_compute. repeat split. Qed.
(** Reading a linear state changes what it will be. *)
Theorem C146_reads_refuted : ~ v_val (f_reads rnd64 one_to_ten tenth) == v_val (f_reads rnd64 [10] tenth).
Proof. vm_compute. discriminate. Qed.

(** ** C147 *)
(** Reads from the departure to the arrival succeed, whatever was read before, if rounding adds up to less than the tolerance;
    a read moves the actor and leaves the journey as it is. *)
Theorem C147_arrival u rnd P dist along tol t0 from speed wps : rounding u rnd -> 0 <= t0 -> rnd t0 == t0 -> 0 < speed -> moving P dist from wps ->
  (1 + u) * ((1 + u) * pw (1 + u) (S (length wps)) * (len P dist from wps / speed) + u * t0) <= (1 - u) * (pw (1 - u) (S (length wps)) * (len P dist from wps / speed) + tol) ->
  let s := fst (f_depart rnd P dist along tol t0 from speed wps) in
  let due := f_after rnd t0 (f_travel_time rnd P dist from wps speed) in
  forall t v, t0 <= t -> t <= due -> exists p, f_pread rnd P dist along tol (mkP t v (p_act s)) = (mkP t p (p_act s), PVal p).
Proof. intro R. apply (arrival_read u rnd R). Qed.
(** Python's floats: with a tolerance of 1e-12 it is enough that the time of departure and (4 n + 8) times the travel time, n being the number of waypoints, add up to at most 9000. *)
Theorem C147_arrival64 P dist along tol0 t0 from speed wps : 0 < tol0 -> float64 t0 -> 0 <= t0 -> 0 < speed -> moving P dist from wps ->
  (Z.of_nat (length wps) <= 1000000)%Z -> t0 + (4 * inject_Z (Z.of_nat (length wps)) + 8) * (len P dist from wps / speed) <= 9000000000000000 * tol0 ->
  let tol := rnd64 tol0 in
  let s := fst (f_depart rnd64 P dist along tol t0 from speed wps) in
  let due := f_after rnd64 t0 (f_travel_time rnd64 P dist from wps speed) in
  forall t v, t0 <= t -> t <= due -> exists p, f_pread rnd64 P dist along tol (mkP t v (p_act s)) = (mkP t p (p_act s), PVal p).
Proof. apply arrival64. Qed.
Definition line_dist (a b : Q) : Q := Qabs (a - b).
Definition line_along (a b f : Q) : Q := a + (b - a) * f.
Example C147_ex : moving Q line_dist 0 [1; 3] /\ 8000 + (4 * inject_Z (Z.of_nat (length [1; 3])) + 8) * (len Q line_dist 0 [1; 3] / 6) <= 9000000000000000 * cart_tol /\ float64 8000.
Proof. split; [vm_compute; repeat split|]. split; [vm_compute; discriminate|]. exists 8000%Z, 0%Z. split; [lia|reflexivity]. Qed.

(** ** C148 *)
(** Later than that it can fail: a way of length 1 at speed 6 from time 20000 on, read on arrival. *)
Theorem C148_late_refuted : let tol := rnd64 cart_tol in
  let s := fst (f_depart rnd64 Q line_dist line_along tol 20000 0 6 [1]) in
  let due := f_after rnd64 20000 (f_travel_time rnd64 Q line_dist 0 [1] 6) in
  snd (f_pread rnd64 Q line_dist line_along tol (f_at Q due s)) = PSim.
Proof. vm_compute. reflexivity. Qed.
(** Without rounding that read gives the last place. *)
Theorem C148_exact : let s := fst (f_depart (fun x => x) Q line_dist line_along cart_tol 20000 0 6 [1]) in
  let due := f_after (fun x => x) 20000 (f_travel_time (fun x => x) Q line_dist 0 [1] 6) in
  exists p, snd (f_pread (fun x => x) Q line_dist line_along cart_tol (f_at Q due s)) = PVal p /\ p == 1.
Proof. eexists. split; [vm_compute; reflexivity|]. vm_compute. reflexivity. Qed.

Print Assumptions C145_floats.
Print Assumptions C145_exact.
Print Assumptions C145_linear.
Print Assumptions C145_level.
Print Assumptions C145_empty.
Print Assumptions C145_full.
Print Assumptions C146_unnoticed_empty_refuted.
Print Assumptions C146_crash_later_refuted.
Print Assumptions C146_below_refuted.
Print Assumptions C146_unnoticed_full_refuted.
Print Assumptions C146_above_refuted.
Print Assumptions C146_exact.
Print Assumptions C146_residue_refuted.
Print Assumptions C146_reads_refuted.
Print Assumptions C147_arrival.
Print Assumptions C147_arrival64.
Print Assumptions C148_late_refuted.
Print Assumptions C148_exact.

Print Assumptions C145_grid.

Print Assumptions C145_grid_check.

Print Assumptions C145_exact_step.
