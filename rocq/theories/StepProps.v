(** Properties C41 and C70: the stepped motion manager. *)
From Verif Require Import Common StepModel StepSpec StepProofs.

Section C41.
Variable L : Type.
Variable dist : L -> L -> Q.
Variable check : nat -> option (L -> bool).
Variable timestep : Q.
Variable max_empty : nat.
Notation step := (step L dist check timestep max_empty).
Notation run := (run L dist check timestep max_empty).
Notation in_range := (in_range L dist check).

(** The places, radii, detectability and registrations the theorems below speak of are those the history has set. *)
Lemma kept_by_looking x q : let x' := fst (run_detectable L dist check x q) in
  pos L x' = pos L x /\ radius L x' = radius L x /\ detect L x' = detect L x /\ sensors L x' = sensors L x /\ detectables L x' = detectables L x.
Proof.
  unfold run_detectable. destruct (forallb _ _); [|repeat split]. destruct (look _ _ _ _ _ _ _) as [v o]. repeat split.
Qed.
Lemma step_sets x o : let x' := fst (step x o) in
  (forall k, pos L x' k = put_last L k [o] (pos L x k)) /\ (forall k, radius L x' k = radius_last L k [o] (radius L x k)) /\
  (forall k, detect L x' k = shown_last L k [o] (detect L x k)) /\
  (forall s, In s (sensors L x') <-> In s (sensors L x) \/ o = AddSensor L s) /\
  (forall e, In e (detectables L x') <-> match o with AddDetectable _ j | StartMover _ j => e = j \/ In e (detectables L x)
                                                 | StopMover _ j => e <> j /\ In e (detectables L x) | _ => In e (detectables L x) end).
Proof.
  assert (Ad : forall l j e, In e (add l j) <-> e = j \/ In e l).
  { intros l j e. unfold add, memn. destruct (existsb (Nat.eqb j) l) eqn:E.
    - apply existsb_exists in E. destruct E as (z & Z & E). apply Nat.eqb_eq in E. subst z. split; [auto|intros [->|H]; auto].
    - rewrite in_app_iff. cbn. intuition congruence. }
  assert (De : forall l j e, In e (del l j) <-> e <> j /\ In e l).
  { intros l j e. unfold del. rewrite filter_In, negb_true_iff, Nat.eqb_neq. tauto. }
  assert (Sh : forall d k, d = shown_last L k [] d) by (intros [b|] k; reflexivity).
  destruct o as [k p|k r|k b|k|k|k|k| | |q|k|t]; cbn [step StepModel.step].
  - cbn. repeat split; auto; try (intros [H|H]; [auto|discriminate]). intro j. destruct (detect L x j); reflexivity.
  - cbn. repeat split; auto; try (intros [H|H]; [auto|discriminate]). intro j. destruct (detect L x j); reflexivity.
  - cbn. destruct (detect L x k) as [c|] eqn:Dk.
    + assert (G : forall x', pos L x' = pos L x /\ radius L x' = radius L x /\ detect L x' = upd (detect L x) k (Some b) /\ sensors L x' = sensors L x /\ detectables L x' = detectables L x ->
        (forall j, pos L x' j = pos L x j) /\ (forall j, radius L x' j = radius L x j) /\
        (forall j, detect L x' j = shown_last L j [SetDetect L k b] (detect L x j)) /\
        (forall s, In s (sensors L x') <-> In s (sensors L x) \/ SetDetect L k b = AddSensor L s) /\ (forall e, In e (detectables L x') <-> In e (detectables L x))).
      { intros x' (A & B & C & D & E). rewrite A, B, C, D, E. repeat split; auto; try (intros [H|H]; [auto|discriminate]).
        intro j. unfold upd. cbn. destruct (Nat.eqb j k) eqn:Ej; [apply Nat.eqb_eq in Ej; subst; rewrite Dk; cbn; rewrite Nat.eqb_refl; reflexivity|].
        destruct (detect L x j); cbn; rewrite ?Ej; reflexivity. }
      destruct b; [|apply G; repeat split].
      apply G. destruct (kept_by_looking (mkSt L (pos L x) (radius L x) (upd (detect L x) k (Some true)) (sensors L x) (detectables L x) (in_view L x) (now L x) (is_running L x) (loop L x) (pending L x)) (Some k))
        as (A & B & C & D & E). rewrite A, B, C, D, E. repeat split.
    + repeat split; auto; try (intros [H|H]; [auto|discriminate]). cbn. intro j. destruct (detect L x j) eqn:Dj; [|reflexivity]. cbn.
      destruct (Nat.eqb j k) eqn:Ej; [apply Nat.eqb_eq in Ej; congruence|reflexivity].
  - cbn. repeat split; auto.
    + intro j. destruct (detect L x j); reflexivity.
    + intro H. apply Ad in H. destruct H as [->|H]; auto.
    + intros [H|[= ->]]; apply Ad; auto.
  - cbn. repeat split; auto; try (intros [H|H]; [auto|discriminate]); try apply Ad. intro j. destruct (detect L x j); reflexivity.
  - cbn. repeat split; auto; try (intros [H|H]; [auto|discriminate]); try apply Ad. intro j. destruct (detect L x j); reflexivity.
  - cbn. repeat split; auto; try (intros [H|H]; [auto|discriminate]); try (apply De; assumption); try (eapply proj1, De; eassumption); try (eapply proj2, De; eassumption).
    intro j. destruct (detect L x j); reflexivity.
  - cbn. repeat split; auto; try (intros [H|H]; [auto|discriminate]). intro j. destruct (detect L x j); reflexivity.
  - cbn. destruct (pending L x) as [|n]; [|destruct (is_running L x)]; cbn; repeat split; auto; try (intros [H|H]; [auto|discriminate]); intro j; destruct (detect L x j); reflexivity.
  - cbn. destruct (loop L x) as [[n due]|]; [|repeat split; auto; try (intros [H|H]; [auto|discriminate]); intro j; cbn; destruct (detect L x j); reflexivity].
    destruct (Qeqb due (now L x)); [|repeat split; auto; try (intros [H|H]; [auto|discriminate]); intro j; cbn; destruct (detect L x j); reflexivity].
    destruct (kept_by_looking x None) as (A & B & C & D & E). destruct (run_detectable L dist check x None) as [x' os]. cbn in *.
    rewrite A, B, C, D, E. repeat split; auto; try (intros [H|H]; [auto|discriminate]). intro j. destruct (detect L x j); reflexivity.
  - destruct (kept_by_looking x (Some k)) as (A & B & C & D & E). rewrite A, B, C, D, E. cbn.
    repeat split; auto; try (intros [H|H]; [auto|discriminate]). intro j. destruct (detect L x j); reflexivity.
  - cbn. repeat split; auto; try (intros [H|H]; [auto|discriminate]). intro j. destruct (detect L x j); reflexivity.
Qed.
Theorem C41_history : forall p r d ops, let x := fst (run (init L p r d) ops) in
  (forall k, pos L x k = put_last L k ops (p k) /\ radius L x k = radius_last L k ops (r k) /\ detect L x k = shown_last L k ops (d k)) /\
  (forall s, In s (sensors L x) <-> In (AddSensor L s) ops) /\
  (forall e, In e (detectables L x) <-> added L e ops = true).
Proof.
  intros p r d.
  induction ops as [|o ops IH] using rev_ind; cbn zeta.
  - cbn. repeat split; try tauto; try discriminate. destruct (d k); reflexivity.
  - rewrite run_app. cbn zeta in IH. set (y := fst (run (init L p r d) ops)) in *. cbn [StepModel.run fst].
    destruct (step_sets y o) as (A & B & C & D & E). cbn zeta in *. destruct (StepModel.step L dist check timestep max_empty y o) as [z q]. cbn [fst] in *.
    destruct IH as (I1 & I2 & I3). split; [|split].
    + intro k. destruct (I1 k) as (J1 & J2 & J3). rewrite A, B, C, J1, J2, J3. unfold put_last, radius_last, shown_last.
      destruct (d k); rewrite !fold_left_app; repeat split.
    + intro s. rewrite D, I2, in_app_iff. cbn. intuition congruence.
    + intro e. rewrite E. unfold added. rewrite fold_left_app. fold (added L e ops). cbn [fold_left].
      destruct o as [k' p'|k' r'|k' b|k'|k'|k'|k'| | |q'|k'|t]; try apply I3; destruct (Nat.eqb e k') eqn:Ek.
      all: try (apply Nat.eqb_eq in Ek; subst; intuition congruence).
      all: apply Nat.eqb_neq in Ek; rewrite <- I3; tauto.
Qed.
(** Whatever happens, every sensor is told of entries and exits of an entity in turn, an
    entry first. *)
Theorem C41_alternates : forall p r d ops s e,
  alternates true (told s e (snd (run (init L p r d) ops))).
Proof.
  intros. destruct (run_leads L dist check timestep max_empty ops _ (init_inv L p r d)) as [A _].
  destruct (A s e) as [B _]. exact B.
Qed.
(** An entry is only told of a registered entity that can be detected and is in range at
    that moment, to a registered sensor that is not the entity; an exit only when it
    cannot be detected or is not in range. *)
Theorem C41_told : forall x o s e,
  let x' := fst (step x o) in
  (In (Entered s e) (snd (step x o)) ->
     In s (sensors L x') /\ In e (detectables L x') /\ e <> s /\ can_be_detected L x' e /\ in_range x' s e) /\
  (In (Exited s e) (snd (step x o)) -> ~ can_be_detected L x' e \/ ~ in_range x' s e).
Proof. intros. apply step_told. Qed.

(** After every check of the loop: a registered sensor considers a registered entity to
    be in range exactly when it can be detected and is. *)
Theorem C41_in_range : forall p r d ops idle s e,
  let x := fst (run (init L p r d) ops) in
  checks_now L x (Step L idle) <> None ->
  In s (sensors L x) -> In e (detectables L x) -> s <> e ->
  considered s e (snd (run (init L p r d) (ops ++ [Step L idle]))) <->
  can_be_detected L x e /\ in_range x s e.
Proof.
  intros p r d ops idle s e x C Hs He Hne. rewrite considered_seen. rewrite run_app. cbn [fst]. fold x.
  rewrite run_cons. cbn [fst].
  destruct (run_leads L dist check timestep max_empty ops _ (init_inv L p r d)) as [_ I]. fold x in I.
  rewrite <- (check_seen L dist check x None s e I Hs Hne (asked_all L x) He).
  cbn [checks_now] in C. cbn [StepModel.run StepModel.step fst].
  destruct (loop L x) as [[n due]|]; [|congruence]. destruct (Qeqb due (now L x)); [|congruence].
  destruct (run_detectable L dist check x None) as [x' o']. cbn [fst in_view]. tauto.
Qed.
(** So it is at once after a registered entity is made detectable, and after a check of
    run_particular. *)
Theorem C41_detectable : forall p r d ops s e,
  let x := fst (run (init L p r d) ops) in
  detect L x e <> None ->
  In s (sensors L x) -> In e (detectables L x) -> s <> e ->
  considered s e (snd (run (init L p r d) (ops ++ [SetDetect L e true]))) <-> in_range x s e.
Proof.
  intros p r d ops s e x C Hs He Hne. rewrite considered_seen. rewrite run_app. cbn [fst]. fold x.
  rewrite run_cons. cbn [fst StepModel.run].
  destruct (run_leads L dist check timestep max_empty (ops ++ []) _ (init_inv L p r d)) as [_ I]. rewrite app_nil_r in I. fold x in I.
  cbn [StepModel.step]. destruct (detect L x e) as [b|] eqn:D; [|congruence].
  set (x' := mkSt L _ _ _ _ _ _ _ _ _ _).
  assert (I' : inv L x').
  { destruct I as [N T]. split; [exact N|]. intros s0 d0 H. specialize (T s0 d0 H).
    unfold test_detect in *. cbn [detect x']. unfold upd. destruct (Nat.eqb d0 e); [reflexivity|exact T]. }
  rewrite (check_seen L dist check x' (Some e) s e I' Hs Hne).
  - assert (Y : can_be_detected L x' e).
    { unfold can_be_detected. cbn [detect x']. unfold upd. rewrite Nat.eqb_refl. discriminate. }
    unfold StepSpec.in_range. cbn [pos radius x']. tauto.
  - intros d0 H. apply filter_In in H. destruct H as [[H|[]] _]. subst. exact He.
  - reflexivity.
Qed.
Theorem C41_particular : forall p r d ops s e,
  let x := fst (run (init L p r d) ops) in
  In s (sensors L x) -> In e (detectables L x) -> s <> e ->
  considered s e (snd (run (init L p r d) (ops ++ [StepOne L e]))) <->
  can_be_detected L x e /\ in_range x s e.
Proof.
  intros p r d ops s e x Hs He Hne. rewrite considered_seen. rewrite run_app. cbn [fst]. fold x.
  rewrite run_cons. cbn [fst StepModel.run].
  destruct (run_leads L dist check timestep max_empty ops _ (init_inv L p r d)) as [_ I]. fold x in I.
  cbn [StepModel.step]. apply (check_seen L dist check x (Some e) s e I Hs Hne); [|reflexivity].
  intros d0 H. apply filter_In in H. destruct H as [[H|[]] _]. subst. exact He.
Qed.
(** What cannot be detected is never considered to be in range, registered or not. *)
Theorem C41_hidden : forall p r d ops s e,
  ~ can_be_detected L (fst (run (init L p r d) ops)) e ->
  ~ considered s e (snd (run (init L p r d) ops)).
Proof.
  intros p r d ops s e H C. apply H. apply considered_seen in C.
  destruct (run_leads L dist check timestep max_empty ops _ (init_inv L p r d)) as [_ [_ T]].
  apply test_detect_spec. exact (T s e C).
Qed.

(** The loop begins at most once; its checks come every timestep after that; it ends
    exactly when the last max_empty_events of them (at least one) left no other events. *)
Theorem C70_times : forall p r d ops, 0 <= timestep ->
  let x := init L p r d in
  let begins := begins L dist check timestep max_empty x ops in
  let checks := checks L dist check timestep max_empty x ops in
  let x' := fst (run x ops) in
  (begins = [] /\ checks = [] /\ is_running L x' = false) \/
  (exists t, begins = [t] /\ spaced timestep (t + timestep) checks /\
     (loop L x' = None <-> (Nat.max 1 max_empty <= idle_run (map snd checks) 0)%nat)).
Proof. intros p r d ops H. apply begins_run; [exact H|apply init_tinv|reflexivity]. Qed.
(** Once it ended it never runs again, whatever is started. *)
Theorem C70_ended : forall x ops, 0 <= timestep ->
  is_running L x = true -> loop L x = None ->
  checks L dist check timestep max_empty x ops = [] /\ begins L dist check timestep max_empty x ops = [].
Proof.
  intros x ops H R E.
  destruct (running_run L dist check timestep max_empty H ops x) as [B K]; [|exact R|].
  - split; [congruence|]. intros n due X. congruence.
  - rewrite E in K. tauto.
Qed.
(** An entity in view that is not registered stays in view whatever moves: only
    registering it or setting its detectability changes that. *)
Theorem C41_kept : forall p r d ops ops' s e,
  let x := fst (run (init L p r d) ops) in
  considered s e (snd (run (init L p r d) ops)) -> ~ In e (detectables L x) ->
  ~ In (AddDetectable L e) ops' -> ~ In (StartMover L e) ops' -> (forall b, ~ In (SetDetect L e b) ops') ->
  considered s e (snd (run (init L p r d) (ops ++ ops'))).
Proof.
  intros p r d ops ops' s e x C N H1 H2 H3. apply considered_seen in C. apply considered_seen.
  rewrite run_app. cbn [fst]. apply kept_run; auto. apply run_leads. apply init_inv.
Qed.
End C41.

(** A sensor 0 at 0 with radius 5 and movers 1 and 2 on a line, steps of 1. *)
Definition qdist (a b : Q) : Q := if Qltb a b then b - a else a - b.
Definition no_check : nat -> option (Q -> bool) := fun _ => None.
Definition ex_init : st Q := init Q (fun k => match k with 1%nat => 20 | 2%nat => 3 | _ => 0 end) (fun _ => 5)
                                  (fun k => match k with 1%nat => Some true | _ => None end).
Definition ex_run := run Q qdist no_check 1 3.
Definition ex_ops : list (op Q) :=
  [AddSensor Q 0; AddDetectable Q 0; AddDetectable Q 2; StartMover Q 1; Begin Q; Time Q 1; Step Q false;
   Move Q 1 4; Time Q 2; Step Q false; SetDetect Q 1 false; Time Q 3; Step Q false; SetDetect Q 1 true;
   Move Q 2 6; Time Q 4; Step Q true; Move Q 1 30].
Example C41_ex : snd (ex_run ex_init ex_ops) = [Entered 0 2; Entered 0 1; Exited 0 1; Entered 0 1; Exited 0 2]
  /\ checks_now Q (fst (ex_run ex_init (ex_ops ++ [Time Q 5]))) (Step Q true) <> None
  /\ snd (ex_run ex_init (ex_ops ++ [Time Q 5; Step Q true; Time Q 6; Step Q true; Time Q 7; Step Q true]))
     = [Entered 0 2; Entered 0 1; Exited 0 1; Entered 0 1; Exited 0 2; Exited 0 1].
Proof. vm_compute. repeat split; discriminate. Qed.
Example C41_history_ex :
  map (fun k => put_last Q k ex_ops 0) [0; 1; 2]%nat = [0; 30; 6] /\ shown_last Q 1 ex_ops (Some true) = Some true /\
  added Q 1 ex_ops = true /\ added Q 1 (ex_ops ++ [StopMover Q 1]) = false /\
  pos Q (fst (ex_run ex_init ex_ops)) 1%nat = 30 /\ detectables Q (fst (ex_run ex_init (ex_ops ++ [StopMover Q 1]))) = [0; 2]%nat.
Proof. vm_compute. repeat split. Qed.
Example C70_times_ex :
  begins Q qdist no_check 1 3 ex_init ex_ops = [0] /\
  map snd (checks Q qdist no_check 1 3 ex_init ex_ops) = [false; false; false; true].
Proof. vm_compute. split; reflexivity. Qed.
Example C41_checker_ex :
  snd (run Q qdist (fun _ => Some (fun p => Qltb 10 p)) 1 3 ex_init
        [AddSensor Q 0; StartMover Q 1; StartMover Q 2; Begin Q; Begin Q; Time Q 1; Step Q false]) = [Entered 0 1].
Proof. vm_compute. reflexivity. Qed.

(** A mover that stopped in view of a sensor is never told to have left, however far the
    sensor moves away (_stop_mover forgets it, but not that it is in view). *)
Theorem C41_stopped_refuted : exists ops,
  let x := fst (ex_run ex_init ops) in
  checks_now Q (fst (ex_run ex_init (removelast ops))) (Step Q false) <> None /\ last ops (Begin Q) = Step Q false /\
  considered 0 1 (snd (ex_run ex_init ops)) /\ In 0%nat (sensors Q x) /\ can_be_detected Q x 1 /\
  ~ in_range Q qdist no_check x 0 1.
Proof.
  exists [AddSensor Q 0; StartMover Q 1; Begin Q; Move Q 1 4; Time Q 1; Step Q false; StopMover Q 1; Move Q 0 1000; Time Q 2; Step Q false].
  vm_compute. repeat split; try discriminate; [left; reflexivity|]. intro H. apply H. reflexivity.
Qed.
(** An actor that stopped, or that was never registered, cannot be made detectable: the
    value is stored and KeyError raised. *)
Theorem C41_unregistered_refuted : exists ops,
  last (snd (ex_run ex_init ops)) (Entered 0 0) = KeyError /\ last ops (Begin Q) = SetDetect Q 1 true /\
  detect Q (fst (ex_run ex_init ops)) 1 = Some true.
Proof.
  exists [AddSensor Q 0; StartMover Q 1; Begin Q; Time Q 1; Step Q false; SetDetect Q 1 false; StopMover Q 1; SetDetect Q 1 true].
  vm_compute. repeat split.
Qed.
(** A loop that ended while idle is not begun again by a mover that starts later: it
    comes into range and no sensor is told. *)
Theorem C70_restart_refuted : exists ops ops',
  loop Q (fst (ex_run ex_init ops)) = None /\ In (StartMover Q 1) ops' /\ In (Run Q) ops' /\ In (Begin Q) ops' /\
  checks Q qdist no_check 1 3 (fst (ex_run ex_init ops)) ops' = [] /\
  in_range Q qdist no_check (fst (ex_run ex_init (ops ++ ops'))) 0 1 /\
  can_be_detected Q (fst (ex_run ex_init (ops ++ ops'))) 1 /\
  told 0 1 (snd (ex_run ex_init (ops ++ ops'))) = [].
Proof.
  exists [AddSensor Q 0; Run Q; Begin Q; Time Q 1; Step Q true; Time Q 2; Step Q true; Time Q 3; Step Q true],
         [StartMover Q 1; Run Q; Begin Q; Move Q 1 2; Time Q 4; Step Q false; Time Q 5; Step Q false].
  vm_compute. repeat split; try discriminate; auto.
Qed.

Print Assumptions C41_history.
Print Assumptions C41_alternates.
Print Assumptions C41_told.
Print Assumptions C41_in_range.
Print Assumptions C41_detectable.
Print Assumptions C41_particular.
Print Assumptions C41_hidden.
Print Assumptions C70_times.
Print Assumptions C70_ended.
Print Assumptions C41_kept.
Print Assumptions C41_stopped_refuted.
Print Assumptions C41_unregistered_refuted.
Print Assumptions C70_restart_refuted.
