(** Property C42: the sensor motion manager. *)
From Verif Require Import Common MotModel MotSpec MotProofs.

Section C42.
Variable L : Type.
Variable intersection : L -> L -> Q -> L -> Q -> res (list (Q * kind) * Q).
Notation step := (step L intersection).
Notation run := (run L intersection).
Notation fair_run := (fair_run L intersection).

Lemma considered_view : forall a d ops m s, fair_run (init L a d) ops ->
  viewed (in_view L (fst (run (init L a d) ops))) m s = considered s m (snd (run (init L a d) ops)).
Proof.
  intros a d ops m s F. destruct (run_ok L intersection ops _ (init_inv L a d) F) as [_ [_ [_ J]]]. apply (J m s).
Qed.

(** When the manager is used as it has to be, every sensor is told of entries and exits
    of a mover in turn, an entry first.  Missing for the full statement: the uses that
    [fair_run] leaves out, for which it is false (below). *)
Theorem C42_alternates_partial : forall a d ops s m, fair_run (init L a d) ops ->
  alternates true (told s m (snd (run (init L a d) ops))).
Proof.
  intros a d ops s m F. destruct (run_ok L intersection ops _ (init_inv L a d) F) as [_ [_ [_ J]]]. apply (J m s).
Qed.
(** Then no process of the manager ends in an error. *)
Theorem C42_no_error : forall a d ops t e, fair_run (init L a d) ops ->
  ~ In (t, Crashed e) (snd (run (init L a d) ops)).
Proof.
  intros a d ops t e F. destruct (run_ok L intersection ops _ (init_inv L a d) F) as [_ [G _]]. apply G.
Qed.

(** A motion that starts: until it is ended, a sensor is told of just what was predicted
    for it at the start, at the predicted times; when nothing is left to do at a time,
    everything predicted up to that time has been told. *)
Theorem C42_motion : forall a d before m speed ws ops s,
  let x := fst (run (init L a d) before) in
  let ops' := Start L m speed ws :: ops in
  fair_run (init L a d) (before ++ ops') ->
  detect L x m = Some true -> ~ moving L x m -> In s (sensors L x) ->
  snd (step x (Start L m speed ws)) = [] ->
  (forall o, In o ops -> ~ ends L m o) ->
  exists l rest, process_pair L intersection speed ws (now L x) (sensor_at L x s) = Ok l /\
    same (told s m (snd (run x ops')) ++ rest) (moments (now L x) (considered s m (snd (run (init L a d) before))) l) /\
    (forall e, In e rest -> now L (fst (run x ops')) <= fst e) /\
    (quiet L (fst (run x ops')) -> forall e, In e rest -> now L (fst (run x ops')) < fst e).
Proof.
  intros a d before m speed ws ops s x ops' F D M S O E.
  apply fair_app in F. destruct F as [F0 [F1 F2]]. fold x in F1, F2.
  destruct (run_ok L intersection before _ (init_inv L a d) F0) as [I _]. fold x in I.
  assert (G : mget m (movers L x) = None) by (apply mget_none; exact M).
  destruct (start_ok L intersection x m speed ws I F1) as [A [_ [V [N [SS [_ [_ [J K]]]]]]]].
  destruct (K D G s S) as [[_ X]|[l [PP R]]]; [cbn [MotModel.step] in O; congruence|].
  exists l, (rem L (fst (run x ops')) m s). split; [exact PP|].
  pose proof (run_conserves L intersection ops _ m s A F2 E) as RC.
  unfold ops'. rewrite run_cons, O. cbn [fst snd map app].
  change (fst (step x (Start L m speed ws))) with (fst (start_mover L intersection x m speed ws)).
  destruct (run_ok L intersection ops _ A F2) as [A' _]. split; [|split].
  - rewrite <- considered_view by exact F0. fold x. rewrite <- R. apply RC; [apply J; right; split; [reflexivity|congruence]|rewrite SS; exact S].
  - intros e. apply (I_rem L _ A').
  - intros Qt e He. exact (quiet_rem L _ m s e A' Qt He).
Qed.
(** So it is for a sensor that is added while a mover is on its way, from what is
    predicted then. *)
Theorem C42_added : forall a d before m speed ws start ops s,
  let x := fst (run (init L a d) before) in
  let ops' := AddSensor L s :: ops in
  fair_run (init L a d) (before ++ ops') ->
  mget m (movers L x) = Some (speed, ws, start) ->
  snd (step x (AddSensor L s)) = [] ->
  (forall o, In o ops -> ~ ends L m o) ->
  exists l rest, process_pair L intersection speed ws start (sensor_at L x s) = Ok l /\
    same (told s m (snd (run x ops')) ++ rest) (moments (now L x) (considered s m (snd (run (init L a d) before))) l) /\
    (forall e, In e rest -> now L (fst (run x ops')) <= fst e) /\
    (quiet L (fst (run x ops')) -> forall e, In e rest -> now L (fst (run x ops')) < fst e).
Proof.
  intros a d before m speed ws start ops s x ops' F G O E.
  apply fair_app in F. destruct F as [F0 [F1 F2]]. fold x in F1, F2.
  destruct (run_ok L intersection before _ (init_inv L a d) F0) as [I _]. fold x in I.
  destruct (add_sensor_ok L intersection x s I F1) as [A [_ [V [N [MM [SS [_ [_ K]]]]]]]].
  destruct (K m speed ws start G) as [[_ X]|[l [PP R]]]; [cbn [MotModel.step] in O; congruence|].
  exists l, (rem L (fst (run x ops')) m s). split; [exact PP|].
  pose proof (run_conserves L intersection ops _ m s A F2 E) as RC.
  unfold ops'. rewrite run_cons, O. cbn [fst snd map app].
  change (fst (step x (AddSensor L s))) with (fst (add_sensor L intersection x s)).
  destruct (run_ok L intersection ops _ A F2) as [A' _]. split; [|split].
  - rewrite <- considered_view by exact F0. fold x. rewrite <- R. apply RC; [rewrite MM; congruence|apply SS; right; reflexivity].
  - intros e. apply (I_rem L _ A').
  - intros Qt e He. exact (quiet_rem L _ m s e A' Qt He).
Qed.

(** A stopped mover: until it starts again or is hidden no sensor is told anything
    about it. *)
Theorem C42_stopped : forall a d before m ops s,
  let x := fst (run (init L a d) before) in
  fair_run (init L a d) (before ++ Stop L m :: ops) ->
  detect L x m <> None ->
  (forall o, In o ops -> o <> SetDetect L m false /\ forall sp ws, o <> Start L m sp ws) ->
  told s m (snd (run x (Stop L m :: ops))) = [].
Proof.
  intros a d before m ops s x F D N. apply fair_app in F. destruct F as [F0 [F1 F2]]. fold x in F1, F2.
  destruct (run_ok L intersection before _ (init_inv L a d) F0) as [I _]. fold x in I.
  destruct (stop_ok L x m false I F1) as [A [_ [_ [_ [_ [G [_ [_ [_ [_ K]]]]]]]]]].
  rewrite run_cons. cbn [snd]. rewrite told_app. fold (said L x (snd (step x (Stop L m))) m s).
  change (step x (Stop L m)) with (stop_mover L x m false) in *. rewrite G. cbn [app].
  apply (run_idle L intersection ops _ m A F2 (K D)).
  - intros o Ho. apply (N o Ho).
  - left. intros o Ho. apply (N o Ho).
Qed.
(** A mover that is hidden: just the sensors that consider it to be in range are told of
    its exit, at once, and until it starts again no sensor is told anything about it. *)
Theorem C42_hide : forall a d before m ops s,
  let x := fst (run (init L a d) before) in
  fair_run (init L a d) (before ++ SetDetect L m false :: ops) ->
  detect L x m <> None ->
  (forall o, In o ops -> forall sp ws, o <> Start L m sp ws) ->
  told s m (snd (run x (SetDetect L m false :: ops))) =
  if considered s m (snd (run (init L a d) before)) then [(now L x, false)] else [].
Proof.
  intros a d before m ops s x F D N. apply fair_app in F. destruct F as [F0 [F1 F2]]. fold x in F1, F2.
  destruct (run_ok L intersection before _ (init_inv L a d) F0) as [I _]. fold x in I.
  destruct (detect L x m) as [dt|] eqn:Dt; [|congruence].
  destruct (hide_ok L intersection x m dt I Dt F1) as [A [_ [_ [_ [T [V [_ [_ [_ M]]]]]]]]].
  rewrite run_cons. cbn [snd]. rewrite told_app. fold (said L x (snd (step x (SetDetect L m false))) m s).
  rewrite T, (run_idle L intersection ops _ m A F2 M N s) by (right; apply V). rewrite app_nil_r.
  unfold x. rewrite considered_view by exact F0. reflexivity.
Qed.
End C42.

(** Crossings that follow each other from the start of a motion on can be told of, if
    what is in view is what the motion starts in range of. *)
Theorem C42_orderly_started : forall now v l, follow true now l ->
  (v = true -> match l with [] => True | ((k, _), _) :: _ => k = START_INSIDE end) -> orderly now v l.
Proof.
  intros now v [|[[k1 t1] [k2 t2]] l] F V; [split; [exact I|split; [exact I|intros t []]]|].
  cbn [follow] in F. destruct F as [K1 [L2 [K2 F]]]. unfold orderly. cbn [moments].
  assert (T1 : now <= t1) by (destruct K1 as [[_ H]|[_ [_ H]]]; lra).
  assert (Qleb t1 now && Qltb t2 now = false) as -> by (apply andb_false_iff; right; apply Qltb_ge; lra).
  destruct (follow_after l t2 now v F ltac:(lra)) as [I1 [I2 [I3 I4]]]. rewrite I1.
  destruct K1 as [[-> L1]|[_ [-> L1]]].
  - assert (Qleb t1 now = false) as -> by (apply Qleb_gt; lra). destruct v; [specialize (V eq_refl); discriminate|]. destruct K2 as [->|[-> ->]]; cbn [app].
    + cbn [increasing alternates fst snd negb]. split; [split; [|split; [|exact I3]]|split; [auto|]].
      * intros [t b] [H|H]; [inversion H; subst; exact L2|]. cbn. specialize (I4 _ _ H). lra.
      * intros [t b] H. exact (I4 _ _ H).
      * intros t [H|[H|H]]; [discriminate|inversion H; subst; lra|]. specialize (I4 _ _ H). lra.
    + cbn. split; [split; [intros y []|exact I]|split; [auto|]]. intros t [H|[]]. discriminate.
  - destruct K2 as [->|[-> ->]].
    + destruct v; cbn [app increasing alternates fst snd negb].
      * split; [split; [|exact I3]|split; [auto|]].
        -- intros [t b] H. exact (I4 _ _ H).
        -- intros t [H|H]; [inversion H; subst; lra|]. specialize (I4 _ _ H). lra.
      * split; [split; [|split; [|exact I3]]|split; [auto|]].
        -- intros [t b] [H|H]; [inversion H; subst; cbn; lra|]. cbn. specialize (I4 _ _ H). lra.
        -- intros [t b] H. exact (I4 _ _ H).
        -- intros t [H|[H|H]]; [discriminate|inversion H; subst; lra|]. specialize (I4 _ _ H). lra.
    + destruct v; cbn.
      * split; [exact I|split; [exact I|intros t []]].
      * split; [split; [intros y []|exact I]|split; [auto|]]. intros t [H|[]]. discriminate.
Qed.
(** So can they for a sensor that is added later, unless just then an exit is due. *)
Theorem C42_orderly_added : forall start now l, follow true start l -> start <= now ->
  (forall c t, In (c, (EXIT, t)) l -> ~ t == now) -> orderly now false l.
Proof.
  assert (G : forall l f lo now, follow f lo l -> (f = true -> lo <= now) -> (forall c t, In (c, (EXIT, t)) l -> ~ t == now) -> orderly now false l).
  2: { intros start now l F S X. apply (G l true start); auto. }
  induction l as [|[[k1 t1] [k2 t2]] l IH]; intros f lo now F S X; [split; [exact I|split; [exact I|intros t []]]|].
  cbn [follow] in F. destruct F as [K1 [L2 [K2 F]]]. unfold orderly. cbn [moments].
  assert (IH' : orderly now false l) by (apply (IH false t2); [exact F|discriminate|intros c t H; apply (X c); right; exact H]).
  destruct (Qleb t1 now && Qltb t2 now) eqn:B; [exact IH'|].
  destruct (Qlt_le_dec now t1) as [A|A].
  - (* yet to come *)
    assert (K : k1 = ENTER) by (destruct K1 as [[K _]|[Ef [_ K]]]; [exact K|specialize (S Ef); lra]). subst k1.
    assert (Qleb t1 now = false) as -> by (apply Qleb_gt; lra).
    destruct (follow_after l t2 now false F ltac:(lra)) as [_ [I2 [I3 I4]]]. destruct K2 as [->|[-> ->]]; cbn [app].
    + cbn [increasing alternates fst snd negb]. split; [split; [|split; [|exact I3]]|split; [auto|]].
      * intros [t b] [H|H]; [inversion H; subst; exact L2|]. cbn. specialize (I4 _ _ H). lra.
      * intros [t b] H. exact (I4 _ _ H).
      * intros t [H|[H|H]]; [discriminate|inversion H; subst; lra|]. specialize (I4 _ _ H). lra.
    + cbn. split; [split; [intros y []|exact I]|split; [auto|]]. intros t [H|[]]. discriminate.
  - assert (Qleb t1 now = true) as E1 by (apply Qleb_le; lra). rewrite E1 in *. cbn [andb] in B. apply Qltb_ge in B.
    assert (E : match k1 with START_INSIDE => [(now, true)] | _ => [(now, true)] end = [(now, true)]) by (destruct k1; reflexivity).
    rewrite E. destruct K2 as [->|[-> ->]]; cbn [app].
    + assert (NX : ~ t2 == now) by (apply (X (k1, t1)); left; reflexivity).
      assert (now < t2) by (apply Qnot_le_lt; intro; apply NX; lra).
      destruct (follow_after l t2 now false F ltac:(lra)) as [_ [I2 [I3 I4]]].
      cbn [increasing alternates fst snd negb]. split; [split; [|split; [|exact I3]]|split; [auto|]].
      * intros [t b] [Y|Y]; [inversion Y; subst; cbn; lra|]. cbn. specialize (I4 _ _ Y). lra.
      * intros [t b] Y. exact (I4 _ _ Y).
      * intros t [Y|[Y|Y]]; [discriminate|inversion Y; subst; lra|]. specialize (I4 _ _ Y). lra.
    + cbn. split; [split; [intros y []|exact I]|split; [auto|]]. intros t [Y|[]]. discriminate.
Qed.
Example C42_follow : let l := [((START_INSIDE, 5), (EXIT, 7)); ((ENTER, 8), (END_INSIDE, 9))] in
  follow true 5 l /\ orderly 5 true l /\ orderly (17 # 2) false l.
Proof.
  assert (F : follow true 5 [((START_INSIDE, 5), (EXIT, 7)); ((ENTER, 8), (END_INSIDE, 9))]).
  { cbn [follow]. split; [right; split; [reflexivity|split; [reflexivity|lra]]|]. split; [lra|]. split; [left; reflexivity|].
    split; [left; split; [reflexivity|lra]|]. split; [lra|]. split; [right; split; reflexivity|exact I]. }
  cbv zeta. split; [exact F|]. split.
  - apply C42_orderly_started; [exact F|]. intros _. reflexivity.
  - apply (C42_orderly_added 5); [exact F|lra|]. intros c t [H|[H|[]]]; inversion H; subst. lra.
Qed.

(** ** Examples: movers and sensors on a line *)
(** cartesian_linear_intersection, cartesian_model.py:86-150, for points that differ in
    one coordinate only, where the roots are rational. *)
Definition away (a b : Q) : Q := if Qleb a b then b - a else a - b.
Definition line (a b speed c r : Q) : res (list (Q * kind) * Q) :=
  let pt := away a b / speed in
  let si := Qleb (away c a) r in
  let fi := Qleb (away c b) r in
  if si && fi then Ok ([(0, START_INSIDE); (pt, END_INSIDE)], pt) else
  let along := if Qleb a b then c - a else a - c in
  let times := map (fun d => d / speed) (filter (Qleb 0) [along - r; along + r]) in
  match filter (fun t => Qleb t pt) times with
  | [] => Ok ([], -1)
  | ts => match (if si then [0] else []) ++ ts ++ (if fi then [pt] else []) with
          | [t1; t2] => Ok ([(t1, if si then START_INSIDE else ENTER); (t2, if fi then END_INSIDE else EXIT)], pt)
          | _ => Err MotionErr
          end
  end.
Definition at0 (s : nat) : Q * Q := if Nat.eqb s 1 then (10, 2) else (16, 3).
Definition all (m : nat) : option bool := Some true.
Notation x0 := (init Q at0 all).
Notation lrun := (run Q line).


(** A motion past two sensors, stopped in range of the second, and one that goes on. *)
Definition passing : list (op Q) :=
  [AddSensor Q 1; AddSensor Q 2; Start Q 7 1 [0; 20]; Urgent Q; Urgent Q; Time Q 8; Fire Q 0; Time Q 12; Fire Q 0;
   Time Q 13; Fire Q 1; Time Q 14; Stop Q 7; Urgent Q; Time Q 15; Start Q 7 1 [14; 24]; Urgent Q; Time Q 20; Fire Q 2].
Definition orderlyb (now : Q) (v : bool) (l : list crossing) : bool :=
  (fix inc (l : list (Q * bool)) : bool := match l with [] => true | x :: l' => forallb (fun y => Qltb (fst x) (fst y)) l' && inc l' end) (moments now v l) &&
  (fix alt (b : bool) (l : list (Q * bool)) : bool := match l with [] => true | x :: l' => Bool.eqb (snd x) b && alt (negb b) l' end) (negb v) (moments now v l) &&
  forallb (fun e => snd e || Qltb now (fst e)) (moments now v l).
Lemma orderlyb_ok : forall now v l, orderlyb now v l = true -> orderly now v l.
Proof.
  intros now v l H. unfold orderlyb in H. apply andb_true_iff in H. destruct H as [H H3]. apply andb_true_iff in H. destruct H as [H1 H2].
  unfold orderly. generalize dependent (moments now v l). generalize (negb v). intros b k H1 H2 H3. split; [|split].
  - clear - H1. induction k as [|x k IH]; [exact Logic.I|]. apply andb_true_iff in H1. destruct H1 as [A B]. split; [|auto].
    intros y Hy. rewrite forallb_forall in A. specialize (A y Hy). qbool. exact A.
  - clear - H2. revert b H2. induction k as [|x k IH]; intros b H2; [exact Logic.I|]. apply andb_true_iff in H2. destruct H2 as [A B]. split; [|auto].
    apply eqb_prop in A. exact A.
  - intros t Ht. rewrite forallb_forall in H3. specialize (H3 _ Ht). cbn [snd fst orb] in H3. qbool. exact H3.
Qed.
Definition fairb (x : st Q) (o : op Q) : bool :=
  match o with
  | Start _ m speed ws =>
      match detect Q x m with
      | Some true => memn m (map fst (movers Q x)) ||
          forallb (fun s => match process_pair Q line speed ws (now Q x) (sensor_at Q x s) with
                            | Ok l => orderlyb (now Q x) (viewed (in_view Q x) m s) l | Err _ => true end) (sensors Q x)
      | _ => true
      end
  | Stop _ m | SetDetect _ m false =>
      forallb (fun u => match u with UInit i => match nth_error (procs Q x) i with Some p => negb (Nat.eqb (p_m p) m) | None => true end | _ => true end) (urgent Q x)
  | AddSensor _ s =>
      negb (memn s (sensors Q x)) &&
      forallb (fun e => match process_pair Q line (fst (fst (snd e))) (snd (fst (snd e))) (snd (snd e)) (sensor_at Q x s) with
                        | Ok l => orderlyb (now Q x) (viewed (in_view Q x) (fst e) s) l | Err _ => true end) (movers Q x)
  | _ => true
  end.
Lemma fairb_ok : forall x o, fairb x o = true -> fair Q line x o.
Proof.
  intros x o H. destruct o as [m sp ws|m|m b|s|s a| |i|t]; cbn [fair fairb] in *; try exact Logic.I.
  - intros D NM s l Hs P. rewrite D in H. apply orb_true_iff in H. destruct H as [H|H]; [exfalso; apply NM; apply memn_in; exact H|].
    rewrite forallb_forall in H. specialize (H s Hs). rewrite P in H. apply orderlyb_ok. exact H.
  - intros [i [p [U [E M]]]]. rewrite forallb_forall in H. specialize (H _ U). cbn in H. rewrite E, M, Nat.eqb_refl in H. discriminate.
  - destruct b; [exact Logic.I|]. intros [i [p [U [E M]]]]. rewrite forallb_forall in H. specialize (H _ U). cbn in H. rewrite E, M, Nat.eqb_refl in H. discriminate.
  - apply andb_true_iff in H. destruct H as [H1 H2]. split.
    + intro X. apply memn_in in X. rewrite X in H1. discriminate.
    + intros m sp ws st l Hm P. rewrite forallb_forall in H2. specialize (H2 _ Hm). cbn [fst snd] in H2. rewrite P in H2. apply orderlyb_ok. exact H2.
Qed.
Fixpoint fair_runb (x : st Q) (ops : list (op Q)) : bool :=
  match ops with [] => true | o :: ops' => fairb x o && fair_runb (fst (step Q line x o)) ops' end.
Lemma fair_runb_ok : forall ops x, fair_runb x ops = true -> fair_run Q line x ops.
Proof.
  induction ops as [|o ops IH]; intros x H; [exact Logic.I|]. cbn [fair_runb] in H. apply andb_true_iff in H. destruct H as [A B].
  split; [apply fairb_ok; exact A|apply IH; exact B].
Qed.
Definition red (l : list (Q * bool)) : list (Q * bool) := map (fun e => (Qred (fst e), snd e)) l.
Definition kinds (l : list (Q * out)) : list out := map snd l.

Example C42_passing :
  fair_run Q line x0 passing /\
  red (told 1 7 (snd (lrun x0 passing))) = [(8, true); (12, false)] /\
  red (told 2 7 (snd (lrun x0 passing))) = [(13, true); (20, false)].
Proof. split; [apply fair_runb_ok; vm_compute; reflexivity|]. split; vm_compute; reflexivity. Qed.
(** The hypotheses of the theorem on motions hold of its second motion. *)
Example C42_motion_example :
  let before := firstn 15 passing in
  let x := fst (lrun x0 before) in
  detect Q x 7 = Some true /\ ~ moving Q x 7 /\ In 2%nat (sensors Q x) /\ considered 2 7 (snd (lrun x0 before)) = true /\
  snd (step Q line x (Start Q 7 1 [14; 24])) = [] /\
  exists l, process_pair Q line 1 [14; 24] (now Q x) (sensor_at Q x 2) = Ok l /\ red (moments (now Q x) true l) = [(20, false)].
Proof.
  cbv zeta. split; [reflexivity|]. split; [vm_compute; intros []|]. split; [vm_compute; auto|]. split; [vm_compute; reflexivity|].
  split; [vm_compute; reflexivity|]. eexists. split; vm_compute; reflexivity.
Qed.
(** A sensor added with the mover in its range, and a mover hidden in range. *)
Definition late : list (op Q) :=
  [Start Q 7 1 [0; 20]; Time Q 9; AddSensor Q 1; Urgent Q; Time Q 10; SetDetect Q 7 false; Urgent Q; Time Q 30].
Example C42_late :
  fair_run Q line x0 late /\ snd (step Q line (fst (lrun x0 (firstn 2 late))) (AddSensor Q 1)) = [] /\
  red (told 1 7 (snd (lrun x0 late))) = [(9, true); (10, false)].
Proof. split; [apply fair_runb_ok; vm_compute; reflexivity|]. split; vm_compute; reflexivity. Qed.
(** Stopped in range: nothing is told afterwards. *)
Definition halted : list (op Q) :=
  [AddSensor Q 1; Start Q 7 1 [0; 20]; Urgent Q; Time Q 8; Fire Q 0; Time Q 9; Stop Q 7; Urgent Q; Time Q 12; Fire Q 0; Time Q 30].
Example C42_halted :
  fair_run Q line x0 halted /\ red (told 1 7 (snd (lrun x0 halted))) = [(8, true)] /\
  now Q (fst (lrun x0 halted)) == 30.
Proof. split; [apply fair_runb_ok; vm_compute; reflexivity|]. split; vm_compute; reflexivity. Qed.

(** ** Where the statement fails *)
(** A mover that stopped in range and starts again elsewhere is told to enter twice. *)
Definition relocated : list (op Q) :=
  [AddSensor Q 1; Start Q 7 1 [0; 20]; Urgent Q; Time Q 8; Fire Q 0; Time Q 9; Stop Q 7; Urgent Q;
   Start Q 7 1 [0; 20]; Urgent Q; Time Q 17; Fire Q 1].
Theorem C42_relocated_refuted : red (told 1 7 (snd (lrun x0 relocated))) = [(8, true); (17, true)].
Proof. vm_compute. reflexivity. Qed.
(** A motion stopped in the instant it began still tells of its entry, after the stop. *)
Definition aborted : list (op Q) := [AddSensor Q 1; Start Q 7 1 [9; 20]; Stop Q 7].
Theorem C42_same_instant_refuted :
  snd (lrun x0 aborted) = [] /\ movers Q (fst (lrun x0 aborted)) = [] /\
  told 1 7 (snd (lrun (fst (lrun x0 aborted)) [Urgent Q; Urgent Q; Time Q 50])) = [(0, true)].
Proof. split; [|split]; vm_compute; reflexivity. Qed.
(** A sensor that is added again is told everything twice; at the exit the second
    process fails. *)
Definition twice : list (op Q) :=
  [AddSensor Q 1; Start Q 7 1 [0; 20]; Urgent Q; AddSensor Q 1; Urgent Q; Time Q 8; Fire Q 0; Fire Q 1; Time Q 12; Fire Q 0; Fire Q 1].
Theorem C42_added_twice_refuted :
  red (told 1 7 (snd (lrun x0 twice))) = [(8, true); (8, true); (12, false); (12, false)] /\
  last (kinds (snd (lrun x0 twice))) (Entered 0 0) = Crashed MotionErr.
Proof. split; vm_compute; reflexivity. Qed.
(** A sensor that is added in the instant the mover leaves its range: the process that
    was to tell it fails. *)
Definition at_exit : list (op Q) := [Start Q 7 1 [0; 20]; Time Q 12; AddSensor Q 1; Urgent Q].
Theorem C42_at_exit_refuted : kinds (snd (lrun x0 at_exit)) = [Entered 1 7; Crashed MotionErr].
Proof. vm_compute. reflexivity. Qed.
(** A mover that is hidden and shown again on its way cannot be stopped, and nothing is
    told of the rest of its motion. *)
Definition shown : list (op Q) :=
  [AddSensor Q 1; Start Q 7 1 [0; 20]; Urgent Q; Time Q 1; SetDetect Q 7 false; Urgent Q; SetDetect Q 7 true; Time Q 20; Stop Q 7].
Theorem C42_shown_refuted : kinds (snd (lrun x0 shown)) = [Raised MotionErr].
Proof. vm_compute. reflexivity. Qed.

(** What is predicted for a mover and a sensor are pairs, a beginning and an end, of all that
    was collected; anything else raises. *)
Theorem C42_pairs : forall (T : Type) (data : list (kind * T)) l,
  pair_off T data = Ok l <-> data = flat_map (fun c => [fst c; snd c]) l /\
    Forall (fun c => (fst (fst c) = ENTER \/ fst (fst c) = START_INSIDE) /\ (fst (snd c) = EXIT \/ fst (snd c) = END_INSIDE)) l.
Proof.
  intros T. assert (G : forall n data l, (List.length data <= n)%nat -> (pair_off T data = Ok l <-> data = flat_map (fun c => [fst c; snd c]) l /\
    Forall (fun c => (fst (fst c) = ENTER \/ fst (fst c) = START_INSIDE) /\ (fst (snd c) = EXIT \/ fst (snd c) = END_INSIDE)) l)).
  { induction n as [|n IH]; intros [|a [|b data]] l L; cbn [List.length] in L; try lia.
    1,2: split; [intro H; injection H as <-; split; [reflexivity|constructor]|intros [H _]; destruct l as [|? ?]; [reflexivity|discriminate]].
    1: split; [discriminate|intros [H _]; destruct l as [|? ?]; discriminate].
    cbn [pair_off]. destruct (pair_off T data) as [r|e] eqn:E.
    - pose proof (proj1 (IH data r ltac:(lia)) E) as [D F]. split.
      + destruct (valid (fst a) (fst b)) eqn:V; [|discriminate]. intro H. injection H as <-. split; [cbn [flat_map fst snd app]; rewrite D at 1; reflexivity|].
        constructor; [|exact F]. cbn [fst snd]. destruct (fst a), (fst b); try discriminate; auto.
      + intros [H F']. destruct l as [|[a' b'] l]; [discriminate|]. cbn [flat_map fst snd app] in H. injection H as -> -> H. apply Forall_cons_iff in F' as [V F2]. cbn [fst snd] in V.
        assert (R : Ok r = Ok l) by (rewrite <- E; apply (IH data l ltac:(lia)); auto). injection R as ->.
        destruct V as [[-> | ->] [-> | ->]]; reflexivity.
    - split; [discriminate|]. intros [H F']. destruct l as [|[a' b'] l]; [discriminate|]. cbn [flat_map fst snd app] in H. injection H as -> -> H. apply Forall_cons_iff in F' as [V F2].
      assert (R : Err e = Ok l) by (rewrite <- E; apply (IH data l ltac:(lia)); auto). discriminate. }
  intros data l. exact (G (List.length data) data l (le_n _)).
Qed.
Example C42_pairs_ex : pair_off Q [(ENTER, 1); (EXIT, 2); (ENTER, 3); (END_INSIDE, 4)] = Ok [((ENTER, 1), (EXIT, 2)); ((ENTER, 3), (END_INSIDE, 4))] /\ pair_off Q [(EXIT, 1); (ENTER, 2)] = Err SimulationErr.
Proof. split; reflexivity. Qed.
Print Assumptions C42_pairs.
Print Assumptions C42_alternates_partial.
Print Assumptions C42_no_error.
Print Assumptions C42_motion.
Print Assumptions C42_added.
Print Assumptions C42_stopped.
Print Assumptions C42_hide.
Print Assumptions C42_relocated_refuted.
Print Assumptions C42_same_instant_refuted.
Print Assumptions C42_added_twice_refuted.
Print Assumptions C42_at_exit_refuted.
Print Assumptions C42_shown_refuted.

Print Assumptions C42_orderly_started.
Print Assumptions C42_orderly_added.
