(** What the stepped motion manager looks at: C125, C126. *)
From Coq Require Import String.
From Verif Require Import Common WatchModel WatchSpec WatchProofs.
Local Open Scope string_scope.

Section Props.
Variable L : Type.
Variable dist : L -> L -> Q.
Notation step := (step L dist). Notation run := (run L dist). Notation init := (init L).

(** A sensor is accepted exactly if it has the two methods and the two attributes; without
    the methods the error is NotImplementedError, without the attributes SimulationError,
    and then nothing is changed. *)
Theorem C125_sensors : forall w s rn ln, let e := ents L w s in let r := step w (AddSensor L s rn ln) in
  (snd r = Did <-> o_enter L e = true /\ o_exit L e = true /\ there L e rn /\ there L e ln)
  /\ (snd r = Raised NotImplemented <-> o_enter L e = false \/ o_exit L e = false)
  /\ (snd r = Did \/ snd r = Raised NotImplemented \/ snd r = Raised SimulationErr)
  /\ (snd r <> Did -> fst r = w).
Proof.
  intros w s rn ln e r. unfold r, e.
  destruct (sensor_out L dist w s rn ln) as [(A & B & C & D & ->)|[(A & ->)|(A & B & C & ->)]]; cbn [fst snd].
  - repeat split; auto; try discriminate; try congruence. intros [H|H]; congruence.
  - repeat split; auto; try discriminate; intros (X & Y & _); destruct A; congruence.
  - repeat split; auto; try discriminate; try (intros (_ & _ & X & Y); tauto). intros [H|H]; congruence.
Qed.

(** A target is accepted exactly if it has the attribute, and no more than one
    detectability state, which has a value; otherwise the error is SimulationError and
    nothing is changed. *)
Theorem C125_targets : forall w d ln q, let e := ents L w d in let r := step w (AddTarget L d ln q) in
  names_once L e ->
  (snd r = Did <-> there L e ln /\ one_detectability L e /\ forall n, of_class L e SDetect n -> there L e n)
  /\ (snd r = Did \/ snd r = Raised SimulationErr)
  /\ (snd r <> Did -> fst r = w).
Proof.
  intros w d ln q e r N. unfold r. cbn [step WatchModel.step].
  destruct (target_out L w d ln q N) as [(R & ->)|(R & ->)]; cbn [fst snd as_out].
  - split; [split; [intros _; exact R|reflexivity]|]. split; [auto|congruence].
  - split; [split; [discriminate|intros H; destruct (R H)]|]. split; auto.
Qed.

(** An actor that starts to move and is not registered is so at its first geodetic state,
    if it has one, or its first Cartesian one; this fails only if there is no such state,
    or states have no value, or there is more than one detectability state. *)
Theorem C125_movers : forall w m mv, let e := ents L w m in let r := step w (StartMover L m mv) in
  names_once L e ->
  (nget m (targets L w) <> None -> r = (w, Did))
  /\ (nget m (targets L w) = None ->
      (forall n, moves_at L e n -> one_detectability L e -> (forall k x, of_class L e k x -> there L e x) ->
         r = (mkW L (ents L w) (sensors L w) (nset m n (targets L w)), Did))
      /\ (snd r = Did -> exists n, moves_at L e n /\ there L e n /\ one_detectability L e)
      /\ (snd r = Did \/ snd r = Raised SimulationErr)
      /\ (snd r <> Did -> fst r = w)).
Proof.
  intros w m mv e r N. unfold r. cbn [step WatchModel.step]. split.
  - intros Q. unfold start_mover. destruct (nget m (targets L w)); [reflexivity|congruence].
  - intros Q. destruct (start_out L w m N Q) as [(n & (M & R & A) & ->)|(Z & ->)]; cbn [fst snd as_out].
    + split; [intros n' M' _ _; rewrite (moves_one L _ _ _ M' M); reflexivity|].
      split; [intros _; exists n; destruct R as (R1 & R2 & _); auto|]. split; [auto|congruence].
    + split; [|split; [discriminate|auto]]. intros n M O T. destruct (Z n). split; [exact M|]. split.
      * split; [|split; [exact O|intros x X; exact (T _ x X)]].
        destruct M as [M|[_ M]]; exact (T _ n (first_class L _ _ _ M)).
      * intros x [X|X]; exact (T _ x (first_class L _ _ _ X)).
Qed.

(** After any history, a check compares each registered sensor once with each other
    registered target that can be seen, by the attributes named in their latest
    registrations and with the values these have now. *)
Theorem C125_checked : forall es ops, (forall k, names_once L (es k)) ->
  let w := fst (run (init es) ops) in let h := rev (snd (run (init es) ops)) in
  (forall s rn ln, sensing L s h = Some (rn, ln) -> number L (ents L w s) rn /\ place L (ents L w s) ln) ->
  (forall d dn, watched L es d h dn -> place L (ents L w d) dn /\ boolean L (ents L w d)) ->
  exists l, step w (Check L None) = (w, Saw l) /\ NoDup (map fst l)
    /\ forall s d b, In (s, d, b) l <->
         s <> d /\ can_be_seen L (ents L w d)
         /\ exists rn ln dn, sensing L s h = Some (rn, ln) /\ watched L es d h dn
            /\ (b = true <-> in_range L dist (ents L w) s d rn ln dn).
Proof.
  intros es ops N w h S T.
  assert (inv L es h w) as I.
  { apply (inv_after L dist); [exact N|]. unfold h, w. rewrite <- (app_nil_r (rev _)). apply run_after. constructor. }
  assert (sorted_ok L w) as SO.
  { split; [intros s rn ln H; apply S; rewrite <- (i_sens L es h w I); exact H|].
    intros d n H. apply T, (i_targ L es h w I), H. }
  exists (pairs L dist w (map fst (targets L w))). split; [|split].
  - cbn [step WatchModel.step]. rewrite (run_pairs L dist es h w None N I SO); [reflexivity|auto].
  - apply pairs_once; [apply (i_skeys L es h w I)|apply (i_tkeys L es h w I)].
  - intros s d b. rewrite (pairs_in L dist es h w _ N I SO); [|auto]. split; [tauto|].
    intros (A & B & rn & ln & dn & C & D & E). split.
    + apply nget_key. apply (i_targ L es h w I) in D. congruence.
    + split; [exact A|]. split; [exact B|]. exists rn, ln, dn. auto.
Qed.

(** The same of a check of one target, as is made when it becomes detectable *)
Theorem C125_one : forall es ops d0, (forall k, names_once L (es k)) ->
  let w := fst (run (init es) ops) in let h := rev (snd (run (init es) ops)) in
  (forall s rn ln, sensing L s h = Some (rn, ln) -> number L (ents L w s) rn /\ place L (ents L w s) ln) ->
  (forall d dn, watched L es d h dn -> place L (ents L w d) dn /\ boolean L (ents L w d)) ->
  (exists dn, watched L es d0 h dn) ->
  exists l, step w (Check L (Some [d0])) = (w, Saw l) /\ NoDup (map fst l)
    /\ forall s d b, In (s, d, b) l <->
         d = d0 /\ s <> d /\ can_be_seen L (ents L w d)
         /\ exists rn ln dn, sensing L s h = Some (rn, ln) /\ watched L es d h dn
            /\ (b = true <-> in_range L dist (ents L w) s d rn ln dn).
Proof.
  intros es ops d0 N w h S T [dn0 W].
  assert (inv L es h w) as I.
  { apply (inv_after L dist); [exact N|]. unfold h, w. rewrite <- (app_nil_r (rev _)). apply run_after. constructor. }
  assert (sorted_ok L w) as SO.
  { split; [intros s rn ln H; apply S; rewrite <- (i_sens L es h w I); exact H|].
    intros d n H. apply T, (i_targ L es h w I), H. }
  assert (forall d, In d [d0] -> In d (map fst (targets L w))) as R.
  { intros d [<-|[]]. apply nget_key. apply (i_targ L es h w I) in W. congruence. }
  exists (pairs L dist w [d0]). split; [|split].
  - cbn [step WatchModel.step]. rewrite (run_pairs L dist es h w (Some [d0]) N I SO); [reflexivity|exact R].
  - apply pairs_once; [apply (i_skeys L es h w I)|]. constructor; [intros []|constructor].
  - intros s d b. rewrite (pairs_in L dist es h w _ N I SO); [|exact R]. cbn [In].
    split; intros (A & H); (split; [|exact H]); [destruct A as [->|[]]; reflexivity|left; congruence].
Qed.

(** ** A target is watched where it moves, at the rate asked for *)
(** Missing: actors with more than one location state, those registered before under
    another attribute, and rates. *)
Theorem C126_watched_partial : forall es ops m mv, (forall k, names_once L (es k)) ->
  let w := fst (run (init es) ops) in let h := rev (snd (run (init es) ops)) in
  (of_class L (es m) SGeo mv \/ of_class L (es m) SCart mv) ->
  (forall n, of_class L (es m) SGeo n \/ of_class L (es m) SCart n -> n = mv) ->
  (forall n, watched L es m h n -> n = mv) ->
  snd (step w (StartMover L m mv)) = Did -> forall n, watched L es m ((StartMover L m mv, Did) :: h) n <-> n = mv.
Proof.
  intros es ops m mv N w h O U W D n. cbn [watched]. rewrite Nat.eqb_refl.
  assert (inv L es h w) as I.
  { apply (inv_after L dist); [exact N|]. unfold h, w. rewrite <- (app_nil_r (rev _)). apply run_after. constructor. }
  assert (moves_at L (es m) mv) as M.
  { pose proof (find_first L (es m) SGeo) as FG. destruct (find _ _) as [[n' k']|].
    - destruct FG as [_ FG]. rewrite <- (U n' (or_introl (first_class L _ _ _ FG))). left. exact FG.
    - right. split; [exact FG|]. destruct O as [O|O]; [destruct (FG mv O)|].
      pose proof (find_first L (es m) SCart) as FC. destruct (find _ _) as [[n' k']|]; [|destruct (FC mv O)].
      destruct FC as [_ FC]. rewrite <- (U n' (or_intror (first_class L _ _ _ FC))). exact FC. }
  split.
  - intros [X|[_ X]]; [exact (W n X)|exact (moves_one L _ _ _ X M)].
  - intros ->. destruct (nget m (targets L w)) as [k|] eqn:Q.
    + left. apply (i_targ L es h w I) in Q. rewrite (W k Q) in Q. exact Q.
    + right. split; [intros k K; apply (i_targ L es h w I) in K; congruence|exact M].
Qed.
(** The rate asked for makes no difference. *)
Theorem C126_rate_refuted : forall w d ln q, step w (AddTarget L d ln (Some q)) = step w (AddTarget L d ln None).
Proof. reflexivity. Qed.
End Props.

(** Places on a line *)
Definition line (a b : Q) : Q := if Qleb a b then b - a else a - b.
(** Entity 0: a sensor with radius 5 at 0; 1: an actor with two Cartesian states at 50 and
    60 and a detectability state; others: nothing *)
Definition world (k : nat) : ent Q :=
  match k with
  | 0%nat => mkE Q None [("reach", VNum Q 5); ("at", VLoc Q 0)] true true None
  | 1%nat => mkE Q (Some [("body", SCart); ("decoy", SCart); ("shown", SDetect)])
                 [("body", VLoc Q 50); ("decoy", VLoc Q 60); ("shown", VBool Q true)] false false None
  | _ => mkE Q None [] true false None
  end.
Notation wrun := (fun ops => map snd (snd (run Q line (init Q world) ops))).

Example C125_example :
  wrun [AddSensor Q 2 "reach" "at"; AddSensor Q 1 "reach" "at"; AddSensor Q 0 "reach" "there"; AddTarget Q 1 "tail" None;
        AddSensor Q 0 "reach" "at"; AddTarget Q 1 "decoy" (Some 1); Check Q None;
        SetAttr Q 1 "decoy" (VLoc Q 4); Check Q None; SetAttr Q 1 "shown" (VBool Q false); Check Q None;
        SetAttr Q 1 "shown" (VBool Q true); AddTarget Q 1 "body" None; Check Q (Some [1%nat]); StopMover Q 1; Check Q None]
  = [Raised NotImplemented; Raised NotImplemented; Raised SimulationErr; Raised SimulationErr;
     Did; Did; Saw [(0%nat, 1%nat, false)]; Did; Saw [(0%nat, 1%nat, true)]; Did; Saw [];
     Did; Did; Saw [(0%nat, 1%nat, false)]; Did; Saw []].
Proof. reflexivity. Qed.
Example C125_movers_example :
  wrun [StartMover Q 0 "at"; AddSensor Q 0 "reach" "at"; StartMover Q 1 "body"; SetAttr Q 1 "body" (VLoc Q 3); Check Q None]
  = [Raised SimulationErr; Did; Did; Did; Saw [(0%nat, 1%nat, true)]].
Proof. reflexivity. Qed.
Example C125_names : forall k, names_once Q (world k).
Proof.
  intros [|[|k]]; unfold names_once; cbn; repeat constructor; cbn; intuition discriminate.
Qed.

(** An actor that moves in its second location state is looked at where its first one is:
    it comes into range and is not seen. *)
Theorem C126_where_refuted : exists ops,
  wrun (ops ++ [Check Q None])%list = [Did; Did; Did; Saw [(0%nat, 1%nat, false)]]
  /\ ops = [AddSensor Q 0 "reach" "at"; StartMover Q 1 "decoy"; SetAttr Q 1 "decoy" (VLoc Q 1)].
Proof. eexists. split; [|reflexivity]. reflexivity. Qed.
(** One that was registered by the user for good is forgotten when it has moved. *)
Theorem C126_kept_refuted : exists ops,
  wrun (ops ++ [Check Q None])%list = [Did; Did; Did; Did; Did; Saw []]
  /\ ops = [AddSensor Q 0 "reach" "at"; AddTarget Q 1 "body" None; StartMover Q 1 "body"; SetAttr Q 1 "body" (VLoc Q 1);
            StopMover Q 1].
Proof. eexists. split; [|reflexivity]. reflexivity. Qed.

Print Assumptions C125_sensors.
Print Assumptions C125_targets.
Print Assumptions C125_movers.
Print Assumptions C125_checked.
Print Assumptions C125_one.
Print Assumptions C126_watched_partial.
Print Assumptions C126_rate_refuted.
Print Assumptions C126_where_refuted.
Print Assumptions C126_kept_refuted.
