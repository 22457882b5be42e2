(** C47, C48, C66: contexts and stage, entity groups, recorded data. *)
From Coq Require Import String Permutation.
From Verif Require Import Common NetModel NetProofs CtxModel CtxSpec CtxProofs.
Open Scope string_scope.
Open Scope list_scope.

Section Props.
Variable V : Type.
Variable cs : list cdef.
Variable order : list string -> list string.
Variable eqv : nat -> nat -> bool.
Notation step := (step V cs order eqv).
Notation run := (run V cs order eqv).
Notation trace := (trace V cs order eqv).
Notation init := (init V).

(** *** C47: contexts and stage *)

(** Whatever was done before, and whatever well nested use is made of contexts
    inside an inner one, leaving it succeeds and everything one can observe of the
    outer context is as before. *)
Theorem C47_restore before c t rng body o :
  nested V body -> ~ In c (entered V body) -> observes V o = true ->
  let s := run init before in
  snd (step (run s (OEnter c t rng :: body)) (OExit c)) = XOk /\
  snd (step (run s (OEnter c t rng :: body ++ [OExit c])) o) = snd (step s o).
Proof.
  intros N Hc O s. split; [apply exit_ok; assumption|].
  destruct (refs_run V cs order eqv before init (refs_init V)) as [(R1 & R2 & R3 & R4) _]. fold s in R1, R2, R3, R4.
  destruct (inner_untouched V cs order eqv s c t rng body N Hc) as (U1 & U2 & U3 & U4 & U5).
  set (s' := run s (OEnter c t rng :: body ++ [OExit c])) in *.
  assert (D : forall X (r : option nat) (h h' : list X), ok_ref r h -> (forall i, (i < List.length h)%nat -> nth_error h' i = nth_error h i) ->
    deref r h' = deref r h).
  { intros X [r|] h h' Or Oh; cbn; [|reflexivity]. apply Oh. apply Or. reflexivity. }
  destruct o; try discriminate O; cbn [CtxModel.step]; rewrite U1.
  - destruct (v_stage (s_vars s)) as [r|] eqn:E; [|reflexivity].
    assert (Q : nth r (s_stages s') [] = nth r (s_stages s) []).
    { pose proof (R4 r eq_refl) as L. destruct (nth_error (s_stages s) r) as [d|] eqn:Ed; [|apply nth_error_None in Ed; lia].
      rewrite (nth_of_error _ _ _ _ Ed). apply nth_of_error. rewrite U5 by exact L. exact Ed. }
    rewrite Q. destruct (sget k _); reflexivity.
  - reflexivity.
  - cbn [snd]. rewrite (D _ _ _ _ R1 U2). reflexivity.
  - cbn [snd]. rewrite (D _ _ _ _ R2 U3). reflexivity.
  - cbn [snd]. rewrite (D _ _ _ _ R2 U3). reflexivity.
  - cbn [snd]. rewrite (D _ _ _ _ R3 U4). reflexivity.
  - cbn [snd]. rewrite (D _ _ _ _ R3 U4). reflexivity.
  - cbn [snd]. rewrite (D _ _ _ _ R2 U3). reflexivity.
Qed.
(** A new context is empty: a new environment at its initial time, no actors, groups,
    data, nothing on the stage but the random generator. *)
Theorem C47_fresh before c t rng k :
  let s := run init before in let s' := fst (step s (OEnter c t rng)) in
  (exists e, snd (step s' OEnv) = XEnv e /\ snd (step s OEnv) <> XEnv e) /\
  snd (step s' ONow) = XTime t /\ snd (step s' OActors) = XEnts [] /\ snd (step s' OMonitored) = XEnts [] /\
  snd (step s' OGroups) = XGroups [] /\ snd (step s' ORecorded) = XData [] /\
  snd (step s' (OGet "random")) = XVal rng /\ (k <> "random" -> snd (step s' (OGet k)) = XUpstageErr).
Proof.
  intros s s'.
  destruct (refs_run V cs order eqv before init (refs_init V)) as [(R1 & _) _]. fold s in R1.
  subst s'. cbn [CtxModel.step fst snd enter s_vars v_env v_special v_entity v_stage s_envs s_specials s_entities s_stages].
  assert (N : forall X (h : list X) x, deref (Some (List.length h)) (h ++ [x]) = Some x).
  { intros X h x. cbn. rewrite nth_error_app2, Nat.sub_diag by lia. reflexivity. }
  assert (N' : forall X (h : list X) x d, nth (List.length h) (h ++ [x]) d = x).
  { intros X h x d. rewrite app_nth2, Nat.sub_diag by lia. reflexivity. }
  rewrite !N, !N'. split.
  - exists (List.length (s_envs s)). split; [reflexivity|]. destruct (v_env (s_vars s)) as [e|]; [|discriminate].
    intros [= E]. pose proof (R1 e eq_refl). lia.
  - repeat (split; [reflexivity|]). intro H. cbn [sget]. apply String.eqb_neq in H. rewrite String.eqb_sym in H. rewrite H. reflexivity.
Qed.
(** In a context, at any point of well nested use, a stage variable has the value of
    the first addition made in that context itself, cannot be added again, and is
    unknown before.  ([stage[k] = v] and [del stage.k] for this k excepted; names of
    dict attributes excepted.) *)
Theorem C47_stage_partial before c t rng body k w :
  nested V body -> forallb (respects V k) (own V 0 body) = true -> ~ In k dict_attrs ->
  let s := run init (before ++ OEnter c t rng :: body) in
  match (if String.eqb "random" k then Some rng else first_added V k (own V 0 body)) with
  | Some v => snd (step s (OGet k)) = XVal v /\ step s (OAdd k w) = (s, XUpstageErr) /\ step s (OAttr k w) = (s, XAttrErr)
  | None => snd (step s (OGet k)) = XUpstageErr /\ snd (step s (OAdd k w)) = XOk /\ snd (step s (OAttr k w)) = XOk
  end.
Proof.
  intros N R K s. subst s. rewrite run_app. set (s0 := run init before). cbn [CtxModel.run].
  set (s1 := fst (step s0 (OEnter c t rng))).
  assert (Hs : v_stage (s_vars s1) = Some (List.length (s_stages s0))) by reflexivity.
  assert (He : v_entity (s_vars s1) <> None) by discriminate.
  assert (L : (List.length (s_stages s0) < List.length (s_stages s1))%nat) by (cbn; rewrite app_length; cbn; lia).
  pose proof (nested_stage V cs order eqv body N s1 _ k He Hs L R) as E. unfold stg in E.
  assert (E0 : sget k (nth (List.length (s_stages s0)) (s_stages s1) []) = if String.eqb "random" k then Some rng else None).
  { cbn. rewrite app_nth2, Nat.sub_diag by lia. cbn. reflexivity. }
  rewrite E0 in E. destruct (nested_run V cs order eqv body N s1 He) as (A1 & _).
  set (s2 := run s1 body) in *. cbn [CtxModel.step]. rewrite A1, Hs. cbv zeta.
  assert (SM : smem k dict_attrs = false) by (apply smem_not; exact K).
  destruct (String.eqb "random" k).
  - rewrite E, SM. auto.
  - rewrite E. destruct (first_added V k (own V 0 body)); [rewrite SM|]; auto.
Qed.
(** Outside contexts there is no stage, environment or listing. *)
Theorem C47_outside os k v :
  nested V os -> let s := run init os in
  step s (OAdd k v) = (s, XValueErr) /\ step s (OGet k) = (s, XValueErr) /\ step s OEnv = (s, XUpstageErr) /\
  step s OActors = (s, XUpstageErr) /\ step s ORecorded = (s, XUpstageErr).
Proof.
  intros N s. destruct (outside V cs order eqv os N init (refs_init V)) as (A & B & C); try reflexivity.
  fold s in A, B, C. cbn [CtxModel.step]. rewrite A, B, C. auto.
Qed.

(** *** C48: groups *)
Section Listing.
Hypothesis distinct : forall x y, eqv x y = false.
Hypothesis mro : mro_ok cs.
Hypothesis perm : forall l, Permutation (order l) l.

(** In any run, with any hierarchy of classes: a group lists exactly the entities made
    in the current context whose class hierarchy declares it, once each, in the
    order made.  Clones and entities whose constructor raised are among them. *)
Theorem C48_groups os g r :
  let s := run init os in
  v_entity (s_vars s) = Some r ->
  snd (step s (OGroup g)) = XEnts (members V cs r g (trace init os)) /\
  NoDup (members V cs r g (trace init os)).
Proof.
  intros s H. pose proof (inv_reach V cs order eqv distinct mro perm os) as I. fold s in I.
  split.
  - cbn [CtxModel.step snd]. rewrite H. cbn [deref].
    destruct I as ((_ & _ & O & _) & _ & _ & _ & _ & I & _). rewrite <- (I r g). unfold grp.
    destruct (nth_error (s_entities s) r) eqn:E; [reflexivity|]. apply nth_error_None in E. specialize (O r H). lia.
  - apply (sub_nodup V (fun t e => same (v_entity (s_vars (snd t))) r && in_group cs (class_of V cs (snd t) e) g && negb (smem g SKIP_GROUPS))).
    apply (made_sorted V cs order eqv distinct mro perm os init []). apply inv_init.
Qed.
(** get_actors lists exactly the actors made in the current context, once each. *)
Theorem C48_actors os r :
  let s := run init os in
  v_special (s_vars s) = Some r ->
  snd (step s OActors) = XEnts (specials V cs is_actor r (trace init os)) /\
  NoDup (specials V cs is_actor r (trace init os)) /\
  snd (step s OMonitored) = XEnts (specials V cs is_monitored r (trace init os)) /\
  NoDup (specials V cs is_monitored r (trace init os)).
Proof.
  intros s H. pose proof (inv_reach V cs order eqv distinct mro perm os) as I. fold s in I.
  assert (ND : forall f, NoDup (specials V cs f r (trace init os))).
  { intro f. apply (sub_nodup V (fun t e => same (v_special (s_vars (snd t))) r && f (kind_of V cs (snd t) e))).
    apply (made_sorted V cs order eqv distinct mro perm os init []). apply inv_init. }
  destruct I as ((_ & O & _) & _ & _ & _ & _ & _ & I). specialize (I r). specialize (O r H).
  cbn [CtxModel.step snd]. rewrite H. cbn [deref].
  destruct (nth_error (s_specials s) r) as [p|] eqn:E; [|apply nth_error_None in E; lia].
  destruct I as (-> & -> & _). auto.
Qed.
(** Making an entity in a context goes through. *)
Theorem C48_created os cls ok :
  let s := run init os in
  nth_error cs cls <> None -> v_special (s_vars s) <> None ->
  snd (step s (OCreate cls ok)) = (if ok then XMade (s_next s) else XInitErr (s_next s)).
Proof.
  intros s Hc Hs. pose proof (inv_reach V cs order eqv distinct mro perm os) as I. fold s in I.
  destruct (nth_error cs cls) as [c|] eqn:E; [|congruence]. destruct I as (I1 & I2 & I3 & I4 & I5 & _).
  destruct (create_spec V cs order eqv distinct mro perm s cls c ok E I1 I4 I5) as (_ & _ & _ & _ & _ & _ & _ & _ & _ & _ & _ & _ & _ & A).
  cbn [CtxModel.step]. apply A. exact Hs.
Qed.
(** So an actor whose constructor raises (a state missing, say) stays listed, and so
    does each clone made for a rehearsal, in the lists of the real simulation. *)
Theorem C48_ghosts os cls c r e0 :
  let s := run init os in
  v_special (s_vars s) = Some r -> nth_error cs cls = Some c -> c_kind c = KActor -> nth_error (s_class s) e0 = Some cls ->
  (exists l, snd (step (fst (step s (OCreate cls false))) OActors) = XEnts (l ++ [s_next s])) /\
  (exists l, snd (step (fst (step s (OClone e0))) OActors) = XEnts (l ++ [s_next s])).
Proof.
  intros s H Ec Ek E0. pose proof (inv_reach V cs order eqv distinct mro perm os) as I. fold s in I.
  destruct I as (I1 & I2 & I3 & I4 & I5 & _).
  assert (X : forall ok, exists l, snd (step (fst (create V cs order eqv s cls ok)) OActors) = XEnts (l ++ [s_next s])).
  { intro ok. destruct (create_spec V cs order eqv distinct mro perm s cls c ok Ec I1 I4 I5) as (_ & _ & _ & _ & _ & _ & _ & C8 & _ & _ & _ & _ & C13 & _).
    cbn [CtxModel.step snd]. rewrite C8, H. cbn [deref]. rewrite C13, H, Ek.
    destruct (nth_error (s_specials s) r) as [p|] eqn:E; [|apply nth_error_None in E; destruct I1 as (_ & O & _); specialize (O r H); lia].
    cbn. rewrite Nat.eqb_refl. cbn. eauto. }
  split; [apply X|]. cbn [CtxModel.step]. rewrite E0. apply X.
Qed.

(** *** C66: recorded data *)
(** get_recorded_data gives the data recorded in the current context, in order, with
    the times. *)
Theorem C66_recorded os r :
  let s := run init os in
  v_special (s_vars s) = Some r -> snd (step s ORecorded) = XData (recorded V r (trace init os)).
Proof.
  intros s H. pose proof (inv_reach V cs order eqv distinct mro perm os) as I. fold s in I.
  destruct I as ((_ & O & _) & _ & _ & _ & _ & _ & I). specialize (I r). specialize (O r H).
  cbn [CtxModel.step snd]. rewrite H. cbn [deref].
  destruct (nth_error (s_specials s) r) as [p|] eqn:E; [|apply nth_error_None in E; lia].
  destruct I as (_ & _ & ->). reflexivity.
Qed.
(** Recording is refused only outside contexts. *)
Theorem C66_refused os v :
  let s := run init os in
  nested V os -> step s (ORecord v) = (s, XLookupErr).
Proof.
  intros s N. destruct (outside V cs order eqv os N init (refs_init V)) as (A & B & C); try reflexivity.
  fold s in B. cbn [CtxModel.step]. rewrite B. reflexivity.
Qed.
(** Inside a context nothing recorded is refused, and it is added behind what was there with
    the time it is. *)
Theorem C66_accepted os v t :
  let s := run init os in
  snd (step s ONow) = XTime t ->
  exists l, snd (step s ORecorded) = XData l /\ snd (step s (ORecord v)) = XOk /\
    snd (step (fst (step s (ORecord v))) ORecorded) = XData (l ++ [(t, v)]).
Proof.
  intros s H. cbn [CtxModel.step snd] in H. destruct (deref (v_env (s_vars s)) (s_envs s)) as [now|] eqn:D; [|discriminate]. injection H as ->.
  destruct (pairs_run V cs order eqv os init (refs_init V) (pairs_init V)) as [P _]. fold s in P.
  destruct (refs_run V cs order eqv os init (refs_init V)) as [(_ & O & _) _]. fold s in O.
  destruct (v_special (s_vars s)) as [r|] eqn:E; [|apply P in E; rewrite E in D; discriminate]. specialize (O r eq_refl).
  destruct (nth_error (s_specials s) r) as [p|] eqn:N; [|apply nth_error_None in N; lia].
  exists (p_recorded p). cbn [CtxModel.step snd]. rewrite E. cbn [deref]. rewrite N, D. cbn. rewrite E. cbn [deref]. rewrite set_nth_get, N, Nat.eqb_refl. cbn. auto.
Qed.
End Listing.
End Props.

(** *** Examples *)
Definition ex_classes : list cdef :=
  [ mkC "Actor" [] true false [] KActor;
    mkC "Person" ["VIP"; "Person"] true false [0%nat] KActor;
    mkC "Worker" [] true true [0%nat] KActor;
    mkC "Doctor" ["Hospital"] true false [1%nat; 2%nat; 0%nat] KActor;
    mkC "Hidden" ["Secret"] false false [3%nat; 1%nat; 2%nat; 0%nat] KActor;
    mkC "Seen" [] true false [4%nat; 3%nat; 1%nat; 2%nat; 0%nat] KActor ].
Definition no_eq (x y : nat) : bool := false.
Definition same_order (l : list string) : list string := l.
Notation ex_step := (step Z ex_classes same_order no_eq).
Notation ex_run := (run Z ex_classes same_order no_eq (init Z)).
Example ex_mro : mro_ok ex_classes.
Proof.
  intros c d b H Hb.
  destruct c as [|[|[|[|[|[|c]]]]]]; cbn in H; try (injection H as <-; cbn in Hb);
    try (destruct Hb as [Hb|Hb]); try (destruct Hb as [Hb|Hb]); try (destruct Hb as [Hb|Hb]); try (destruct Hb as [Hb|Hb]); try (destruct Hb as [Hb|Hb]);
    try contradiction; try (subst b; split; [lia|]; intros d' b' Hd Hb'; cbn in Hd; injection Hd as <-; cbn in Hb' |- *; intuition (subst; auto 10)).
  destruct c; discriminate.
Qed.
(** An outer and an inner context, each with its own people and stage. *)
Definition ex_ops : list (op Z) :=
  [ OEnter 0 (0 # 1) 100%Z; OAdd "alpha" 1%Z; OCreate 1 true; OTime (5 # 1); ORecord 7%Z; OCreate 3 true ].
Definition ex_inner : list (op Z) :=
  [ OAdd "alpha" 2%Z; OCreate 3 true; OEnter 2 (1 # 1) 0%Z; OCreate 1 false; OExit 2; ORecord 8%Z ].
Example C47_example :
  nested Z ex_inner /\ ~ In 1%nat (entered Z ex_inner) /\
  snd (ex_step (ex_run ex_ops) (OGet "alpha")) = XVal 1%Z /\
  snd (ex_step (ex_run (ex_ops ++ OEnter 1 (3 # 1) 50%Z :: ex_inner)) (OGet "alpha")) = XVal 2%Z /\
  snd (ex_step (ex_run (ex_ops ++ OEnter 1 (3 # 1) 50%Z :: ex_inner)) ONow) = XTime (3 # 1) /\
  snd (ex_step (ex_run (ex_ops ++ OEnter 1 (3 # 1) 50%Z :: ex_inner ++ [OExit 1])) ONow) = XTime (5 # 1) /\
  snd (ex_step (ex_run (ex_ops ++ OEnter 1 (3 # 1) 50%Z :: ex_inner ++ [OExit 1])) OActors) = XEnts [0%nat; 1%nat].
Proof.
  split.
  - repeat (apply N_op; [reflexivity|]). apply (N_with Z 2 (1 # 1) 0%Z [OCreate 1 false] [ORecord 8%Z]).
    + apply N_op; [reflexivity|constructor].
    + intros [].
    + apply N_op; [reflexivity|constructor].
  - split; [cbn; intuition lia|]. repeat (split; [vm_compute; reflexivity|]). vm_compute; reflexivity.
Qed.
Example C48_example :
  snd (ex_step (ex_run (ex_ops ++ [OCreate 2 true; OCreate 4 true; OCreate 5 true; OClone 0])) OGroups) =
    XGroups [("VIP", [0; 1; 4; 5]%nat); ("Person", [0; 1; 4; 5]%nat); ("Hospital", [1; 4]%nat); ("Doctor", [1; 4]%nat); ("Seen", [4%nat])] /\
  snd (ex_step (ex_run (ex_ops ++ [OCreate 2 true; OCreate 4 true; OCreate 5 true; OClone 0])) OActors) = XEnts [0; 1; 2; 3; 4; 5]%nat.
Proof. split; vm_compute; reflexivity. Qed.
Example C66_example :
  snd (ex_step (ex_run (ex_ops ++ OEnter 1 (3 # 1) 50%Z :: ex_inner)) ORecorded) = XData [((3 # 1), 8%Z)] /\
  snd (ex_step (ex_run (ex_ops ++ OEnter 1 (3 # 1) 50%Z :: ex_inner ++ [OExit 1; OTime (6 # 1); ORecord 9%Z])) ORecorded) =
    XData [((5 # 1), 7%Z); ((6 # 1), 9%Z)].
Proof. split; vm_compute; reflexivity. Qed.
Example C66_now_ex : snd (ex_step (ex_run (ex_ops ++ OEnter 1 (3 # 1) 50%Z :: ex_inner)) ONow) = XTime (3 # 1).
Proof. vm_compute. reflexivity. Qed.

(** *** Where the statements fail *)

(** A stage variable can be overwritten with [stage["alpha"] = 2] or deleted and added
    again, and one named like a method of dict cannot be read. *)
Theorem C47_overwritten_refuted :
  snd (ex_step (ex_run [OEnter 0 (0 # 1) 0%Z; OAdd "alpha" 1%Z; OItem "alpha" 2%Z]) (OGet "alpha")) = XVal 2%Z /\
  snd (ex_step (ex_run [OEnter 0 (0 # 1) 0%Z; OAdd "alpha" 1%Z; ODel "alpha"; OAdd "alpha" 3%Z]) (OGet "alpha")) = XVal 3%Z /\
  snd (ex_step (ex_run [OEnter 0 (0 # 1) 0%Z]) (OAdd "items" 1%Z)) = XOk /\
  snd (ex_step (ex_run [OEnter 0 (0 # 1) 0%Z; OAdd "items" 1%Z]) (OGet "items")) = XMethod.
Proof. repeat split; vm_compute; reflexivity. Qed.
(** An EnvironmentContext object entered again while open: its second exit raises and
    the context stays current. *)
Theorem C47_reentered_refuted :
  let os := [OEnter 0 (0 # 1) 0%Z; OAdd "alpha" 1%Z; OEnter 0 (0 # 1) 0%Z; OExit 0] in
  snd (ex_step (ex_run os) (OExit 0)) = XRuntimeErr /\
  snd (ex_step (ex_run (os ++ [OExit 0])) (OGet "alpha")) = XVal 1%Z.
Proof. split; vm_compute; reflexivity. Qed.
(** Entities made outside of contexts appear in a listing that then stays. *)
Theorem C48_outside_refuted :
  let cs := [mkC "Sensor" ["RADAR"] true false [] KPlain] in
  snd (step Z cs same_order no_eq (run Z cs same_order no_eq (init Z)
    [OCreate 0 true; OEnter 0 (0 # 1) 0%Z; OExit 0]) (OGroup "RADAR")) = XEnts [0%nat].
Proof. vm_compute. reflexivity. Qed.
(** Two entities that compare equal (a class with __eq__): the second cannot be made,
    though it may already be listed in one of its groups. *)
Theorem C48_equal_refuted :
  let cs := [mkC "Spot" ["A"] true false [] KPlain; mkC "Spot2" ["B"] true false [0%nat] KPlain] in
  let eqv := fun x y : nat => true in
  let s := run Z cs same_order eqv (init Z) [OEnter 0 (0 # 1) 0%Z; OCreate 0 true] in
  snd (step Z cs same_order eqv s (OCreate 1 true)) = XUpstageErr /\
  snd (step Z cs same_order eqv (fst (step Z cs same_order eqv s (OCreate 1 true))) (OGroup "B")) = XEnts [1%nat].
Proof. split; vm_compute; reflexivity. Qed.
(** A group that happens to be called Task is never filled. *)
Theorem C48_skipped_refuted :
  let cs := [mkC "Job" ["Task"; "Work"] true false [] KPlain] in
  let s := run Z cs same_order no_eq (init Z) [OEnter 0 (0 # 1) 0%Z; OCreate 0 true] in
  in_group cs 0 "Task" = true /\ snd (step Z cs same_order no_eq s (OGroup "Task")) = XEnts [] /\
  snd (step Z cs same_order no_eq s (OGroup "Work")) = XEnts [0%nat].
Proof. repeat split; vm_compute; reflexivity. Qed.

Print Assumptions C47_restore.
Print Assumptions C47_fresh.
Print Assumptions C47_stage_partial.
Print Assumptions C47_outside.
Print Assumptions C48_groups.
Print Assumptions C48_actors.
Print Assumptions C48_created.
Print Assumptions C48_ghosts.
Print Assumptions C66_recorded.
Print Assumptions C66_refused.
Print Assumptions C47_overwritten_refuted.
Print Assumptions C47_reentered_refuted.
Print Assumptions C48_outside_refuted.
Print Assumptions C48_equal_refuted.
Print Assumptions C48_skipped_refuted.

Print Assumptions C66_accepted.
