(** C49, C67: the nucleus and interrupt_network. *)
From Coq Require Import String Permutation.
From Verif Require Import Common NetModel NetProofs CtxModel CtxProofs NucModel NucSpec NucProofs.
Open Scope string_scope.
Open Scope list_scope.

Section Props.
Variable order : list string -> list string.
Hypothesis perm : forall l, Permutation (order l) l.
Notation step := (step order). Notation run := (run order). Notation trace := (trace order).

Lemma tasks_curs s a x ns : nth_error (s_actors s) a = Some x -> tasks_of s a ns = curs s (a_nets x) ns.
Proof. intro E. unfold tasks_of, curs, task_of, network, cur_of. rewrite E. reflexivity. Qed.
Lemma reachable_good s act a x n : nth_error (s_actors s) a = Some x -> reachable s act a n = good s act (a_nets x) n.
Proof. intro E. unfold reachable, good, task_of, network, cur_of. rewrite E. reflexivity. Qed.
Lemma tasks_nodup s tr a ns : inv s tr -> NoDup ns -> NoDup (tasks_of s a ns).
Proof.
  intros (I1 & _ & _ & I4). induction 1 as [|n ns N ND IH]; [constructor|]. unfold tasks_of. cbn [flat_map].
  destruct (task_of s a n) as [p|] eqn:E; [|exact IH]. cbn [app]. constructor; [|exact IH].
  intro H. apply in_flat_map in H as (m & Hm & Hp). destruct (task_of s a m) as [q|] eqn:Eq; [|contradiction].
  destruct Hp as [->|[]]. apply N. replace n with m; [exact Hm|].
  unfold task_of, network in E, Eq. destruct (nth_error (s_actors s) a) as [x|] eqn:Ea; [|discriminate].
  destruct (sget n (a_nets x)) as [o|] eqn:En; [|discriminate]. destruct (sget m (a_nets x)) as [o'|] eqn:Em; [|discriminate].
  destruct (nth_error (s_nets s) o) as [r|] eqn:Eo; [|discriminate]. destruct (nth_error (s_nets s) o') as [r'|] eqn:Eo'; [|discriminate]. subst r r'.
  destruct (I1 a x Ea) as [_ [_ N2]]. apply (N2 m n o'); [exact Em|]. rewrite En. f_equal. apply (I4 _ _ _ Eo Eo').
Qed.
Lemma sent_app s l : sent1 s (with_pend s (s_pend s ++ l)) = l.
Proof. unfold sent1. cbn. rewrite skipn_app, skipn_all, Nat.sub_diag. reflexivity. Qed.

(** Assigning a state: each network registered for the state that runs a task is sent
    exactly one interrupt, telling state and value, and no other network is -- if all
    those registered are on the actor and simpy lets their tasks be interrupted. *)
Theorem C49_interrupts_partial os act a k v :
  let s := run init os in let s' := fst (step s (NSet act a k v)) in
  value s a k <> None ->
  (forall n, watches (trace init os) a n k = true -> reachable s act a n = true) ->
  snd (step s (NSet act a k v)) = XOk /\ value s' a k = Some v /\
  exists ns, NoDup ns /\ (forall n, In n ns <-> watches (trace init os) a n k = true) /\
    sent1 s s' = map (fun p => (p, CState k v)) (tasks_of s a ns) /\ NoDup (tasks_of s a ns).
Proof.
  intros s s' Hv G. pose proof (inv_reach order os) as I. fold s in I. subst s'. cbn [NucModel.step]. unfold value in Hv. unfold assign.
  destruct (nth_error (s_actors s) a) as [x|] eqn:E; [|congruence]. destruct (sget k (a_cells x)) as [c|] eqn:Ec; [|congruence].
  set (x1 := mkA _ _ _). set (s1 := with_actor s a x1).
  assert (E1 : nth_error (s_actors s1) a = Some x1).
  { cbn. rewrite set_nth_get, Nat.eqb_refl, E. reflexivity. }
  unfold broadcast. rewrite E1. cbn [a_nuc a_nets x1]. destruct I as (I1 & I').
  destruct (I1 a x E) as [R N]. destruct (a_nuc x) as [u|]; cbn [reg_ok] in R.
  - destruct R as (R1 & R2 & R3). set (ns := order (dget k (n_states u))).
    assert (P : Permutation ns (dget k (n_states u))) by apply perm.
    assert (M : forall n, In n ns <-> watches (trace init os) a n k = true).
    { intro n. rewrite <- (proj1 (R3 n k)). split; apply Permutation_in; [exact P|symmetry; exact P]. }
    assert (Gd : forallb (good s1 act (a_nets x)) ns = true).
    { apply forallb_forall. intros n Hn. apply M in Hn. specialize (G n Hn). rewrite (reachable_good s act a x n E) in G. exact G. }
    rewrite (send_ok act (a_nets x) (CState k v) ns s1 Gd). cbn [fst snd]. split; [reflexivity|]. split.
    + unfold value. cbn [with_pend s_actors]. rewrite E1. subst x1. cbn [a_cells]. rewrite sget_same. reflexivity.
    + exists ns. assert (ND : NoDup ns) by (eapply Permutation_NoDup; [symmetry; exact P|apply R1]).
      split; [exact ND|]. split; [exact M|]. split.
      * change (s_pend s1) with (s_pend s). unfold sent1. cbn [with_pend s_pend]. rewrite skipn_app, skipn_all, Nat.sub_diag. cbn.
        rewrite (tasks_curs s a x ns E). reflexivity.
      * apply (tasks_nodup s (trace init os)); [split; [exact I1|exact I']|exact ND].
  - cbn [fst snd]. split; [reflexivity|]. split.
    + unfold value. rewrite E1. subst x1. cbn [a_cells]. rewrite sget_same. reflexivity.
    + exists []. split; [constructor|]. split; [intro n; rewrite R; cbn; intuition discriminate|].
      split; [|constructor]. unfold sent1. cbn. rewrite skipn_all. reflexivity.
Qed.
(** Otherwise the assignment raises, though the value is stored. *)
Theorem C49_raises os act a k v n :
  let s := run init os in let s' := fst (step s (NSet act a k v)) in
  value s a k <> None -> watches (trace init os) a n k = true -> reachable s act a n = false ->
  (snd (step s (NSet act a k v)) = XUpstageErr \/ snd (step s (NSet act a k v)) = XRuntimeErr) /\ value s' a k = Some v.
Proof.
  intros s s' Hv W G. pose proof (inv_reach order os) as I. fold s in I. subst s'. cbn [NucModel.step]. unfold value in Hv. unfold assign.
  destruct (nth_error (s_actors s) a) as [x|] eqn:E; [|congruence]. destruct (sget k (a_cells x)) as [c|] eqn:Ec; [|congruence].
  set (x1 := mkA _ _ _). set (s1 := with_actor s a x1).
  assert (E1 : nth_error (s_actors s1) a = Some x1).
  { cbn. rewrite set_nth_get, Nat.eqb_refl, E. reflexivity. }
  unfold broadcast. rewrite E1. cbn [a_nuc a_nets x1]. destruct I as (I1 & I').
  destruct (I1 a x E) as [R N]. destruct (a_nuc x) as [u|]; cbn [reg_ok] in R; [|rewrite R in W; discriminate].
  destruct R as (R1 & R2 & R3).
  destruct (send_spec act (a_nets x) (CState k v) (order (dget k (n_states u))) s1) as (pre & _ & A & _ & C).
  rewrite A. split.
  - destruct (forallb (good s1 act (a_nets x)) (order (dget k (n_states u)))) eqn:F; [|exact C].
    exfalso. rewrite forallb_forall in F. assert (Hn : In n (order (dget k (n_states u)))).
    { eapply Permutation_in; [symmetry; apply perm|]. apply (proj1 (R3 n k)). exact W. }
    specialize (F n Hn). rewrite (reachable_good s act a x n E) in G. change (good s1 act (a_nets x) n) with (good s act (a_nets x) n) in F. congruence.
  - unfold value. cbn [with_pend s_actors]. rewrite E1. subst x1. cbn [a_cells]. rewrite sget_same. reflexivity.
Qed.

(** An interrupt telling a state comes only from an operation on a state of an actor
    for which the network of that task is registered. *)
Definition told (s : st) (tr : list (op * out)) (a : nat) (e : nat * cause) : Prop :=
  exists n k v, snd e = CState k v /\ watches tr a n k = true /\ task_of s a n = Some (fst e).
Definition adds (s : st) (tr : list (op * out)) (a : nat) (s1 s2 : st) : Prop :=
  exists l, s_pend s2 = s_pend s1 ++ l /\ Forall (told s tr a) l.
Lemma adds_refl s tr a s1 : adds s tr a s1 s1.
Proof. exists []. rewrite app_nil_r. auto. Qed.
Lemma adds_trans s tr a s1 s2 s3 : adds s tr a s1 s2 -> adds s tr a s2 s3 -> adds s tr a s1 s3.
Proof.
  intros (l & E & F) (l' & E' & F'). exists (l ++ l'). split; [rewrite E', E, app_assoc; reflexivity|]. apply Forall_app. auto.
Qed.
Lemma broadcast_adds s tr act a k v s1 : inv s tr -> frame s s1 -> adds s tr a s1 (fst (broadcast order s1 act a k v)).
Proof.
  intros (I1 & _) (_ & F1 & _ & F & _). unfold broadcast. destruct (nth_error (s_actors s1) a) as [x1|] eqn:E1; [|apply adds_refl].
  specialize (F a). rewrite E1 in F. destruct (nth_error (s_actors s) a) as [x|] eqn:E; [|discriminate]. cbn in F. injection F as D1 D2 D3.
  destruct (I1 a x E) as [R _]. rewrite <- D1 in R. destruct (a_nuc x1) as [u|]; [|apply adds_refl]. cbn in R. destruct R as (_ & _ & R).
  destruct (send_spec act (a_nets x1) (CState k v) (order (dget k (n_states u))) s1) as (pre & (post & Ep & _) & -> & _).
  exists (map (fun p => (p, CState k v)) (curs s1 (a_nets x1) pre)). split; [reflexivity|]. apply Forall_forall. intros e He.
  apply in_map_iff in He as (p & <- & Hp). apply in_flat_map in Hp as (n & Hn & Hp). exists n, k, v. split; [reflexivity|]. split.
  - apply (proj1 (R n k)). eapply Permutation_in; [apply perm|]. rewrite Ep. apply in_or_app. auto.
  - unfold task_of, network. rewrite E. unfold cur_of in Hp. rewrite F1 in Hp. rewrite D2 in Hp.
    destruct (sget n (a_nets x)) as [o|]; [|contradiction]. destruct (nth_error (s_nets s) o) as [[q|]|]; try contradiction. destruct Hp as [->|[]]. reflexivity.
Qed.
Lemma assign_adds s tr act a k v s1 : inv s tr -> frame s s1 -> adds s tr a s1 (fst (assign order s1 act a k v)).
Proof.
  intros I F. unfold assign. destruct (nth_error (s_actors s1) a) as [x|] eqn:E; [|apply adds_refl]. destruct (sget k (a_cells x)) as [c|] eqn:Ec; [|apply adds_refl].
  set (s2 := with_actor s1 a _). change (s_pend s1) with (s_pend s2). assert (F2 : frame s s2) by (eapply frame_trans; [exact F|apply frame_cell; congruence]).
  destruct (broadcast_adds s tr act a k v s2 I F2) as (l & El & Fl). exists l. split; [exact El|exact Fl].
Qed.
Lemma read_adds s tr act a k s1 : inv s tr -> frame s s1 -> adds s tr a s1 (fst (read order s1 act a k)).
Proof.
  intros I F. unfold read. destruct (nth_error (s_actors s1) a) as [x|] eqn:E; [|apply adds_refl]. destruct (sget k (a_cells x)) as [c|] eqn:Ec; [|apply adds_refl].
  destruct (c_act c) as [[t r]|]; [|apply adds_refl]. destruct (Qltb (s_now s1) t); [apply adds_refl|]. cbv zeta.
  pose proof (assign_adds s tr act a k (c_val c + (s_now s1 - t) * r) s1 I F) as A.
  destruct (assign order s1 act a k (c_val c + (s_now s1 - t) * r)) as [s2 e]. cbn [fst] in A.
  destruct e; try exact A. destruct (nth_error (s_actors s2) a) as [x2|]; exact A.
Qed.
Lemma read_all_adds s tr act a : inv s tr -> forall ks s1 acc, frame s s1 -> adds s tr a s1 (fst (fst (read_all order s1 act a ks acc))).
Proof.
  intros I. induction ks as [|k ks IH]; intros s1 acc F; cbn [read_all]; [apply adds_refl|].
  pose proof (read_adds s tr act a k s1 I F) as A. pose proof (read_frame order s1 act a k) as F1.
  destruct (read order s1 act a k) as [s2 e]. cbn [fst] in A, F1.
  destruct e; try exact A. eapply adds_trans; [exact A|]. apply IH. eapply frame_trans; eassumption.
Qed.
Lemma adds_sent s tr a s' : adds s tr a s s' -> Forall (told s tr a) (sent1 s s').
Proof. intros (l & E & F). unfold sent1. rewrite E, skipn_app, skipn_all, Nat.sub_diag. exact F. Qed.
Lemma sent_same s s' : s_pend s' = s_pend s -> sent1 s s' = [].
Proof. intro E. unfold sent1. rewrite E. apply skipn_all. Qed.
Theorem C49_only os o p k v :
  let s := run init os in
  delivers o = false ->
  In (p, CState k v) (sent1 s (fst (step s o))) ->
  exists a n, touches o a = true /\ watches (trace init os) a n k = true /\ task_of s a n = Some p.
Proof.
  intros s D H. pose proof (inv_reach order os) as I. fold s in I.
  assert (X : forall a, Forall (told s (trace init os) a) (sent1 s (fst (step s o))) -> touches o a = true ->
    exists a n, touches o a = true /\ watches (trace init os) a n k = true /\ task_of s a n = Some p).
  { intros a F T. rewrite Forall_forall in F. destruct (F _ H) as (n & k' & v' & E & W & T'). cbn in E. injection E as <- <-. eauto. }
  assert (Z : s_pend (fst (step s o)) = s_pend s -> exists a n, touches o a = true /\ watches (trace init os) a n k = true /\ task_of s a n = Some p).
  { intro E. rewrite (sent_same _ _ E) in H. contradiction. }
  destruct o as [cells|act a|a n|a n|a|a n sts|a n|x|q|t|act a k' v'|act a k' r|act a k'|act a k'|act a n x|]; try discriminate D.
  - apply Z. reflexivity.
  - apply (X a); [|apply Nat.eqb_refl]. cbn [NucModel.step]. destruct (nth_error (s_actors s) a) as [x|]; [|apply adds_sent, adds_refl].
    pose proof (read_all_adds s (trace init os) act a I (map fst (a_cells x)) s [] (frame_refl s)) as A.
    destruct (read_all order s act a (map fst (a_cells x)) []) as [[s1 e] cells]. cbn [fst] in A. apply adds_sent in A.
    destruct e; exact A.
  - apply Z. cbn [NucModel.step]. destruct (nth_error (s_actors s) a) as [x|]; [|reflexivity]. destruct (sget n (a_nets x)); reflexivity.
  - apply Z. cbn [NucModel.step]. destruct (nth_error (s_actors s) a) as [x|]; [|reflexivity]. destruct (sget n (a_nets x)); reflexivity.
  - apply Z. cbn [NucModel.step]. destruct (nth_error (s_actors s) a) as [x|]; [|reflexivity]. destruct (a_nuc x); reflexivity.
  - apply Z. cbn [NucModel.step]. destruct (nth_error (s_actors s) a) as [x|]; [|reflexivity]. destruct (a_nuc x), (sget n (a_nets x)); reflexivity.
  - apply Z. cbn [NucModel.step]. destruct (nth_error (s_actors s) a) as [x|]; [|reflexivity]. destruct (a_nuc x) as [u|], (sget n (a_nets x)); try reflexivity.
    destruct (nuc_remove u n); reflexivity.
  - apply Z. cbn [NucModel.step]. destruct (nth_error (s_nets s) x); reflexivity.
  - apply Z. reflexivity.
  - apply Z. cbn [NucModel.step]. destruct (Qltb t (s_now s)); reflexivity.
  - apply (X a); [|apply Nat.eqb_refl]. apply adds_sent. apply assign_adds; [exact I|apply frame_refl].
  - apply (X a); [|apply Nat.eqb_refl]. apply adds_sent. cbn [NucModel.step]. destruct (nth_error (s_actors s) a) as [x|] eqn:E; [|apply adds_refl].
    destruct (sget k' (a_cells x)) as [c|] eqn:Ec; [|apply adds_refl]. destruct (c_act c); [apply adds_refl|]. cbv zeta.
    set (s1 := with_actor s a _). assert (F : frame s s1) by (apply frame_cell; congruence).
    pose proof (read_adds s (trace init os) act a k' s1 I F) as A. destruct (read order s1 act a k') as [s2 e]. exact A.
  - apply (X a); [|apply Nat.eqb_refl]. apply adds_sent. cbn [NucModel.step].
    pose proof (read_adds s (trace init os) act a k' s I (frame_refl s)) as A. destruct (read order s act a k') as [s1 e].
    destruct e; try exact A. destruct (nth_error (s_actors s1) a); exact A.
  - apply (X a); [|apply Nat.eqb_refl]. apply adds_sent. apply read_adds; [exact I|apply frame_refl].
  - exfalso. cbn [NucModel.step] in H. destruct (nth_error (s_actors s) a) as [y|]; [|rewrite sent_same in H by reflexivity; contradiction].
    destruct (sget n (a_nets y)) as [w|]; [|rewrite sent_same in H by reflexivity; contradiction].
    destruct (current s w) as [q|]; [|rewrite sent_same in H by reflexivity; contradiction]. rewrite interrupt_spec in H.
    destruct (can_hit s act q); cbn [fst] in H; [|rewrite sent_same in H by reflexivity; contradiction].
    rewrite sent_app in H. destruct H as [H|[]]. discriminate H.
Qed.
(** Interrupts are handled in the order sent, each once; the task is resumed with it
    unless it has ended meanwhile. *)
Theorem C49_handled os : forall s,
  flat_map handled (trace s os) ++ s_pend (run s os) = s_pend s ++ sent order s os.
Proof.
  induction os as [|o os IH]; intro s; cbn [NucModel.trace NucModel.run flat_map sent]; [rewrite app_nil_r; reflexivity|].
  rewrite <- app_assoc, IH, !app_assoc. f_equal.
  assert (NH : forall act a k, handled (NSet act a k 0, snd (read order s act a k)) = [] /\ forall v, handled (NSet act a k 0, snd (assign order s act a k v)) = []).
  { assert (B : forall s act a k v, handled (NSet act a k 0, snd (broadcast order s act a k v)) = []).
    { intros s0 act a k v. unfold broadcast. destruct (nth_error (s_actors s0) a) as [x|]; [|reflexivity]. destruct (a_nuc x) as [u|]; [|reflexivity].
      destruct (send_spec act (a_nets x) (CState k v) (order (dget k (n_states u))) s0) as (pre & _ & _ & _ & C).
      destruct (forallb _ _); [rewrite C; reflexivity|]. destruct C as [C|C]; rewrite C; reflexivity. }
    assert (A : forall s act a k v, handled (NSet act a k 0, snd (assign order s act a k v)) = []).
    { intros s0 act a k v. unfold assign. destruct (nth_error (s_actors s0) a) as [x|]; [|reflexivity]. destruct (sget k (a_cells x)); [|reflexivity]. apply B. }
    intros act a k. split; [|intro v; apply A]. unfold read. destruct (nth_error (s_actors s) a) as [x|]; [|reflexivity].
    destruct (sget k (a_cells x)) as [c|]; [|reflexivity]. destruct (c_act c) as [[t r]|]; [|reflexivity]. destruct (Qltb (s_now s) t); [reflexivity|]. cbv zeta.
    specialize (A s act a k (c_val c + (s_now s - t) * r)). destruct (assign order s act a k (c_val c + (s_now s - t) * r)) as [s1 e]. cbn [snd] in A.
    destruct e; try exact A. destruct (nth_error (s_actors s1) a); [reflexivity|exact A]. }
  assert (NR : forall act a k s, handled (NSet act a k 0, snd (read order s act a k)) = []).
  { clear. intros act a k s. unfold read. destruct (nth_error (s_actors s) a) as [x|]; [|reflexivity].
    destruct (sget k (a_cells x)) as [c|]; [|reflexivity]. destruct (c_act c) as [[t r]|]; [|reflexivity]. destruct (Qltb (s_now s) t); [reflexivity|]. cbv zeta.
    unfold assign. destruct (nth_error (s_actors s) a) as [y|]; [|reflexivity]. destruct (sget k (a_cells y)); [|reflexivity].
    unfold broadcast. set (s1 := with_actor s a _). destruct (nth_error (s_actors s1) a) as [z|] eqn:E; [|reflexivity]. destruct (a_nuc z) as [u|].
    - destruct (send_spec act (a_nets z) (CState k (c_val c + (s_now s - t) * r)) (order (dget k (n_states u))) s1) as (pre & _ & _ & _ & C).
      destruct (send s1 act (a_nets z) _ _) as [s2 e]. cbn [snd] in C. destruct (forallb _ _); [subst e|destruct C as [-> | ->]; reflexivity].
      destruct (nth_error (s_actors s2) a); reflexivity.
    - rewrite E. reflexivity. }
  destruct (delivers o) eqn:D.
  - destruct o; try discriminate D. cbn [NucModel.step]. destruct (s_pend s) as [|[p c] l] eqn:E; cbn [fst snd handled].
    + rewrite E. reflexivity.
    + rewrite app_nil_r. destruct (nth_error (s_procs s) p) as [[]|]; reflexivity.
  - assert (H : handled (o, snd (step s o)) = [] /\ exists l, s_pend (fst (step s o)) = s_pend s ++ l).
    { assert (Z : forall e : out, (exists l, s_pend s = s_pend s ++ l)) by (intro; exists []; rewrite app_nil_r; reflexivity).
      destruct o as [cells|act a|a n|a n|a|a n sts|a n|x|q|t|act a k v|act a k r|act a k|act a k|act a n x|]; try discriminate D.
      - split; [reflexivity|apply Z; exact XOk].
      - cbn [NucModel.step]. destruct (nth_error (s_actors s) a) as [x|]; [|split; [reflexivity|apply Z; exact XOk]].
        pose proof (read_all_frame order act a (map fst (a_cells x)) s []) as (_ & _ & _ & _ & l & El).
        assert (HA : forall ks s0 acc, handled (NClone act a, snd (fst (read_all order s0 act a ks acc))) = []).
        { induction ks as [|k ks IHk]; intros s0 acc; cbn [read_all]; [reflexivity|]. specialize (NR act a k s0).
          destruct (read order s0 act a k) as [s1 e]. destruct e; try reflexivity; try exact NR. apply IHk. }
        specialize (HA (map fst (a_cells x)) s []). destruct (read_all order s act a (map fst (a_cells x)) []) as [[s1 e] cells]. cbn [fst snd] in *.
        destruct e; try discriminate HA; cbn [fst snd]; split; try reflexivity; exists l; exact El.
      - cbn [NucModel.step]. destruct (nth_error (s_actors s) a) as [x|]; [|split; [reflexivity|apply Z; exact XOk]]. destruct (sget n (a_nets x)); split; try reflexivity; apply Z; exact XOk.
      - cbn [NucModel.step]. destruct (nth_error (s_actors s) a) as [x|]; [|split; [reflexivity|apply Z; exact XOk]]. destruct (sget n (a_nets x)); split; try reflexivity; apply Z; exact XOk.
      - cbn [NucModel.step]. destruct (nth_error (s_actors s) a) as [x|]; [|split; [reflexivity|apply Z; exact XOk]]. destruct (a_nuc x); split; try reflexivity; apply Z; exact XOk.
      - cbn [NucModel.step]. destruct (nth_error (s_actors s) a) as [x|]; [|split; [reflexivity|apply Z; exact XOk]]. destruct (a_nuc x), (sget n (a_nets x)); split; try reflexivity; apply Z; exact XOk.
      - cbn [NucModel.step]. destruct (nth_error (s_actors s) a) as [x|]; [|split; [reflexivity|apply Z; exact XOk]]. destruct (a_nuc x) as [u|], (sget n (a_nets x)); try (split; [reflexivity|apply Z; exact XOk]).
        destruct (nuc_remove u n); split; try reflexivity; apply Z; exact XOk.
      - cbn [NucModel.step]. destruct (nth_error (s_nets s) x); split; try reflexivity; apply Z; exact XOk.
      - split; [reflexivity|apply Z; exact XOk].
      - cbn [NucModel.step]. destruct (Qltb t (s_now s)); split; try reflexivity; apply Z; exact XOk.
      - split; [apply (NH act a k)|]. apply (assign_frame order s act a k v).
      - cbn [NucModel.step]. destruct (nth_error (s_actors s) a) as [x|] eqn:E; [|split; [reflexivity|apply Z; exact XOk]].
        destruct (sget k (a_cells x)) as [c|] eqn:Ec; [|split; [reflexivity|apply Z; exact XOk]]. destruct (c_act c); [split; [reflexivity|apply Z; exact XOk]|]. cbv zeta.
        set (s1 := with_actor s a _). pose proof (read_frame order s1 act a k) as (_ & _ & _ & _ & l & El). specialize (NR act a k s1).
        destruct (read order s1 act a k) as [s2 e]. cbn [fst snd] in *. split; [destruct e; try reflexivity; exact NR|]. exists l. exact El.
      - cbn [NucModel.step]. pose proof (read_frame order s act a k) as (_ & _ & _ & _ & l & El). specialize (NR act a k s).
        destruct (read order s act a k) as [s2 e]. cbn [fst snd] in *. destruct e; try discriminate NR; try (split; [reflexivity|exists l; exact El]).
        destruct (nth_error (s_actors s2) a); split; try reflexivity; exists l; exact El.
      - split; [apply NR|]. apply (read_frame order s act a k).
      - cbn [NucModel.step]. destruct (nth_error (s_actors s) a) as [y|]; [|split; [reflexivity|apply Z; exact XOk]].
        destruct (sget n (a_nets y)) as [w|]; [|split; [reflexivity|apply Z; exact XOk]].
        destruct (current s w) as [q|]; [|split; [reflexivity|apply Z; exact XOk]]. rewrite interrupt_spec.
        destruct (can_hit s act q); cbn [fst snd]; split; try reflexivity; [eexists; reflexivity|apply Z; exact XOk]. }
    destruct H as [-> [l El]]. unfold sent1. rewrite El, skipn_app, skipn_all, Nat.sub_diag. cbn. reflexivity.
Qed.
Theorem C49_hit s p c l : s_pend s = (p, c) :: l ->
  snd (step s NDeliver) = (if alive s p then XHit p c else XMissed p c) /\ s_pend (fst (step s NDeliver)) = l.
Proof.
  intro E. cbn [NucModel.step]. rewrite E. cbn [fst snd with_pend s_pend]. split; [|reflexivity]. unfold alive.
  destruct (nth_error (s_procs s) p) as [b|] eqn:Ep.
  - rewrite (nth_of_error _ _ _ _ Ep). destruct b; reflexivity.
  - rewrite nth_overflow by (apply nth_error_None; exact Ep). reflexivity.
Qed.
(** The nucleus itself never fails with a KeyError, and attaching, adding and removing
    are refused only as documented: a second nucleus, a network not on the actor. *)
Theorem C49_managed os a n sts :
  let s := run init os in
  snd (step s (NRemove a n)) <> XKeyErr /\
  (forall x u, nth_error (s_actors s) a = Some x -> a_nuc x = Some u ->
     (network s a n <> None -> snd (step s (NAdd a n sts)) = XOk /\ snd (step s (NRemove a n)) = XOk) /\
     (network s a n = None -> step s (NAdd a n sts) = (s, XUpstageErr) /\ step s (NRemove a n) = (s, XUpstageErr)) /\
     step s (NAttach a) = (s, XUpstageErr)).
Proof.
  intros s. pose proof (inv_reach order os) as I. fold s in I. destruct I as (I1 & _). unfold network. split.
  - cbn [NucModel.step]. destruct (nth_error (s_actors s) a) as [x|] eqn:E; [|discriminate].
    destruct (I1 a x E) as [R _]. destruct (a_nuc x) as [u|]; [|discriminate]. destruct (sget n (a_nets x)); [|discriminate].
    destruct (nuc_remove_ok n u _ R) as (u' & -> & _). discriminate.
  - intros x u E Eu. destruct (I1 a x E) as [R _]. rewrite Eu in R. cbn [NucModel.step]. rewrite E, Eu.
    destruct (nuc_remove_ok n u _ R) as (u' & -> & _). destruct (sget n (a_nets x)); (split; [|split]); auto; congruence.
Qed.

(** *** C67: interrupt_network *)
Theorem C67_interrupts s act a n x :
  match task_of s a n with
  | Some p => if can_hit s act p
              then step s (NInterrupt act a n x) = (with_pend s (s_pend s ++ [(p, CUser x)]), XOk)
              else step s (NInterrupt act a n x) = (s, XRuntimeErr)
  | None => nth_error (s_actors s) a <> None ->
            step s (NInterrupt act a n x) = (s, match network s a n with Some _ => XUpstageErr | None => XSimErr end)
  end.
Proof.
  unfold task_of, network. cbn [NucModel.step]. destruct (nth_error (s_actors s) a) as [y|]; [|congruence].
  destruct (sget n (a_nets y)) as [w|]; [|auto]. unfold current. destruct (nth_error (s_nets s) w) as [[p|]|]; auto.
  rewrite interrupt_spec. destruct (can_hit s act p); reflexivity.
Qed.

(** ** Cloning *)
Lemma nth_with_actor s a x b : nth_error (s_actors s) a <> None -> nth_error (s_actors (with_actor s a x)) b = if Nat.eqb a b then Some x else nth_error (s_actors s) b.
Proof.
  intro H. unfold with_actor. cbn [s_actors]. revert a b H. induction (s_actors s) as [|y l IH]; intros [|a] [|b] H; cbn in *; try congruence; try reflexivity. apply IH. exact H.
Qed.
Lemma broadcast_actors s act a k v : s_actors (fst (broadcast order s act a k v)) = s_actors s.
Proof.
  unfold broadcast. destruct (nth_error (s_actors s) a) as [x|]; [|reflexivity]. destruct (a_nuc x) as [u|]; [|reflexivity].
  destruct (send_spec act (a_nets x) (CState k v) (order (dget k (n_states u))) s) as (pre & _ & -> & _). reflexivity.
Qed.
Lemma broadcast_noval s act a k v q : snd (broadcast order s act a k v) <> XVal q.
Proof.
  unfold broadcast. destruct (nth_error (s_actors s) a) as [x|]; [|discriminate]. destruct (a_nuc x) as [u|]; [|discriminate].
  generalize (order (dget k (n_states u))). intro l. generalize s. induction l as [|n l IH]; intro s0; cbn [send]; [discriminate|].
  destruct (sget n (a_nets x)) as [o|]; [|discriminate]. destruct (current s0 o) as [p|]; [|apply IH].
  destruct (interrupt s0 act p (CState k v)) as [s1 e] eqn:I. destruct e; try discriminate; [apply IH|].
  exfalso. unfold interrupt in I. repeat match type of I with context [match ?z with _ => _ end] => destruct z end; congruence.
Qed.
(** A read that returns leaves the value it returned. *)
Lemma read_val s act a k s1 v : read order s act a k = (s1, XVal v) ->
  value s1 a k = Some v /\ (forall j, j <> k -> value s1 a j = value s a j) /\ (forall b, b <> a -> nth_error (s_actors s1) b = nth_error (s_actors s) b).
Proof.
  unfold read. destruct (nth_error (s_actors s) a) as [x|] eqn:E; [|discriminate]. destruct (sget k (a_cells x)) as [c|] eqn:Ec; [|discriminate].
  destruct (c_act c) as [[t r]|] eqn:A.
  2: { intro H. injection H as <- <-. split; [unfold value; rewrite E, Ec; reflexivity|]. auto. }
  destruct (Qltb (s_now s) t); [discriminate|]. set (v0 := c_val c + (s_now s - t) * r).
  unfold assign. rewrite E, Ec. set (s0 := with_actor s a _).
  pose proof (broadcast_actors s0 act a k v0) as B. pose proof (broadcast_noval s0 act a k v0) as BN. destruct (broadcast order s0 act a k v0) as [s2 e]. cbn [fst] in B.
  assert (N : forall b, nth_error (s_actors s2) b = if Nat.eqb a b then Some (mkA (a_nets x) (a_nuc x) (sset k (mkCell v0 (c_act c)) (a_cells x))) else nth_error (s_actors s) b).
  { intro b. rewrite B. unfold s0. rewrite nth_with_actor by congruence. reflexivity. }
  rewrite (N a), Nat.eqb_refl. destruct e; try discriminate; [|intro H; exfalso; injection H as _ H; cbn [snd] in BN; exact (BN _ eq_refl)]. intro H. injection H as <- <-.
  assert (NN : nth_error (s_actors s2) a <> None) by (rewrite N, Nat.eqb_refl; discriminate).
  unfold value. rewrite !nth_with_actor by exact NN. rewrite Nat.eqb_refl. cbn [a_cells a_nets a_nuc]. split; [rewrite sget_same; reflexivity|]. split.
  - intros j J. rewrite E. rewrite !sget_other by congruence. reflexivity.
  - intros b J. rewrite nth_with_actor by exact NN. destruct (Nat.eqb_spec a b); [congruence|]. rewrite N. destruct (Nat.eqb_spec a b); [congruence|reflexivity].
Qed.
Lemma read_not_ok s act a k s1 : read order s act a k <> (s1, XOk).
Proof.
  unfold read. destruct (nth_error (s_actors s) a) as [x|] eqn:E; [|discriminate]. destruct (sget k (a_cells x)) as [c|] eqn:Ec; [|discriminate].
  destruct (c_act c) as [[t r]|]; [|discriminate]. destruct (Qltb (s_now s) t); [discriminate|]. cbv zeta.
  pose proof (assign_frame order s act a k (c_val c + (s_now s - t) * r)) as F. destruct (assign order s act a k (c_val c + (s_now s - t) * r)) as [s2 e]. cbn [fst] in F.
  destruct (view_keys s s2 a x F E) as (x1 & -> & _). destruct e; discriminate.
Qed.
Lemma read_all_val act a : forall ks s acc s1 cells, read_all order s act a ks acc = (s1, XOk, cells) -> NoDup ks ->
  (exists new, cells = acc ++ new /\ map fst new = ks /\ Forall (fun kc => value s1 a (fst kc) = Some (c_val (snd kc)) /\ c_act (snd kc) = None) new) /\
  (forall j, ~ In j ks -> value s1 a j = value s a j).
Proof.
  induction ks as [|k ks IH]; intros s acc s1 cells H ND; cbn [read_all] in H.
  - injection H as <- <-. split; [exists []; rewrite app_nil_r; auto|auto].
  - destruct (read order s act a k) as [s2 e] eqn:R. destruct e; try discriminate; [exfalso; exact (read_not_ok _ _ _ _ _ R)|]. inversion ND as [|? ? NI ND']; subst.
    destruct (IH _ _ _ _ H ND') as [(new & -> & M & F) O]. destruct (read_val _ _ _ _ _ _ R) as (V & OV & _). split.
    + exists ((k, mkCell v None) :: new). rewrite <- app_assoc. split; [reflexivity|]. split; [cbn; rewrite M; reflexivity|]. constructor; [|exact F].
      cbn [fst snd c_val c_act]. split; [rewrite (O k NI); exact V|reflexivity].
    + intros j J. rewrite (O j) by (intro; apply J; right; assumption). apply OV. intro; subst; apply J; left; reflexivity.
Qed.
(** A clone has the networks of the actor, no nucleus, and every state at the value reading
    it gave, none of them active. *)
Theorem C49_clone s act a x s' : nth_error (s_actors s) a = Some x -> NoDup (map fst (a_cells x)) -> step s (NClone act a) = (s', XOk) ->
  exists y, nth_error (s_actors s') (List.length (s_actors s)) = Some y /\ a_nets y = a_nets x /\ a_nuc y = None /\ map fst (a_cells y) = map fst (a_cells x) /\
    forall k c, In (k, c) (a_cells y) -> value s' a k = Some (c_val c) /\ c_act c = None.
Proof.
  intros E ND. cbn [NucModel.step]. rewrite E. pose proof (read_all_frame order act a (map fst (a_cells x)) s []) as F.
  destruct (read_all order s act a (map fst (a_cells x)) []) as [[s1 e] cells] eqn:R. cbn [fst] in F. destruct e; try discriminate.
  intro H. injection H as <-. destruct (read_all_val _ _ _ _ _ _ _ R ND) as [(new & -> & M & FV) _]. cbn [app].
  assert (L : List.length (s_actors s1) = List.length (s_actors s)).
  { destruct F as (_ & _ & _ & D & _). destruct (Nat.lt_trichotomy (List.length (s_actors s1)) (List.length (s_actors s))) as [X|[X|X]]; [|exact X|].
    - exfalso. specialize (D (List.length (s_actors s1))). rewrite (proj2 (nth_error_None (s_actors s1) _) (le_n _)) in D.
      destruct (nth_error (s_actors s) (List.length (s_actors s1))) eqn:Y; [discriminate|]. apply nth_error_None in Y. lia.
    - exfalso. specialize (D (List.length (s_actors s))). rewrite (proj2 (nth_error_None (s_actors s) _) (le_n _)) in D.
      destruct (nth_error (s_actors s1) (List.length (s_actors s))) eqn:Y; [discriminate|]. apply nth_error_None in Y. lia. }
  eexists. cbn [s_actors]. split; [rewrite nth_error_app2, L, Nat.sub_diag by lia; reflexivity|]. cbn [a_nets a_nuc a_cells]. split; [reflexivity|]. split; [reflexivity|]. split; [exact M|].
  intros k c I. rewrite Forall_forall in FV. destruct (FV _ I) as [V A]. cbn [fst snd] in V, A. split; [|exact A]. unfold value in *. cbn [s_actors].
  destruct (nth_error (s_actors s1) a) as [z|] eqn:Z; [|discriminate]. rewrite nth_error_app1 by (apply nth_error_Some; congruence). rewrite Z. exact V.
Qed.
End Props.

(** *** Examples *)
Definition same_order (l : list string) : list string := l.
Notation ex_step := (step same_order).
Notation ex_run := (run same_order init).
Notation ex_trace := (trace same_order init).
(** Two watching networks, one changing. *)
Definition ex_ops : list op :=
  [ NActor [("number", mkCell 3 None); ("fuel", mkCell 10 None)]; NNet 0 "changer"; NNet 0 "watch"; NNet 0 "other"; NNet 0 "idle";
    NAttach 0; NAdd 0 "watch" ["number"; "fuel"; "number"]; NAdd 0 "other" ["number"]; NAdd 0 "idle" ["number"]; NAdd 0 "changer" ["fuel"];
    NRemove 0 "changer"; NTask 0; NTask 1; NTask 2; NTime 3 ].
Example C49_example :
  snd (ex_step (ex_run ex_ops) (NSet (Some 0%nat) 0 "number" 4)) = XOk /\
  sent1 (ex_run ex_ops) (ex_run (ex_ops ++ [NSet (Some 0%nat) 0 "number" 4])) = [(1%nat, CState "number" 4); (2%nat, CState "number" 4)] /\
  sent1 (ex_run ex_ops) (ex_run (ex_ops ++ [NSet (Some 0%nat) 0 "fuel" 9])) = [(1%nat, CState "fuel" 9)] /\
  map snd (trace same_order (ex_run ex_ops) [NSet (Some 0%nat) 0 "number" 4; NDeliver; NEnd 2; NTask 2; NDeliver]) =
    [XOk; XHit 1 (CState "number" 4); XOk; XOk; XMissed 2 (CState "number" 4)].
Proof. repeat split; vm_compute; reflexivity. Qed.
Example C49_example_hypotheses :
  value (ex_run ex_ops) 0 "number" <> None /\
  forall n, watches (ex_trace ex_ops) 0 n "number" = true -> reachable (ex_run ex_ops) (Some 0%nat) 0 n = true.
Proof.
  split; [vm_compute; discriminate|]. intros n H.
  assert (K : watches (ex_trace ex_ops) 0 n "number" =
    (if String.eqb "changer" n then false else if String.eqb "idle" n then true else if String.eqb "other" n then true else if String.eqb "watch" n then true else false)).
  { unfold watches. cbn [ex_ops NucModel.trace fold_left].
    repeat match goal with |- context [snd (ex_step ?s ?o)] => let r := eval vm_compute in (snd (ex_step s o)) in change (snd (ex_step s o)) with r end.
    cbn -[String.eqb]. destruct (String.eqb "watch" n), (String.eqb "other" n), (String.eqb "idle" n), (String.eqb "changer" n); reflexivity. }
  rewrite K in H. destruct (String.eqb "changer" n); [discriminate|].
  destruct (String.eqb "idle" n) eqn:E1; [apply String.eqb_eq in E1; subst n; vm_compute; reflexivity|].
  destruct (String.eqb "other" n) eqn:E2; [apply String.eqb_eq in E2; subst n; vm_compute; reflexivity|].
  destruct (String.eqb "watch" n) eqn:E3; [apply String.eqb_eq in E3; subst n; vm_compute; reflexivity|discriminate].
Qed.
Example C67_example :
  map snd (trace same_order (ex_run ex_ops) [NInterrupt (Some 0%nat) 0 "watch" 7; NDeliver; NInterrupt None 0 "idle" 7; NInterrupt None 0 "none" 7]) =
    [XOk; XHit 1 (CUser 7); XUpstageErr; XSimErr].
Proof. vm_compute. reflexivity. Qed.

(** *** Where the statements fail *)

(** A watching network whose task has just ended (its loop is to start the next task
    later in the same instant), which runs a decision task, or which has stopped,
    makes the assignment raise; another watching network is then not told. *)
Theorem C49_ended_refuted :
  let s := ex_run (ex_ops ++ [NEnd 1]) in
  snd (ex_step s (NSet (Some 0%nat) 0 "number" 4)) = XRuntimeErr /\
  alive s 2 = true /\ watches (ex_trace (ex_ops ++ [NEnd 1])) 0 "other" "number" = true /\ task_of s 0 "other" = Some 2%nat /\
  sent1 s (fst (ex_step s (NSet (Some 0%nat) 0 "number" 4))) = [] /\
  value (fst (ex_step s (NSet (Some 0%nat) 0 "number" 4))) 0 "number" = Some 4.
Proof. repeat split; vm_compute; reflexivity. Qed.
(** A task which assigns a state its own network watches. *)
Theorem C49_self_refuted :
  snd (ex_step (ex_run ex_ops) (NSet (Some 1%nat) 0 "fuel" 4)) = XRuntimeErr.
Proof. vm_compute. reflexivity. Qed.
(** A network deleted from the actor but not from the nucleus: every later assignment
    raises and the nucleus cannot be told any more. *)
Theorem C49_deleted_refuted :
  let s := ex_run (ex_ops ++ [NDelNet 0 "watch"]) in
  snd (ex_step s (NSet None 0 "fuel" 4)) = XUpstageErr /\
  snd (ex_step s (NRemove 0 "watch")) = XUpstageErr.
Proof. split; vm_compute; reflexivity. Qed.
(** Activating, reading and deactivating a linearly changing state interrupt the networks that watch
    it, even when the value has not changed since it was last read. *)
Theorem C49_read_refuted :
  let os := ex_ops ++ [NActivate (Some 0%nat) 0 "fuel" (-1); NTime 5; NRead (Some 2%nat) 0 "fuel"] in
  let s := ex_run os in
  s_pend s = [(1%nat, CState "fuel" (10 + (3 - 3) * -1)); (1%nat, CState "fuel" (10 + (3 - 3) * -1 + (5 - 3) * -1))] /\
  sent1 s (fst (ex_step s (NRead (Some 2%nat) 0 "fuel"))) = [(1%nat, CState "fuel" (10 + (3 - 3) * -1 + (5 - 3) * -1 + (5 - 5) * -1))] /\
  value s 0 "fuel" = Some (8 # 1) /\ value (fst (ex_step s (NRead (Some 2%nat) 0 "fuel"))) 0 "fuel" = Some (8 # 1).
Proof. repeat split; vm_compute; reflexivity. Qed.
(** So does cloning the actor (a rehearsal), and a watching task cannot rehearse. *)
Theorem C49_clone_refuted :
  let s := ex_run (ex_ops ++ [NActivate (Some 0%nat) 0 "fuel" (-1); NTime 5]) in
  sent1 s (fst (ex_step s (NClone (Some 0%nat) 0))) = [(1%nat, CState "fuel" (8 # 1))] /\
  snd (ex_step s (NClone (Some 1%nat) 0)) = XRuntimeErr.
Proof. repeat split; vm_compute; reflexivity. Qed.
(** When reading raises in this way, the change so far is added a second time by the
    next reading: 10 units burnt at 1 per hour for two hours leave 6. *)
Theorem C49_twice_refuted :
  let s := ex_run (ex_ops ++ [NActivate (Some 0%nat) 0 "fuel" (-1); NTime 5]) in
  map snd (trace same_order s [NRead (Some 1%nat) 0 "fuel"; NRead (Some 0%nat) 0 "fuel"]) = [XRuntimeErr; XVal (6 # 1)].
Proof. vm_compute. reflexivity. Qed.
(** interrupt_network raises RuntimeError for a network between two tasks. *)
Theorem C67_between_refuted :
  snd (ex_step (ex_run (ex_ops ++ [NEnd 1])) (NInterrupt None 0 "watch" 7)) = XRuntimeErr.
Proof. vm_compute. reflexivity. Qed.

Print Assumptions C49_interrupts_partial.
Print Assumptions C49_raises.
Print Assumptions C49_only.
Print Assumptions C49_handled.
Print Assumptions C49_hit.
Print Assumptions C49_managed.
Print Assumptions C67_interrupts.
Print Assumptions C49_ended_refuted.
Print Assumptions C49_self_refuted.
Print Assumptions C49_deleted_refuted.
Print Assumptions C49_read_refuted.
Print Assumptions C49_clone_refuted.
Print Assumptions C49_twice_refuted.
Print Assumptions C67_between_refuted.
Print Assumptions C49_clone.
Example C49_clone_ex :
  let s := ex_run (ex_ops ++ [NActivate (Some 0%nat) 0 "fuel" (-1); NTime 5]) in
  snd (ex_step s (NClone (Some 0%nat) 0)) = XOk /\
  option_map (fun y => map (fun kc => (fst kc, Qred (c_val (snd kc)))) (a_cells y)) (nth_error (s_actors (fst (ex_step s (NClone (Some 0%nat) 0)))) (List.length (s_actors s))) =
  option_map (fun y => map (fun kc => (fst kc, if String.eqb (fst kc) "fuel" then 8 else Qred (c_val (snd kc)))) (a_cells y)) (nth_error (s_actors s) 0).
Proof. split; vm_compute; reflexivity. Qed.
