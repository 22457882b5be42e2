(** Proofs about reusable events. *)
From Coq Require Import Permutation.
From Verif Require Import Common ActiveModel EvProofs UEventModel UEventSpec.

Definition live (s : ust) : list nat := u_ready s ++ flat_map v_waiters (u_evs s).
Record UI (s : ust) : Prop := mkUI {
  ui_cur : (u_cur s < length (u_evs s))%nat;
  ui_ag : forall e, In e (u_agenda s) <-> exists ws, nth_error (u_evs s) e = Some (mkSev ETriggered ws);
  ui_nd : NoDup (u_agenda s);
  ui_done : forall e ws, nth_error (u_evs s) e = Some (mkSev EProcessed ws) -> ws = [];
  ui_live : NoDup (live s);
  ui_bound : forall w, In w (live s) -> (w < u_next s)%nat }.

Lemma init_UI b : UI (uinit b).
Proof.
  assert (S : forall e v, nth_error (u_evs (uinit b)) e = Some v -> v = fresh_ev).
  { intros [|e] v; cbn; [congruence|destruct e; discriminate]. }
  constructor; cbn [uinit u_cur u_evs u_agenda u_next].
  - simpl. lia.
  - intro e. split; [intros []|]. intros [ws H]. apply S in H. discriminate.
  - constructor.
  - intros e ws H. apply S in H. discriminate.
  - constructor.
  - intros w [].
Qed.

Lemma upd_same_waiters e v v' l : nth_error l e = Some v -> v_waiters v' = v_waiters v ->
  flat_map v_waiters (upd e v' l) = flat_map v_waiters l.
Proof.
  revert e. induction l as [|x l IH]; intros [|e] H E; cbn in *; try discriminate.
  - inversion H; subst. rewrite E. reflexivity.
  - rewrite (IH e H E). reflexivity.
Qed.
Lemma upd_waiters e v l ws' : nth_error l e = Some v -> forall k,
  Permutation (v_waiters v ++ flat_map v_waiters (upd e (mkSev k ws') l)) (ws' ++ flat_map v_waiters l).
Proof.
  revert e. induction l as [|x l IH]; intros [|e] H k; cbn in *; try discriminate.
  - inversion H; subst. rewrite !app_assoc. apply Permutation_app_tail. apply Permutation_app_comm.
  - rewrite Permutation_app_swap_app. rewrite (IH e H k). apply Permutation_app_swap_app.
Qed.

Lemma reset_UI s : UI s -> UI (do_reset s).
Proof.
  intros [I1 I2 I3 I4 I5 I6].
  assert (N : forall e, nth_error (u_evs s ++ [fresh_ev]) e = if Nat.eqb (length (u_evs s)) e then Some fresh_ev else nth_error (u_evs s) e).
  { intro e. destruct (Nat.eqb (length (u_evs s)) e) eqn:E.
    - apply Nat.eqb_eq in E. subst. rewrite nth_error_app2, Nat.sub_diag by lia. reflexivity.
    - apply Nat.eqb_neq in E. destruct (Nat.lt_ge_cases e (length (u_evs s))) as [L|L]; [apply nth_error_app1; exact L|].
      rewrite (proj2 (nth_error_None _ _)); [|rewrite app_length; simpl; lia]. symmetry. apply nth_error_None. exact L. }
  assert (LV : live (do_reset s) = live s) by (unfold live, do_reset; cbn [u_ready u_evs]; rewrite flat_map_app; cbn; rewrite app_nil_r; reflexivity).
  constructor; try rewrite LV; auto; cbn [do_reset u_cur u_evs u_agenda u_next].
  - rewrite app_length. simpl. lia.
  - intro e. rewrite I2, N. destruct (Nat.eqb (length (u_evs s)) e) eqn:E; [|tauto]. apply Nat.eqb_eq in E. subst.
    split; intros [ws H]; [|discriminate]. assert (nth_error (u_evs s) (length (u_evs s)) = None) by (apply nth_error_None; lia). congruence.
  - intros e ws. rewrite N. destruct (Nat.eqb (length (u_evs s)) e); [discriminate|apply I4].
Qed.
Lemma trigger_UI s : UI s -> UI (fst (trigger s)).
Proof.
  intros I. unfold trigger. destruct (nth_error (u_evs s) (u_cur s)) as [[[] ws]|] eqn:E; try exact I.
  destruct I as [I1 I2 I3 I4 I5 I6]. cbn [fst].
  assert (LV : flat_map v_waiters (upd (u_cur s) (mkSev ETriggered ws) (u_evs s)) = flat_map v_waiters (u_evs s)) by (eapply upd_same_waiters; eauto).
  assert (N : forall e, nth_error (upd (u_cur s) (mkSev ETriggered ws) (u_evs s)) e = if Nat.eqb (u_cur s) e then Some (mkSev ETriggered ws) else nth_error (u_evs s) e).
  { intro e. rewrite nth_upd. destruct (Nat.eqb (u_cur s) e) eqn:Ex; [|reflexivity]. apply Nat.eqb_eq in Ex. subst e. rewrite E. reflexivity. }
  constructor; unfold live; cbn [u_cur u_evs u_agenda u_next u_ready]; try rewrite LV; auto.
  - rewrite upd_length. exact I1.
  - intro e. rewrite in_app_iff, N. cbn [In]. destruct (Nat.eqb (u_cur s) e) eqn:Ex.
    + apply Nat.eqb_eq in Ex. subst. split; eauto.
    + apply Nat.eqb_neq in Ex. rewrite I2. split; [intros [H|[H|[]]]; [exact H|congruence]|auto].
  - assert (NI : ~ In (u_cur s) (u_agenda s)) by (rewrite I2; intros [x H]; congruence).
    apply (Permutation_NoDup (l := u_cur s :: u_agenda s)); [|constructor; assumption]. apply Permutation_cons_append.
  - intros e x. rewrite N. destruct (Nat.eqb (u_cur s) e); [discriminate|apply I4].
Qed.
Lemma register_UI s : UI s -> complete s = false -> UI (fst (register s)).
Proof.
  intros [I1 I2 I3 I4 I5 I6] NC. unfold register. unfold complete, cur_stat in NC.
  destruct (nth_error (u_evs s) (u_cur s)) as [[k ws]|] eqn:E; [|apply nth_error_None in E; lia]. cbn [fst].
  assert (P : Permutation (flat_map v_waiters (upd (u_cur s) (mkSev k (ws ++ [u_next s])) (u_evs s))) (u_next s :: flat_map v_waiters (u_evs s))).
  { apply (Permutation_app_inv_l ws). rewrite (upd_waiters _ _ _ (ws ++ [u_next s]) E k). rewrite <- app_assoc. reflexivity. }
  assert (N : forall e, nth_error (upd (u_cur s) (mkSev k (ws ++ [u_next s])) (u_evs s)) e = if Nat.eqb (u_cur s) e then Some (mkSev k (ws ++ [u_next s])) else nth_error (u_evs s) e).
  { intro e. rewrite nth_upd. destruct (Nat.eqb (u_cur s) e) eqn:Ex; [|reflexivity]. apply Nat.eqb_eq in Ex. subst e. rewrite E. reflexivity. }
  assert (PL : Permutation (u_ready s ++ flat_map v_waiters (upd (u_cur s) (mkSev k (ws ++ [u_next s])) (u_evs s))) (u_next s :: live s)).
  { rewrite P. unfold live. symmetry. apply Permutation_middle. }
  constructor; unfold live; cbn [u_cur u_evs u_agenda u_next u_ready].
  - rewrite upd_length. exact I1.
  - intro e. rewrite I2, N. destruct (Nat.eqb (u_cur s) e) eqn:Ex; [|tauto]. apply Nat.eqb_eq in Ex. subst e. rewrite E.
    split; intros [x H]; injection H; intros; subst; eexists; reflexivity.
  - exact I3.
  - intros e x. rewrite N. destruct (Nat.eqb (u_cur s) e); [|apply I4]. intro H. inversion H; subst. cbn in NC. discriminate.
  - apply (Permutation_NoDup (Permutation_sym PL)). constructor; [|exact I5]. intro H. apply I6 in H. lia.
  - intros w H. apply (Permutation_in _ PL) in H. destruct H as [<-|H]; [lia|]. apply I6 in H. lia.
Qed.
Lemma reset_fresh s : complete (do_reset s) = false.
Proof. unfold complete, cur_stat, do_reset. cbn [u_evs u_cur]. rewrite nth_error_app2, Nat.sub_diag by lia. reflexivity. Qed.
Lemma ready_UI s ws : UI s -> (forall w, In w ws -> In w (u_ready s)) -> NoDup ws ->
  UI (mkU (u_evs s) (u_cur s) (u_payload s) (u_auto s) (u_agenda s) ws (u_next s)).
Proof.
  intros [I1 I2 I3 I4 I5 I6] S N. constructor; unfold live in *; cbn [u_cur u_evs u_agenda u_next u_ready]; auto.
  - apply NoDup_app_iff' in I5. destruct I5 as (A & B & C). apply NoDup_app_iff'. split; [exact N|]. split; [exact B|].
    intros x Hx. apply C, S, Hx.
  - intros w H. apply I6. apply in_app_or in H. apply in_or_app. destruct H; auto.
Qed.

(** Every step: the invariant, and where the waiting processes are. *)
Theorem step_UI s o : UI s -> UI (fst (ustep s o)).
Proof.
  intro I. destruct o; cbn [ustep].
  - destruct (complete s) eqn:C; [|apply register_UI; assumption].
    destruct (u_auto s); [|exact I]. apply register_UI; [apply reset_UI; exact I|apply reset_fresh].
  - destruct (complete s); [exact I|]. apply trigger_UI. destruct I; constructor; auto.
  - apply reset_UI. exact I.
  - apply trigger_UI. exact I.
  - destruct (u_ready s) as [|? ?] eqn:Er; [|exact I]. destruct (u_agenda s) as [|e ag] eqn:Ea; [exact I|].
    destruct (nth_error (u_evs s) e) as [v|] eqn:Ev; [|exact I]. destruct I as [I1 I2 I3 I4 I5 I6]. cbn [fst].
    pose proof (upd_waiters e v (u_evs s) [] Ev EProcessed) as P. cbn [app] in P. unfold live in I5, I6. rewrite Er in I5, I6. cbn [app] in I5, I6.
    assert (N : forall x, nth_error (upd e (mkSev EProcessed []) (u_evs s)) x = if Nat.eqb e x then Some (mkSev EProcessed []) else nth_error (u_evs s) x).
    { intro x. rewrite nth_upd. destruct (Nat.eqb e x) eqn:Ex; [|reflexivity]. apply Nat.eqb_eq in Ex. subst x. rewrite Ev. reflexivity. }
    rewrite Ea in I2, I3. inversion I3 as [|? ? NI N3]; subst.
    constructor; unfold live; cbn [u_cur u_evs u_agenda u_next u_ready].
    + rewrite upd_length. exact I1.
    + intro x. rewrite N. destruct (Nat.eqb e x) eqn:Ex.
      * apply Nat.eqb_eq in Ex. subst x. split; [intro; contradiction|intros [ws H]; discriminate].
      * apply Nat.eqb_neq in Ex. rewrite <- I2. split; [intro H; right; exact H|intros [H|H]; [congruence|exact H]].
    + exact N3.
    + intros x ws. rewrite N. destruct (Nat.eqb e x); [congruence|apply I4].
    + exact (Permutation_NoDup (Permutation_sym P) I5).
    + intros w H. apply I6. exact (Permutation_in _ P H).
  - destruct (u_ready s) as [|w ws] eqn:Er; [exact I|]. cbn [fst]. apply ready_UI; [exact I|rewrite Er; intros x H; right; exact H|].
    pose proof (ui_live s I) as L. unfold live in L. rewrite Er in L. apply NoDup_app_iff' in L. destruct L as (L & _). inversion L; assumption.
Qed.
Lemma run_UI os : forall s, UI s -> UI (fst (urun s os)).
Proof.
  induction os as [|o os IH]; intros s I; [exact I|]. cbn [urun]. pose proof (step_UI s o I) as I1.
  destruct (ustep s o) as [s1 a]. cbn [fst] in *. specialize (IH s1 I1). destruct (urun s1 os). exact IH.
Qed.

(** ** Each yield is woken at most once *)
Lemma trigger_live s : live (fst (trigger s)) = live s /\ u_next (fst (trigger s)) = u_next s /\ (snd (trigger s) = UOk \/ snd (trigger s) = URuntime).
Proof.
  unfold trigger. destruct (nth_error (u_evs s) (u_cur s)) as [[[] ws]|] eqn:E; cbn [fst snd u_next]; auto.
  split; [|auto]. unfold live. cbn [u_ready u_evs]. f_equal. eapply upd_same_waiters; eauto.
Qed.
Lemma register_live s : (u_cur s < length (u_evs s))%nat -> Permutation (live (fst (register s))) (u_next s :: live s) /\
  snd (register s) = UWaits (u_next s) /\ u_next (fst (register s)) = S (u_next s).
Proof.
  intro L. unfold register. destruct (nth_error (u_evs s) (u_cur s)) as [[k ws]|] eqn:E; [|apply nth_error_None in E; lia].
  cbn [fst snd u_next]. split; [|auto]. unfold live. cbn [u_ready u_evs].
  transitivity (u_ready s ++ u_next s :: flat_map v_waiters (u_evs s)); [|symmetry; apply Permutation_middle]. apply Permutation_app_head.
  apply (Permutation_app_inv_l ws). rewrite (upd_waiters _ _ _ (ws ++ [u_next s]) E k). rewrite <- app_assoc. reflexivity.
Qed.
Lemma reset_live s : live (do_reset s) = live s.
Proof. unfold live, do_reset. cbn [u_ready u_evs]. rewrite flat_map_app. cbn. rewrite app_nil_r. reflexivity. Qed.
Lemma step_live s o : UI s -> let e := [(o, snd (ustep s o))] in
  Permutation (woken e ++ live (fst (ustep s o))) (live s ++ waits e) /\
  (waits e = [] /\ u_next (fst (ustep s o)) = u_next s \/ waits e = [u_next s] /\ u_next (fst (ustep s o)) = S (u_next s)).
Proof.
  intro I. cbn zeta.
  assert (SAME : forall s' a, live s' = live s -> u_next s' = u_next s -> woken [(o, a)] = [] -> waits [(o, a)] = [] ->
    Permutation (woken [(o, a)] ++ live s') (live s ++ waits [(o, a)]) /\
    (waits [(o, a)] = [] /\ u_next s' = u_next s \/ waits [(o, a)] = [u_next s] /\ u_next s' = S (u_next s))).
  { intros s' a E1 E2 E3 E4. rewrite E3, E4, E1, app_nil_r. cbn. auto. }
  assert (REG : forall t, (u_cur t < length (u_evs t))%nat -> live t = live s -> u_next t = u_next s ->
    Permutation (woken [(o, snd (register t))] ++ live (fst (register t))) (live s ++ waits [(o, snd (register t))]) /\
    (waits [(o, snd (register t))] = [] /\ u_next (fst (register t)) = u_next s \/
     waits [(o, snd (register t))] = [u_next s] /\ u_next (fst (register t)) = S (u_next s))).
  { intros t Lt E1 E2. destruct (register_live t Lt) as (P & -> & N). rewrite N. cbn. rewrite E2 in *. split; [|auto].
    rewrite P, E1. apply Permutation_cons_append. }
  destruct o; cbn [ustep].
  - destruct (complete s) eqn:C; [|apply REG; [apply I|reflexivity|reflexivity]].
    destruct (u_auto s); [|apply SAME; reflexivity]. apply REG; [|apply reset_live|reflexivity].
    cbn [do_reset u_cur u_evs]. rewrite app_length. simpl. lia.
  - destruct (complete s); [apply SAME; reflexivity|]. destruct (trigger_live (set_payload s p)) as (E1 & E2 & [E3|E3]); rewrite E3; apply SAME; auto.
  - apply SAME; [apply reset_live|reflexivity|reflexivity|reflexivity].
  - destruct (trigger_live s) as (E1 & E2 & [E3|E3]); rewrite E3; apply SAME; auto.
  - destruct (u_ready s) as [|? ?] eqn:Er; [|apply SAME; reflexivity]. destruct (u_agenda s) as [|e ag]; [apply SAME; reflexivity|].
    destruct (nth_error (u_evs s) e) as [v|] eqn:Ev; [|apply SAME; reflexivity]. cbn [fst snd u_next]. cbn [woken wakings waits flat_map snd map app].
    split; [|auto]. rewrite app_nil_r. unfold live. cbn [u_ready u_evs]. rewrite Er. cbn [app]. exact (upd_waiters e v (u_evs s) [] Ev EProcessed).
  - destruct (u_ready s) as [|w ws] eqn:Er; [apply SAME; reflexivity|]. cbn [fst snd u_next woken wakings waits flat_map map app]. split; [|auto].
    rewrite app_nil_r. unfold live. cbn [u_ready u_evs]. rewrite Er. reflexivity.
Qed.
Lemma woken_cons e tr : woken (e :: tr) = woken [e] ++ woken tr.
Proof. unfold woken, wakings. cbn [flat_map]. rewrite app_nil_r, map_app. reflexivity. Qed.
Lemma woken_app a b : woken (a ++ b) = woken a ++ woken b.
Proof. unfold woken, wakings. rewrite flat_map_app, map_app. reflexivity. Qed.
Lemma waits_cons e tr : waits (e :: tr) = waits [e] ++ waits tr.
Proof. unfold waits. cbn [flat_map]. rewrite app_nil_r. reflexivity. Qed.
Lemma run_live os : forall s, UI s -> let '(s', tr) := urun s os in
  Permutation (woken tr ++ live s') (live s ++ waits tr) /\ waits tr = seq (u_next s) (length (waits tr)) /\
  u_next s' = (u_next s + length (waits tr))%nat.
Proof.
  induction os as [|o os IH]; intros s I; cbn [urun].
  - cbn. rewrite app_nil_r. split; [reflexivity|]. split; [reflexivity|lia].
  - pose proof (step_UI s o I) as I1. destruct (step_live s o I) as [P Q]. cbn zeta in *.
    destruct (ustep s o) as [s1 a]. cbn [fst snd] in *. specialize (IH s1 I1). destruct (urun s1 os) as [s2 l].
    destruct IH as (P2 & W2 & N2). rewrite woken_cons, waits_cons. split.
    + rewrite <- app_assoc, P2. rewrite !app_assoc. rewrite P. reflexivity.
    + destruct Q as [[-> E]|[-> E]]; rewrite E in *; cbn [app length]; [auto|]. split; [|lia]. cbn [seq]. f_equal. exact W2.
Qed.

(** ** A success reaches everybody waiting *)
Definition on_way (s : ust) (w : nat) : Prop :=
  (exists e v, nth_error (u_evs s) e = Some v /\ v_stat v = ETriggered /\ In w (v_waiters v)) \/ In w (u_ready s).
Lemma on_way_evs s s' w : (forall e v, nth_error (u_evs s) e = Some v -> v_stat v = ETriggered ->
    exists e' v', nth_error (u_evs s') e' = Some v' /\ v_stat v' = ETriggered /\ (In w (v_waiters v) -> In w (v_waiters v'))) ->
  (In w (u_ready s) -> In w (u_ready s')) -> on_way s w -> on_way s' w.
Proof.
  intros H1 H2 [(e & v & A & B & C)|H]; [|right; auto]. left. destruct (H1 e v A B) as (e' & v' & A' & B' & C'). exists e', v'. auto.
Qed.
Lemma reset_way s w : on_way s w -> on_way (do_reset s) w.
Proof.
  apply on_way_evs; [|auto]. intros e v A B. exists e, v. cbn [do_reset u_evs]. rewrite nth_error_app1; [auto|].
  apply nth_error_Some. rewrite A. discriminate.
Qed.
Lemma register_way s w : on_way s w -> on_way (fst (register s)) w.
Proof.
  unfold register. destruct (nth_error (u_evs s) (u_cur s)) as [[k ws]|] eqn:E; [|auto]. cbn [fst].
  apply on_way_evs; [|auto]. intros e v A B. exists e. cbn [u_evs]. rewrite nth_upd. destruct (Nat.eqb (u_cur s) e) eqn:Ex.
  - apply Nat.eqb_eq in Ex. subst e. rewrite A. rewrite E in A. inversion A; subst. exists (mkSev k (ws ++ [u_next s])). cbn in *.
    split; [reflexivity|]. split; [exact B|]. intro H. apply in_or_app. auto.
  - exists v. auto.
Qed.
Lemma trigger_way s w : on_way s w -> on_way (fst (trigger s)) w.
Proof.
  unfold trigger. destruct (nth_error (u_evs s) (u_cur s)) as [[[] ws]|] eqn:E; auto. cbn [fst].
  apply on_way_evs; [|auto]. intros e v A B. exists e. cbn [u_evs]. rewrite nth_upd. destruct (Nat.eqb (u_cur s) e) eqn:Ex.
  - apply Nat.eqb_eq in Ex. subst e. rewrite E in A. inversion A; subst. discriminate.
  - exists v. auto.
Qed.
Lemma step_way s o w : UI s -> on_way s w -> on_way (fst (ustep s o)) w \/ In w (woken [(o, snd (ustep s o))]).
Proof.
  intros I H. destruct o; cbn [ustep].
  - left. destruct (complete s); [destruct (u_auto s); [apply register_way, reset_way; exact H|exact H]|apply register_way; exact H].
  - left. destruct (complete s); [exact H|]. apply trigger_way. exact H.
  - left. apply reset_way. exact H.
  - left. apply trigger_way. exact H.
  - left. destruct (u_ready s) as [|? ?] eqn:Er; [|exact H]. destruct (u_agenda s) as [|e ag]; [exact H|].
    destruct (nth_error (u_evs s) e) as [v|] eqn:Ev; [|exact H]. cbn [fst]. destruct H as [(x & v' & A & B & C)|H]; [|rewrite Er in H; destruct H].
    destruct (Nat.eqb e x) eqn:Ex.
    + apply Nat.eqb_eq in Ex. subst x. right. cbn [u_ready]. rewrite Ev in A. inversion A; subst. exact C.
    + left. exists x, v'. cbn [u_evs]. rewrite nth_upd, Ex. auto.
  - destruct (u_ready s) as [|x ws] eqn:Er; [left; exact H|]. cbn [fst snd]. destruct H as [H|H]; [left; left; exact H|].
    rewrite Er in H. destruct H as [->|H]; [right; left; reflexivity|]. left. right. exact H.
Qed.
Lemma run_way os : forall s w, UI s -> on_way s w -> let '(s', tr) := urun s os in on_way s' w \/ In w (woken tr).
Proof.
  induction os as [|o os IH]; intros s w I H; cbn [urun]; [auto|]. pose proof (step_UI s o I) as I1. pose proof (step_way s o w I H) as S.
  destruct (ustep s o) as [s1 a]. cbn [fst snd] in *.
  specialize (IH s1 w I1). destruct (urun s1 os) as [s2 l]. rewrite woken_cons, in_app_iff. destruct S as [S|S]; [|auto]. destruct (IH S); auto.
Qed.
Lemma quiet_no_way s w : UI s -> quiet s -> ~ on_way s w.
Proof.
  intros I [Q1 Q2] [(e & [k ws] & A & B & C)|H]; [|rewrite Q2 in H; exact H]. cbn in B. subst k.
  assert (In e (u_agenda s)) by (apply (ui_ag s I); eauto). rewrite Q1 in H. exact H.
Qed.
Lemma accept_way s p w : UI s -> snd (ustep s (USucceed p)) = UOk -> waiting s w -> on_way (fst (ustep s (USucceed p))) w.
Proof.
  intros I A (v & E & W). cbn [ustep] in *. destruct (complete s); [discriminate|]. unfold trigger in *. cbn [set_payload u_evs u_cur] in *.
  rewrite E in *. destruct v as [[] ws]; try discriminate. left. exists (u_cur s), (mkSev ETriggered ws). cbn [fst u_evs set_payload u_cur].
  rewrite nth_upd, Nat.eqb_refl, E. auto.
Qed.

(** ** Nobody is woken without a trigger *)
Definition dormant (s : ust) (w : nat) : Prop :=
  exists e v, nth_error (u_evs s) e = Some v /\ v_stat v = EPending /\ In w (v_waiters v).
Lemma dormant_live s w : dormant s w -> In w (live s).
Proof. intros (e & v & A & _ & C). unfold live. apply in_or_app. right. apply in_flat_map. exists v. split; [eapply nth_error_In; eauto|exact C]. Qed.
Lemma dormant_not_ready s w : UI s -> dormant s w -> ~ In w (u_ready s).
Proof.
  intros I (e & v & A & _ & C) H. pose proof (ui_live s I) as L. unfold live in L. apply NoDup_app_iff' in L. destruct L as (_ & _ & L).
  apply (L w H). apply in_flat_map. exists v. split; [eapply nth_error_In; eauto|exact C].
Qed.
Lemma reset_dormant s w : dormant s w -> dormant (do_reset s) w.
Proof.
  intros (e & v & A & B & C). exists e, v. split; [|auto]. cbn [do_reset u_evs]. rewrite nth_error_app1; [exact A|]. apply nth_error_Some. congruence.
Qed.
Lemma register_dormant s w : dormant s w -> dormant (fst (register s)) w.
Proof.
  intros (e & v & A & B & C). unfold register. destruct (nth_error (u_evs s) (u_cur s)) as [[k ws]|] eqn:E; [|exists e, v; auto].
  cbn [fst]. destruct (Nat.eqb (u_cur s) e) eqn:Ex.
  - apply Nat.eqb_eq in Ex. subst e. rewrite E in A. inversion A; subst. exists (u_cur s), (mkSev k (ws ++ [u_next s])).
    cbn [u_evs]. rewrite nth_upd, Nat.eqb_refl, E. split; [reflexivity|]. split; [exact B|]. cbn. apply in_or_app. auto.
  - exists e, v. cbn [u_evs]. rewrite nth_upd, Ex. auto.
Qed.
Lemma step_dormant s o w : UI s -> dormant s w -> is_trigger (o, snd (ustep s o)) = false ->
  dormant (fst (ustep s o)) w /\ ~ In w (woken [(o, snd (ustep s o))]).
Proof.
  intros I D T. destruct o; cbn [ustep] in *.
  - assert (N : forall t, woken [(UYield, snd (register t))] = []) by (intro t; unfold register; destruct (nth_error _ _) as [[? ?]|]; reflexivity).
    destruct (complete s); [destruct (u_auto s)|].
    + rewrite N. split; [apply register_dormant, reset_dormant; exact D|intros []].
    + split; [exact D|intros []].
    + rewrite N. split; [apply register_dormant; exact D|intros []].
  - destruct (complete s); [split; [exact D|intros []]|]. unfold trigger in *. cbn [set_payload u_evs u_cur] in *.
    destruct (nth_error (u_evs s) (u_cur s)) as [[[] ws]|]; try discriminate; (split; [exact D|intros []]).
  - split; [apply reset_dormant; exact D|intros []].
  - unfold trigger in *. destruct (nth_error (u_evs s) (u_cur s)) as [[[] ws]|]; try discriminate; (split; [exact D|intros []]).
  - destruct (u_ready s) as [|? ?] eqn:Er; [|split; [exact D|intros []]]. destruct (u_agenda s) as [|e ag] eqn:Ea; [split; [exact D|intros []]|].
    destruct (nth_error (u_evs s) e) as [v|] eqn:Ev; [|split; [exact D|intros []]]. split; [|intros []]. cbn [fst].
    destruct D as (x & v' & A & B & C). exists x, v'. split; [|auto]. cbn [u_evs]. rewrite nth_upd. destruct (Nat.eqb e x) eqn:Ex; [|exact A].
    apply Nat.eqb_eq in Ex. subst x. assert (X : In e (u_agenda s)) by (rewrite Ea; left; reflexivity). apply (ui_ag s I) in X.
    destruct X as [ws X]. rewrite X in A. inversion A; subst. discriminate.
  - destruct (u_ready s) as [|x ws] eqn:Er; [split; [exact D|intros []]|]. split; [exact D|]. cbn.
    intros [->|[]]. apply (dormant_not_ready s w I D). rewrite Er. left. reflexivity.
Qed.
Lemma run_dormant os : forall s w, UI s -> dormant s w -> let '(s', tr) := urun s os in
  existsb is_trigger tr = false -> dormant s' w /\ ~ In w (woken tr).
Proof.
  induction os as [|o os IH]; intros s w I D; cbn [urun]; [intros _; split; [exact D|intros []]|].
  pose proof (step_UI s o I) as I1. pose proof (step_dormant s o w I D) as S.
  destruct (ustep s o) as [s1 a]. cbn [fst snd] in *. specialize (IH s1 w I1). destruct (urun s1 os) as [s2 l].
  cbn [existsb]. intro T. apply orb_false_elim in T. destruct T as [T1 T2]. destruct (S T1) as [D1 N1]. destruct (IH D1 T2) as [D2 N2].
  split; [exact D2|]. rewrite woken_cons, in_app_iff. tauto.
Qed.
Lemma yield_dormant s w : UI s -> quiet s -> snd (ustep s UYield) = UWaits w -> dormant (fst (ustep s UYield)) w.
Proof.
  intros I [Q _] E. cbn [ustep] in *.
  assert (REG : forall t, UI t -> u_agenda t = [] -> complete t = false -> snd (register t) = UWaits w -> dormant (fst (register t)) w).
  { intros t It Qt Ct Et. unfold register, complete, cur_stat in *. destruct (nth_error (u_evs t) (u_cur t)) as [[k ws]|] eqn:X; [|discriminate].
    cbn [fst snd] in *. inversion Et; subst. exists (u_cur t), (mkSev k (ws ++ [u_next t])). cbn [u_evs]. rewrite nth_upd, Nat.eqb_refl, X.
    split; [reflexivity|]. split; [|cbn; apply in_or_app; right; left; reflexivity]. cbn in *. destruct k; [reflexivity| |discriminate].
    exfalso. assert (Y : In (u_cur t) (u_agenda t)) by (apply (ui_ag t It); eauto). rewrite Qt in Y. exact Y. }
  destruct (complete s) eqn:C; [destruct (u_auto s); [|discriminate]|].
  - apply REG; auto; [apply reset_UI; exact I|apply reset_fresh].
  - apply REG; auto.
Qed.
(** Processes left behind by a reset. *)
Definition stranded (s : ust) (w : nat) : Prop :=
  exists e v, nth_error (u_evs s) e = Some v /\ v_stat v = EPending /\ In w (v_waiters v) /\ e <> u_cur s.
Lemma stranded_dormant s w : stranded s w -> dormant s w.
Proof. intros (e & v & A & B & C & _). exists e, v. auto. Qed.
Lemma reset_stranded s w : stranded s w -> stranded (do_reset s) w.
Proof.
  intros (e & v & A & B & C & D). exists e, v. assert (L : (e < length (u_evs s))%nat) by (apply nth_error_Some; congruence).
  split; [|split; [exact B|split; [exact C|]]]; cbn [do_reset u_evs u_cur]; [rewrite nth_error_app1; [exact A|exact L]|lia].
Qed.
Lemma step_stranded s o w : UI s -> stranded s w -> stranded (fst (ustep s o)) w /\ ~ In w (woken [(o, snd (ustep s o))]).
Proof.
  intros I D.
  assert (CUR : forall t v0 pl x y z n, stranded t w -> stranded (mkU (upd (u_cur t) v0 (u_evs t)) (u_cur t) pl x y z n) w).
  { intros t v0 pl x y z n (e & v & A & B & C & F). exists e, v. cbn [u_evs u_cur]. rewrite nth_upd.
    destruct (Nat.eqb (u_cur t) e) eqn:Ex; [apply Nat.eqb_eq in Ex; congruence|auto]. }
  assert (TRG : forall t o', stranded t w -> stranded (fst (trigger t)) w /\ ~ In w (woken [(o', snd (trigger t))])).
  { intros t o' Dt. unfold trigger. destruct (nth_error (u_evs t) (u_cur t)) as [[[] ws]|]; try (split; [exact Dt|intros []]).
    split; [apply CUR; exact Dt|intros []]. }
  assert (REG : forall t o', stranded t w -> stranded (fst (register t)) w /\ ~ In w (woken [(o', snd (register t))])).
  { intros t o' Dt. unfold register. destruct (nth_error (u_evs t) (u_cur t)) as [[k ws]|]; [|split; [exact Dt|intros []]].
    split; [apply CUR; exact Dt|intros []]. }
  pose proof (stranded_dormant s w D) as DD.
  destruct o; cbn [ustep].
  - destruct (complete s); [destruct (u_auto s)|]; [apply REG, reset_stranded; exact D|split; [exact D|intros []]|apply REG; exact D].
  - destruct (complete s); [split; [exact D|intros []]|]. apply TRG. exact D.
  - split; [apply reset_stranded; exact D|intros []].
  - apply TRG. exact D.
  - destruct (u_ready s) as [|? ?] eqn:Er; [|split; [exact D|intros []]]. destruct (u_agenda s) as [|e ag] eqn:Ea; [split; [exact D|intros []]|].
    destruct (nth_error (u_evs s) e) as [v|] eqn:Ev; [|split; [exact D|intros []]]. split; [|intros []]. cbn [fst].
    destruct D as (x & v' & A & B & C & F). exists x, v'. split; [|auto]. cbn [u_evs]. rewrite nth_upd. destruct (Nat.eqb e x) eqn:Ex; [|exact A].
    apply Nat.eqb_eq in Ex. subst x. assert (X : In e (u_agenda s)) by (rewrite Ea; left; reflexivity). apply (ui_ag s I) in X.
    destruct X as [ws X]. rewrite X in A. inversion A; subst. discriminate.
  - destruct (u_ready s) as [|x ws] eqn:Er; [split; [exact D|intros []]|]. split; [exact D|]. cbn.
    intros [->|[]]. apply (dormant_not_ready s w I DD). rewrite Er. left. reflexivity.
Qed.
Lemma run_stranded os : forall s w, UI s -> stranded s w -> ~ In w (woken (snd (urun s os))).
Proof.
  induction os as [|o os IH]; intros s w I D; cbn [urun]; [intros []|].
  pose proof (step_UI s o I) as I1. destruct (step_stranded s o w I D) as [S1 S2].
  destruct (ustep s o) as [s1 a]. cbn [fst snd] in *. specialize (IH s1 w I1 S1). destruct (urun s1 os) as [s2 l]. cbn [snd] in *.
  rewrite woken_cons, in_app_iff. tauto.
Qed.

(** ** Payloads *)
Lemma trigger_payload s : u_payload (fst (trigger s)) = u_payload s.
Proof. unfold trigger. destruct (nth_error (u_evs s) (u_cur s)) as [[[] ws]|]; reflexivity. Qed.
Lemma register_payload s : u_payload (fst (register s)) = u_payload s.
Proof. unfold register. destruct (nth_error (u_evs s) (u_cur s)) as [[? ?]|]; reflexivity. Qed.
Lemma step_payload s o : UI s -> (match o with USucceed _ => quiet s | _ => True end) ->
  u_payload (fst (ustep s o)) = latest (u_payload s) [(o, snd (ustep s o))] /\
  Forall (fun e => snd e = u_payload s) (wakings [(o, snd (ustep s o))]).
Proof.
  intros I Q. destruct o; cbn [ustep].
  - assert (R : forall t, u_payload t = u_payload s -> u_payload (fst (register t)) = latest (u_payload s) [(UYield, snd (register t))] /\
      Forall (fun e => snd e = u_payload s) (wakings [(UYield, snd (register t))])).
    { intros t E. rewrite register_payload. unfold register. destruct (nth_error (u_evs t) (u_cur t)) as [[? ?]|]; cbn; auto. }
    destruct (complete s); [destruct (u_auto s)|]; [apply R; reflexivity|cbn; auto|apply R; reflexivity].
  - destruct (complete s) eqn:C; [cbn; auto|]. rewrite trigger_payload. cbn [set_payload u_payload]. unfold trigger. cbn [set_payload u_evs u_cur].
    unfold complete, cur_stat in C. destruct (nth_error (u_evs s) (u_cur s)) as [[[] ws]|] eqn:E.
    + cbn. auto.
    + exfalso. assert (X : In (u_cur s) (u_agenda s)) by (apply (ui_ag s I); eauto). rewrite (proj1 Q) in X. exact X.
    + cbn in C. discriminate.
    + apply nth_error_None in E. pose proof (ui_cur s I). lia.
  - cbn. auto.
  - rewrite trigger_payload. unfold trigger. destruct (nth_error (u_evs s) (u_cur s)) as [[[] ws]|]; cbn; auto.
  - destruct (u_ready s); [|cbn; auto]. destruct (u_agenda s); [cbn; auto|]. destruct (nth_error (u_evs s) _); cbn; auto.
  - destruct (u_ready s); [cbn; auto|]. cbn. auto.
Qed.
Lemma patient_split a : forall s o b, patient s (a ++ o :: b) -> patient (fst (urun s a)) (o :: b).
Proof.
  induction a as [|x a IH]; intros s o b H; [exact H|]. cbn [app urun] in *. destruct H as [_ H]. destruct (ustep s x) as [s1 y].
  cbn [fst] in *. specialize (IH s1 o b H). destruct (urun s1 a). exact IH.
Qed.
Lemma run_payload os : forall s, UI s -> patient s os -> let '(s', tr) := urun s os in u_payload s' = latest (u_payload s) tr.
Proof.
  induction os as [|o os IH]; intros s I P; cbn [urun]; [reflexivity|]. destruct P as [P1 P2].
  pose proof (step_UI s o I) as I1. destruct (step_payload s o I P1) as [L _]. destruct (ustep s o) as [s1 a]. cbn [fst snd] in *.
  specialize (IH s1 I1 P2). destruct (urun s1 os) as [s2 l]. rewrite IH, L. reflexivity.
Qed.
(** Splitting a trace splits the run. *)
Lemma urun_app a : forall s b, urun s (a ++ b) = (fst (urun (fst (urun s a)) b), snd (urun s a) ++ snd (urun (fst (urun s a)) b)).
Proof.
  induction a as [|o a IH]; intros s b; cbn [app urun fst snd]; [apply surjective_pairing|]. destruct (ustep s o) as [s1 x]. rewrite IH.
  destruct (urun s1 a) as [s2 l]. reflexivity.
Qed.
Lemma urun_split os : forall s t1 e t2, snd (urun s os) = t1 ++ e :: t2 ->
  exists a b, os = a ++ fst e :: b /\ t1 = snd (urun s a) /\ e = (fst e, snd (ustep (fst (urun s a)) (fst e))).
Proof.
  induction os as [|o os IH]; intros s t1 e t2 H; cbn [urun snd] in H; [destruct t1; discriminate|].
  destruct (ustep s o) as [s1 x] eqn:E. destruct (urun s1 os) as [s2 l] eqn:R. cbn [snd] in H. destruct t1 as [|e1 t1].
  - inversion H; subst. exists [], os. cbn. rewrite E. auto.
  - inversion H; subst. specialize (IH s1 t1 e t2). rewrite R in IH. destruct (IH eq_refl) as (a & b & -> & -> & X).
    exists (o :: a), b. split; [reflexivity|]. cbn [urun]. rewrite E. destruct (urun s1 a). auto.
Qed.
Lemma on_way_busy s w : UI s -> on_way s w -> ~ quiet s.
Proof. intros I O Q. exact (quiet_no_way s w I Q O). Qed.
Lemma woken_wakings tr w : In w (woken tr) <-> exists p, In (w, p) (wakings tr).
Proof.
  unfold woken. rewrite in_map_iff. split.
  - intros ([x p] & E & H). cbn in E. subst. eauto.
  - intros [p H]. exists (w, p). auto.
Qed.
Lemma wakings_cons e tr : wakings (e :: tr) = wakings [e] ++ wakings tr.
Proof. unfold wakings. cbn [flat_map]. rewrite app_nil_r. reflexivity. Qed.
Lemma not_again os s w : UI s -> ~ In w (live s) -> (w < u_next s)%nat -> ~ In w (woken (snd (urun s os))).
Proof.
  intros I NL B H. pose proof (run_live os s I) as RL. destruct (urun s os) as [s2 l]. cbn [snd] in H. destruct RL as (PL & WS & _).
  assert (X : In w (live s ++ waits l)) by (apply (Permutation_in _ PL); apply in_or_app; left; exact H).
  apply in_app_or in X. destruct X as [X|X]; [contradiction|]. rewrite WS in X. apply in_seq in X. lia.
Qed.
Lemma step_woken s o w : UI s -> In w (woken [(o, snd (ustep s o))]) ->
  ~ In w (live (fst (ustep s o))) /\ (w < u_next (fst (ustep s o)))%nat.
Proof.
  intros I H. destruct (step_live s o I) as [PM Q]. cbn zeta in *.
  assert (WN : waits [(o, snd (ustep s o))] = []) by (clear - H; destruct (snd (ustep s o)); cbn in *; try contradiction; reflexivity).
  rewrite WN in *. rewrite app_nil_r in PM. split.
  - intro L. pose proof (Permutation_NoDup (Permutation_sym PM) (ui_live s I)) as N. apply NoDup_app_iff' in N.
    destruct N as (_ & _ & N). exact (N w H L).
  - destruct Q as [[_ E]|[E _]]; [|discriminate]. rewrite E. apply (ui_bound s I). apply (Permutation_in _ PM). apply in_or_app. auto.
Qed.
(** While a process is on its way to be woken the payload does not change. *)
Lemma run_deliver os : forall s w, UI s -> on_way s w -> patient s os ->
  forall q, In (w, q) (wakings (snd (urun s os))) -> q = u_payload s.
Proof.
  induction os as [|o os IH]; intros s w I O P q; cbn [urun]; [intros []|]. destruct P as [P1 P2].
  pose proof (step_UI s o I) as I1. destruct (step_payload s o I P1) as [L F]. pose proof (step_way s o w I O) as W.
  pose proof (step_woken s o w I) as SW. pose proof (not_again os (fst (ustep s o)) w I1) as NA.
  assert (NS : forall p, o <> USucceed p) by (intros p ->; exact (on_way_busy s w I O P1)).
  destruct (ustep s o) as [s1 a]. cbn [fst snd] in *. pose proof (IH s1 w I1) as IH1. destruct (urun s1 os) as [s2 l]. cbn [snd] in *.
  rewrite wakings_cons, in_app_iff. intros [H|H].
  - rewrite Forall_forall in F. exact (F _ H).
  - destruct W as [W|W].
    + rewrite (IH1 W P2 q H), L. destruct o; cbn; try reflexivity. exfalso. eapply NS; reflexivity.
    + exfalso. destruct (SW W) as [S1 S2]. apply (NA S1 S2). apply woken_wakings. eauto.
Qed.
