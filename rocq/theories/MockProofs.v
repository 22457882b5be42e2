From Verif Require Import Common MockModel MockSpec.

Lemma upd_length {A} i (x : A) l : length (upd i x l) = length l.
Proof.
  unfold upd. destruct (Nat.ltb_spec i (length l)) as [L|L]; [|reflexivity].
  rewrite app_length, firstn_length. cbn [length]. rewrite skipn_length. lia.
Qed.
Lemma nth_upd {A} i (x d : A) l j : nth j (upd i x l) d = if Nat.eqb j i && (i <? length l)%nat then x else nth j l d.
Proof.
  unfold upd. destruct (Nat.ltb_spec i (length l)) as [L|L]; [|now rewrite andb_false_r]. rewrite andb_true_r.
  revert i j L. induction l as [|y l IH]; intros i j L; [cbn in L; lia|].
  destruct i as [|i]; cbn [firstn skipn app].
  - destruct j as [|j]; reflexivity.
  - destruct j as [|j]; [reflexivity|]. cbn [nth]. cbn in L. rewrite IH by lia. reflexivity.
Qed.
Lemma task_set w t k t' : task_of (set_task t k w) t' = if Nat.eqb t' t && (t <? length (w_tasks w))%nat then k else task_of w t'.
Proof. unfold task_of, set_task. cbn. apply nth_upd. Qed.
Lemma actor_set w u a x : actor_of (set_actor u a w) x = if Nat.eqb x u && (u <? length (w_actors w))%nat then a else actor_of w x.
Proof. unfold actor_of, set_actor. cbn. apply nth_upd. Qed.
Lemma task_out w t : (length (w_tasks w) <= t)%nat -> task_of w t = no_task.
Proof. intro L. unfold task_of. now apply nth_overflow. Qed.

Section MockProofs.
Variable clonable : Z -> bool.
Notation run_body := (run_body clonable). Notation begin := (begin clonable).

(** ** Task objects *)
Definition frame (w w' : world) : Prop :=
  length (w_tasks w') = length (w_tasks w) /\
  forall t, k_env (task_of w' t) = k_env (task_of w t) /\ (k_reh (task_of w' t) = true -> k_reh (task_of w t) = true).
Lemma frame_refl w : frame w w.
Proof. split; auto. Qed.
Lemma frame_trans w w1 w2 : frame w w1 -> frame w1 w2 -> frame w w2.
Proof.
  intros [A B] [C D]. split; [congruence|]. intro t. destruct (B t), (D t). split; [congruence|auto].
Qed.
Lemma step_frame dec t u s w w' o ok : do_step dec t u s w = (w', o, ok) -> frame w w'.
Proof.
  destruct s; cbn [do_step]; intro H.
  - destruct dec; [inversion H; apply frame_refl|]. destruct (a_env _); inversion H; [split; [reflexivity|intro; split; auto]|apply frame_refl].
  - inversion H. apply frame_refl.
  - inversion H. apply frame_refl.
  - inversion H; subst. unfold mark. split; [unfold set_task; cbn; apply upd_length|]. intro t'. rewrite task_set.
    destruct (Nat.eqb_spec t' t) as [->|N]; cbn [andb]; [|split; auto]. destruct (_ <? _)%nat; cbn; split; auto.
  - inversion H; subst. unfold clear. split; [unfold set_task; cbn; apply upd_length|]. intro t'. rewrite task_set.
    destruct (Nat.eqb_spec t' t) as [->|N]; cbn [andb]; [|split; auto]. destruct (_ <? _)%nat; cbn; split; auto.
  - inversion H; subst. split; [reflexivity|intro; split; auto].
  - destruct (k_reh _); inversion H; apply frame_refl.
  - inversion H. apply frame_refl.
Qed.
Lemma put_env_task w t e t' : task_of (put_env t e w) t' =
  if Nat.eqb t' t && (t <? length (w_tasks w))%nat then with_env (task_of w t) e else task_of w t'.
Proof. unfold put_env. apply task_set. Qed.
Lemma put_reh_task w t e t' : task_of (put_reh t e w) t' =
  if Nat.eqb t' t && (t <? length (w_tasks w))%nat then with_reh (task_of w t) e else task_of w t'.
Proof. unfold put_reh. apply task_set. Qed.
Lemma put_env_len w t e : length (w_tasks (put_env t e w)) = length (w_tasks w).
Proof. unfold put_env, set_task. cbn. apply upd_length. Qed.
Lemma put_reh_len w t e : length (w_tasks (put_reh t e w)) = length (w_tasks w).
Proof. unfold put_reh, set_task. cbn. apply upd_length. Qed.
(** Others are not touched by the start of a rehearsal. *)
Lemma begin_others dec cloned t who w w' o u : begin dec cloned t who w = (w', o, u) ->
  length (w_tasks w') = length (w_tasks w) /\ forall t', t' <> t -> task_of w' t' = task_of w t'.
Proof.
  unfold MockModel.begin. intro H.
  assert (C : forall w1 o1 u1, (if cloned then (w, [], Some who) else clone_actor clonable t who w) = (w1, o1, u1) ->
     length (w_tasks w1) = length (w_tasks w) /\ forall t', t' <> t -> task_of w1 t' = task_of w t').
  { intros w1 o1 u1 E. destruct cloned; [inversion E; subst; auto|]. unfold clone_actor in E.
    destruct (clonable _); inversion E; subst; unfold put_env, set_task; cbn [w_tasks]; (split; [rewrite upd_length; reflexivity|]); intros t' N;
      unfold task_of; cbn [w_tasks]; rewrite nth_upd; apply Nat.eqb_neq in N; now rewrite N. }
  destruct (if cloned then _ else _) as [[w1 o1] u1]. specialize (C w1 o1 u1 eq_refl). destruct C as [C1 C2].
  destruct u1 as [u1|]; [|inversion H; subst; auto].
  destruct (negb dec && _); inversion H; subst; [auto|]. split; [rewrite put_reh_len, put_env_len; exact C1|].
  intros t' N. pose proof N as N'. apply Nat.eqb_neq in N. rewrite put_reh_task, N. cbn [andb]. rewrite put_env_task, N. cbn [andb]. now apply C2.
Qed.
Lemma body_frame b : forall dec t u w w' o, run_body dec t u b w = (w', o, true) -> frame w w'.
Proof.
  induction b as [|s b IH|dec' cloned t' who inner IHi rest IHr]; intros dec t u w w' o H; cbn [MockModel.run_body] in H.
  - inversion H. apply frame_refl.
  - destruct (do_step dec t u s w) as [[w1 o1] ok] eqn:S1. destruct ok; [|discriminate].
    destruct (run_body dec t u b w1) as [[w2 o2] ok2] eqn:R. inversion H; subst.
    eapply frame_trans; [eapply step_frame; exact S1|eapply IH; exact R].
  - destruct (begin dec' cloned t' who w) as [[w1 o1] [u'|]] eqn:B; [|discriminate].
    destruct (run_body dec' t' u' inner w1) as [[w2 o2] ok2] eqn:R. destruct ok2; [|discriminate].
    destruct (run_body dec t u rest _) as [[w4 o4] ok4] eqn:R4. inversion H; subst.
    eapply frame_trans; [|eapply IHr; exact R4].
    destruct (begin_others _ _ _ _ _ _ _ _ B) as [L1 O1]. destruct (IHi _ _ _ _ _ _ R) as [L2 F2].
    split; [rewrite put_reh_len, put_env_len; congruence|]. intro t0.
    rewrite put_reh_task, put_env_len, L2, L1.
    destruct (Nat.eqb_spec t0 t') as [->|N]; cbn [andb].
    + destruct (Nat.ltb_spec t' (length (w_tasks w))) as [L|L].
      * unfold with_reh. cbn [k_env k_reh]. rewrite put_env_task, Nat.eqb_refl, L2, L1. apply Nat.ltb_lt in L. rewrite L. cbn. split; [reflexivity|discriminate].
      * rewrite !task_out by (rewrite ?put_env_len, ?L2, ?L1; exact L). auto.
    + rewrite put_env_task. pose proof N as N'. apply Nat.eqb_neq in N'. rewrite N'. cbn [andb]. destruct (F2 t0) as [E X]. rewrite (O1 t0 N) in *. auto.
Qed.
Lemma rehearse_clean dec cloned t who b w w' o : all_clean w -> rehearse clonable dec cloned t who b w = (w', o, true) -> all_clean w'.
Proof.
  intros A H t0. apply body_frame in H. destruct H as [_ F]. destruct (F t0) as [E X]. destruct (A t0) as [A1 A2].
  split; [congruence|]. destruct (k_reh (task_of w' t0)); [|reflexivity]. rewrite X in A2 by reflexivity. discriminate.
Qed.
Lemma op_clean o w w' tr : all_clean w -> do_op clonable o w = (w', tr, true) -> all_clean w'.
Proof.
  intros A H. destruct o; cbn [do_op] in H.
  - inversion H; subst. exact A.
  - eapply rehearse_clean; eauto.
  - inversion H; subst. intro t'. unfold mark, clean. rewrite task_set. destruct (_ && _) eqn:E; [|apply A].
    cbn. apply (A t).
  - inversion H; subst. intro t'. unfold clear, clean. rewrite task_set. destruct (_ && _) eqn:E; [|apply A].
    cbn. apply (A t).
  - now inversion H; subst.
  - destruct (k_reh _); now inversion H; subst.
  - now inversion H; subst.
Qed.
Lemma run_clean os : forall w w' tr, all_clean w -> run clonable os w = (w', tr, true) -> all_clean w'.
Proof.
  induction os as [|o os IH]; intros w w' tr A H; cbn [run] in H; [now inversion H; subst|].
  destruct (do_op clonable o w) as [[w1 o1] ok1] eqn:E. destruct (run clonable os w1) as [[w2 o2] ok2] eqn:R.
  inversion H; subst. apply andb_true_iff in H3. destruct H3 as [-> ->].
  eapply IH; [|exact R]. eapply op_clean; eauto.
Qed.

(** ** The clock and the real actors *)
Definition kept (w w' : world) : Prop :=
  w_now w' = w_now w /\ (length (w_mocks w) <= length (w_mocks w'))%nat /\ (length (w_actors w) <= length (w_actors w'))%nat /\
  (forall x, (x < length (w_actors w))%nat -> a_env (actor_of w' x) = a_env (actor_of w x)) /\
  (forall x, (x < length (w_actors w))%nat -> a_env (actor_of w x) = None -> actor_of w' x = actor_of w x).
Lemma kept_refl w : kept w w.
Proof. repeat split; auto; lia. Qed.
Lemma kept_trans w w1 w2 : kept w w1 -> kept w1 w2 -> kept w w2.
Proof.
  intros (A & B & C & D & E) (A' & B' & C' & D' & E'). split; [congruence|]. split; [lia|]. split; [lia|]. split.
  - intros x L. rewrite D' by lia. now apply D.
  - intros x L N. rewrite E'; [now apply E|lia|rewrite D; auto].
Qed.
Lemma step_kept dec t u s w w' o ok : a_env (actor_of w u) <> None -> do_step dec t u s w = (w', o, ok) -> kept w w'.
Proof.
  intro AU. destruct s; cbn [do_step]; intro H.
  - destruct dec; [inversion H; apply kept_refl|]. destruct (a_env (actor_of w u)) as [i|]; [|contradiction].
    inversion H; subst. split; [reflexivity|]. cbn. rewrite upd_length. repeat split; auto.
  - inversion H. apply kept_refl.
  - inversion H. apply kept_refl.
  - inversion H; subst. repeat split; auto.
  - inversion H; subst. repeat split; auto.
  - inversion H; subst. split; [reflexivity|]. split; [cbn; lia|]. split; [unfold set_actor; cbn; rewrite upd_length; lia|]. split.
    + intros x L. rewrite actor_set. destruct (Nat.eqb_spec x u) as [->|N]; cbn [andb]; [|reflexivity]. now destruct (_ <? _)%nat.
    + intros x L N. rewrite actor_set. destruct (Nat.eqb_spec x u) as [->|N']; cbn [andb]; [contradiction|reflexivity].
  - destruct (k_reh _); inversion H; apply kept_refl.
  - inversion H. apply kept_refl.
Qed.
Lemma kept_tasks w w' l : kept w w' -> kept w (mkW (w_now w') (w_mocks w') l (w_actors w')).
Proof. intro H. exact H. Qed.
Lemma begin_kept dec cloned t who w w' o u : dec && cloned = false -> begin dec cloned t who w = (w', o, u) ->
  kept w w' /\ match u with Some u => a_env (actor_of w' u) <> None | None => True end.
Proof.
  intros HO. unfold MockModel.begin. intro H.
  assert (C : forall w1 o1 u1, (if cloned then (w, [], Some who) else clone_actor clonable t who w) = (w1, o1, u1) ->
     kept w w1 /\ (cloned = false -> match u1 with Some u => a_env (actor_of w1 u) <> None | None => True end)).
  { intros w1 o1 u1 E. destruct cloned; [inversion E; subst; split; [apply kept_refl|discriminate]|]. unfold clone_actor in E.
    destruct (clonable _); inversion E; subst; split.
    - split; [reflexivity|]. cbn. rewrite !app_length. cbn. split; [lia|]. split; [lia|].
      unfold actor_of. cbn [w_actors]. split; intros x L; rewrite app_nth1 by exact L; auto.
    - intros _. unfold actor_of. cbn [w_actors put_env set_task]. rewrite nth_middle. discriminate.
    - split; [reflexivity|]. cbn. rewrite app_length. cbn. split; [lia|]. split; [lia|]. auto.
    - auto. }
  destruct (if cloned then _ else _) as [[w1 o1] u1]. destruct (C w1 o1 u1 eq_refl) as [K AU]. clear C.
  destruct u1 as [u1|]; [|inversion H; subst; auto].
  destruct (negb dec && _) eqn:G; inversion H; subst; [auto|]. split; [apply kept_tasks; apply kept_tasks; exact K|].
  change (a_env (actor_of w1 u1) <> None). destruct cloned; [|apply AU; reflexivity].
  destruct dec; [discriminate|]. cbn in G. destruct (a_env (actor_of w1 u1)); [discriminate|discriminate].
Qed.
Lemma in_range_actor w u : a_env (actor_of w u) <> None -> (u < length (w_actors w))%nat.
Proof.
  intro H. destruct (Nat.lt_ge_cases u (length (w_actors w))) as [L|L]; [exact L|].
  exfalso. apply H. unfold actor_of. rewrite nth_overflow by exact L. reflexivity.
Qed.
Lemma kept_actor w w' u : kept w w' -> a_env (actor_of w u) <> None -> a_env (actor_of w' u) = a_env (actor_of w u).
Proof. intros (_ & _ & _ & K & _) H. apply K. now apply in_range_actor. Qed.
Lemma body_kept b : forall dec t u w w' o ok, honest b -> a_env (actor_of w u) <> None -> run_body dec t u b w = (w', o, ok) -> kept w w'.
Proof.
  induction b as [|s b IH|dec' cloned t' who inner IHi rest IHr]; intros dec t u w w' o ok HO AU H; cbn [MockModel.run_body] in H.
  - inversion H. apply kept_refl.
  - destruct (do_step dec t u s w) as [[w1 o1] ok1] eqn:S1. pose proof (step_kept _ _ _ _ _ _ _ _ AU S1) as K.
    destruct ok1; [|inversion H; subst; exact K].
    destruct (run_body dec t u b w1) as [[w2 o2] ok2] eqn:R. inversion H; subst.
    eapply kept_trans; [exact K|]. eapply IH; [exact HO| |exact R]. rewrite (kept_actor _ _ _ K AU). exact AU.
  - destruct HO as (DC & HI & HR).
    destruct (begin dec' cloned t' who w) as [[w1 o1] u'] eqn:B. destruct (begin_kept _ _ _ _ _ _ _ _ DC B) as [K AU'].
    destruct u' as [u'|]; [|inversion H; subst; exact K].
    destruct (run_body dec' t' u' inner w1) as [[w2 o2] ok2] eqn:R. pose proof (IHi _ _ _ _ _ _ _ HI AU' R) as K2.
    pose proof (kept_trans _ _ _ K K2) as K02.
    destruct ok2; [|inversion H; subst; exact K02].
    destruct (run_body dec t u rest _) as [[w4 o4] ok4] eqn:R4. inversion H; subst.
    assert (K3 : kept w (put_reh t' false (put_env t' (k_env (task_of w t')) w2))) by (apply kept_tasks; apply kept_tasks; exact K02).
    eapply kept_trans; [exact K3|]. eapply IHr; [exact HR| |exact R4]. rewrite (kept_actor _ _ _ K3 AU). exact AU.
Qed.
Lemma rehearse_kept dec cloned t who b w w' o ok : dec && cloned = false -> honest b ->
  rehearse clonable dec cloned t who b w = (w', o, ok) -> kept w w'.
Proof.
  intros DC HO H. unfold rehearse in H. cbn [MockModel.run_body] in H.
  destruct (begin dec cloned t who w) as [[w1 o1] u'] eqn:B. destruct (begin_kept _ _ _ _ _ _ _ _ DC B) as [K AU'].
  destruct u' as [u'|]; [|inversion H; subst; exact K].
  destruct (run_body dec t u' b w1) as [[w2 o2] ok2] eqn:R. pose proof (kept_trans _ _ _ K (body_kept _ _ _ _ _ _ _ _ HO AU' R)) as K02.
  destruct ok2; inversion H; subst; [apply kept_tasks; apply kept_tasks; exact K02|exact K02].
Qed.
Lemma run_actors os : forall w w' tr ok, Forall honest_op os -> run clonable os w = (w', tr, ok) ->
  (length (w_actors w) <= length (w_actors w'))%nat /\
  forall x, (x < length (w_actors w))%nat -> a_env (actor_of w x) = None -> actor_of w' x = actor_of w x.
Proof.
  induction os as [|o os IH]; intros w w' tr ok F H; cbn [run] in H; [inversion H; subst; auto|].
  destruct (do_op clonable o w) as [[w1 o1] ok1] eqn:E. destruct (run clonable os w1) as [[w2 o2] ok2] eqn:R.
  inversion H; subst. inversion F as [|? ? H1 F']; subst.
  assert (K : (length (w_actors w) <= length (w_actors w1))%nat /\
    forall x, (x < length (w_actors w))%nat -> a_env (actor_of w x) = None -> actor_of w1 x = actor_of w x).
  { destruct o; cbn [do_op] in E; try (inversion E; subst; auto; fail).
    - destruct H1 as [DC HO]. destruct (rehearse_kept _ _ _ _ _ _ _ _ _ DC HO E) as (_ & _ & A & _ & B). auto.
    - destruct (k_reh _); inversion E; subst; auto. }
  destruct K as [K1 K2]. destruct (IH _ _ _ _ F' R) as [A B]. split; [lia|]. intros x L N.
  rewrite (B x); [now apply K2|lia|rewrite K2; auto].
Qed.
Fixpoint elapsed (os : list op) : Q :=
  match os with TAdvance d :: os' => (if Qltb d 0 then 0 else d) + elapsed os' | _ :: os' => elapsed os' | [] => 0 end.

(** The clock never moves in rehearsals, honest or not. *)
Lemma step_now dec t u s w w' o ok : do_step dec t u s w = (w', o, ok) -> w_now w' = w_now w.
Proof.
  destruct s; cbn [do_step]; intro H; try (inversion H; subst; reflexivity).
  - destruct dec; [inversion H; reflexivity|]. destruct (a_env _); inversion H; reflexivity.
  - destruct (k_reh _); inversion H; reflexivity.
Qed.
Lemma begin_now dec cloned t who w w' o u : begin dec cloned t who w = (w', o, u) -> w_now w' = w_now w.
Proof.
  unfold MockModel.begin, clone_actor. intro H.
  destruct cloned; [|destruct (clonable _)]; try (destruct (negb dec && _)); inversion H; reflexivity.
Qed.
Lemma body_now b : forall dec t u w w' o ok, run_body dec t u b w = (w', o, ok) -> w_now w' = w_now w.
Proof.
  induction b as [|s b IH|dec' cloned t' who inner IHi rest IHr]; intros dec t u w w' o ok H; cbn [MockModel.run_body] in H.
  - now inversion H.
  - destruct (do_step dec t u s w) as [[w1 o1] ok1] eqn:S1. apply step_now in S1.
    destruct ok1; [|inversion H; subst; exact S1]. destruct (run_body dec t u b w1) as [[w2 o2] ok2] eqn:R. inversion H; subst.
    rewrite (IH _ _ _ _ _ _ _ R). exact S1.
  - destruct (begin dec' cloned t' who w) as [[w1 o1] u'] eqn:B. apply begin_now in B.
    destruct u' as [u'|]; [|inversion H; subst; exact B].
    destruct (run_body dec' t' u' inner w1) as [[w2 o2] ok2] eqn:R. apply IHi in R.
    destruct ok2; [|inversion H; subst; congruence].
    destruct (run_body dec t u rest _) as [[w4 o4] ok4] eqn:R4. apply IHr in R4. inversion H; subst. rewrite R4. cbn. congruence.
Qed.

(** ** Code without rehearsals of its own *)
Lemma flat_run dec b : forall t u w i, flat b -> (t < length (w_tasks w))%nat -> k_env (task_of w t) = Some i -> k_reh (task_of w t) = true ->
  a_env (actor_of w u) = Some i -> (i < length (w_mocks w))%nat ->
  exists w' o ok, run_body dec t u b w = (w', o, ok) /\ (ok = true <-> quiet b) /\
    clocked (nth i (w_mocks w) 0) o /\ length (w_mocks w') = length (w_mocks w) /\ length (w_actors w') = length (w_actors w) /\
    length (w_tasks w') = length (w_tasks w) /\
    (forall j, j <> i -> nth j (w_mocks w') 0 = nth j (w_mocks w) 0) /\
    (forall x, x <> u -> actor_of w' x = actor_of w x) /\ (forall t', t' <> t -> task_of w' t' = task_of w t') /\
    k_env (task_of w' t) = Some i /\ k_reh (task_of w' t) = true /\ a_env (actor_of w' u) = Some i /\
    (ok = true -> nth i (w_mocks w') 0 == nth i (w_mocks w) 0 + (if dec then 0 else takes b) /\ a_val (actor_of w' u) = leaves b (a_val (actor_of w u))).
Proof.
  induction b as [|s b IH|dec' cl t0 who inner IHi rest IHr]; intros t u w i F TL KE KR AE IL; [| |destruct F].
  - exists w, [], true. cbn. repeat split; auto. destruct dec; ring.
  - pose proof (in_range_actor w u) as UL. rewrite AE in UL. specialize (UL ltac:(discriminate)).
    cbn [MockModel.run_body]. destruct s; cbn [do_step].
    + (* wait *)
      destruct dec.
      { destruct (IH t u w i F TL KE KR AE IL) as (w' & o & ok & E & R). rewrite E. do 3 eexists. split; [reflexivity|]. exact R. }
      rewrite AE. cbv iota beta.
      set (w1 := mkW (w_now w) (upd i (nth i (w_mocks w) 0 + d) (w_mocks w)) (w_tasks w) (w_actors w)).
      assert (N1 : nth i (w_mocks w1) 0 = nth i (w_mocks w) 0 + d).
      { cbn. rewrite nth_upd, Nat.eqb_refl. apply Nat.ltb_lt in IL. now rewrite IL. }
      destruct (IH t u w1 i F TL KE KR AE) as (w' & o & ok & E & Q1 & CL & LM & LA & LT & OM & OA & OT & E1 & E2 & E3 & E4).
      { cbn. now rewrite upd_length. }
      rewrite N1 in *. cbn in LM. rewrite upd_length in LM. cbn [w_actors w_tasks w1] in LA, LT.
      rewrite E. exists w', (OWaited (Some i) d :: o), ok. split; [reflexivity|].
      split; [exact Q1|]. split; [exact CL|]. split; [exact LM|]. split; [exact LA|]. split; [exact LT|]. split.
      { intros j J. rewrite (OM j J). cbn. rewrite nth_upd. apply Nat.eqb_neq in J. now rewrite J. }
      split; [exact OA|]. split; [exact OT|]. split; [exact E1|]. split; [exact E2|]. split; [exact E3|].
      intro K. destruct (E4 K) as [A B]. cbn [takes leaves]. split; [rewrite A; ring|exact B].
    + (* now *)
      destruct (IH t u w i F TL KE KR AE IL) as (w' & o & ok & E & Q1 & CL & R). rewrite E. do 3 eexists. split; [reflexivity|].
      split; [exact Q1|]. split; [|exact R]. cbn [app clocked]. rewrite KE. cbn. split; [reflexivity|exact CL].
    + (* actor's now *)
      destruct (IH t u w i F TL KE KR AE IL) as (w' & o & ok & E & Q1 & CL & R). rewrite E. do 3 eexists. split; [reflexivity|].
      split; [exact Q1|]. split; [|exact R]. cbn [app clocked]. rewrite AE. cbn. split; [reflexivity|exact CL].
    + (* mark *)
      set (w1 := mark t m a w).
      assert (T1 : forall t', task_of w1 t' = if Nat.eqb t' t then mkT (Some i) true (Some (m, now_of w (Some i))) a else task_of w t').
      { intro t'. unfold w1, mark. rewrite task_set. apply Nat.ltb_lt in TL. rewrite TL, andb_true_r, KE, KR. reflexivity. }
      assert (TT : task_of w1 t = mkT (Some i) true (Some (m, now_of w (Some i))) a) by (rewrite T1, Nat.eqb_refl; reflexivity).
      assert (LT1 : length (w_tasks w1) = length (w_tasks w)) by (unfold w1, mark, set_task; cbn; apply upd_length).
      destruct (IH t u w1 i F) as (w' & o & ok & E & Q1 & CL & LM & LA & LT & OM & OA & OT & E1 & E2 & E3 & E4); auto; try (rewrite TT; reflexivity); [lia|].
      rewrite E. exists w', o, ok. split; [reflexivity|]. split; [exact Q1|]. split; [exact CL|]. split; [exact LM|]. split; [exact LA|].
      split; [congruence|]. split; [exact OM|]. split; [exact OA|]. split.
      { intros t' N. rewrite (OT t' N), T1. apply Nat.eqb_neq in N. now rewrite N. }
      auto.
    + (* clear *)
      set (w1 := clear t w).
      assert (T1 : forall t', task_of w1 t' = if Nat.eqb t' t then mkT (Some i) true None END else task_of w t').
      { intro t'. unfold w1, clear. rewrite task_set. apply Nat.ltb_lt in TL. rewrite TL, andb_true_r, KE, KR. reflexivity. }
      assert (TT : task_of w1 t = mkT (Some i) true None END) by (rewrite T1, Nat.eqb_refl; reflexivity).
      assert (LT1 : length (w_tasks w1) = length (w_tasks w)) by (unfold w1, clear, set_task; cbn; apply upd_length).
      destruct (IH t u w1 i F) as (w' & o & ok & E & Q1 & CL & LM & LA & LT & OM & OA & OT & E1 & E2 & E3 & E4); auto; try (rewrite TT; reflexivity); [lia|].
      rewrite E. exists w', o, ok. split; [reflexivity|]. split; [exact Q1|]. split; [exact CL|]. split; [exact LM|]. split; [exact LA|].
      split; [congruence|]. split; [exact OM|]. split; [exact OA|]. split.
      { intros t' N. rewrite (OT t' N), T1. apply Nat.eqb_neq in N. now rewrite N. }
      auto.
    + (* set *)
      set (w1 := set_actor u (mkA (a_env (actor_of w u)) v) w).
      assert (A1 : forall x, actor_of w1 x = if Nat.eqb x u then mkA (Some i) v else actor_of w x).
      { intro x. unfold w1. rewrite actor_set. apply Nat.ltb_lt in UL. now rewrite UL, andb_true_r, AE. }
      assert (AA : actor_of w1 u = mkA (Some i) v) by (rewrite A1, Nat.eqb_refl; reflexivity).
      assert (LA1 : length (w_actors w1) = length (w_actors w)) by (unfold w1, set_actor; cbn; apply upd_length).
      destruct (IH t u w1 i F) as (w' & o & ok & E & Q1 & CL & LM & LA & LT & OM & OA & OT & E1 & E2 & E3 & E4); auto; [now rewrite AA|].
      rewrite E. exists w', o, ok. split; [reflexivity|]. split; [exact Q1|]. split; [exact CL|]. split; [exact LM|]. split; [congruence|].
      split; [exact LT|]. split; [exact OM|]. split.
      { intros x N. rewrite (OA x N), A1. apply Nat.eqb_neq in N. now rewrite N. }
      split; [exact OT|]. split; [exact E1|]. split; [exact E2|]. split; [exact E3|]. intro K. destruct (E4 K) as [X Y].
      rewrite AA in Y. auto.
    + rewrite KR. exists w, [OMimicErr], false. cbn. repeat split; auto; try discriminate; tauto.
    + exists w, [ORaised], false. cbn. repeat split; auto; try discriminate; tauto.
Qed.

(** ** A whole rehearsal *)
Section Whole.
Variables (dec : bool) (t : nat) (b : body).
Hypothesis F : flat b.
Lemma whole_clone who w : (t < length (w_tasks w))%nat -> clean (task_of w t) ->
  let u := length (w_actors w) in let i := length (w_mocks w) in
  exists w' tr ok, rehearse clonable dec false t who b w = (w', tr, ok) /\
    (ok = true <-> clonable (a_val (actor_of w who)) = true /\ quiet b) /\
    (forall x, (x < u)%nat -> actor_of w' x = actor_of w x) /\ (forall j, (j < i)%nat -> nth j (w_mocks w') 0 = nth j (w_mocks w) 0) /\
    (forall t', t' <> t -> task_of w' t' = task_of w t') /\ w_now w' = w_now w /\
    (ok = true -> exists o, tr = OMade i (w_now w) :: o ++ [OReturned u] /\ clocked (w_now w) o /\ clean (task_of w' t) /\
       a_env (actor_of w' u) = Some i /\ now_of w' (Some i) == w_now w + (if dec then 0 else takes b) /\
       a_val (actor_of w' u) = leaves b (a_val (actor_of w who))).
Proof.
  intros TL [KE KR] u i. unfold rehearse. cbn [MockModel.run_body]. rewrite KE. unfold MockModel.begin, clone_actor. rewrite KE.
  cbn [now_of]. fold i. destruct (clonable _) eqn:C.
  - set (w0 := put_env t (Some i) (mkW (w_now w) (w_mocks w ++ [w_now w]) (w_tasks w) (w_actors w))).
    set (w1 := mkW (w_now w0) (w_mocks w0) (w_tasks w0) (w_actors w0 ++ [mkA (Some i) (a_val (actor_of w who))])).
    assert (AU : actor_of w1 u = mkA (Some i) (a_val (actor_of w who))).
    { unfold actor_of, w1, u. cbn [w_actors w0 put_env set_task]. rewrite nth_middle. reflexivity. }
    fold u. rewrite AU. cbn [a_env]. rewrite andb_false_r. cbv iota beta.
    set (w2 := put_reh t true (put_env t (Some i) w1)).
    assert (TL0 : length (w_tasks w1) = length (w_tasks w)) by (cbn [w1 w_tasks]; unfold w0; rewrite put_env_len; reflexivity).
    assert (T2 : forall t', task_of w2 t' = if Nat.eqb t' t then with_reh (with_env (task_of w t) (Some i)) true else task_of w t').
    { intro t'. unfold w2. apply Nat.ltb_lt in TL. rewrite put_reh_task, put_env_len, TL0, TL, andb_true_r.
      rewrite !put_env_task, TL0, TL, Nat.eqb_refl, !andb_true_r. change (task_of w1) with (task_of w0). unfold w0. rewrite !put_env_task. cbn [w_tasks].
      rewrite TL, Nat.eqb_refl. cbn [andb]. destruct (Nat.eqb t' t); reflexivity. }
    assert (TL2 : length (w_tasks w2) = length (w_tasks w)) by (unfold w2; rewrite put_reh_len, put_env_len; exact TL0).
    destruct (flat_run dec b t u w2 i F) as (w' & o & ok & E & Q1 & CL & LM & LA & LT & OM & OA & OT & E1 & E2 & E3 & E4).
    { lia. }
    { rewrite T2, Nat.eqb_refl. reflexivity. }
    { rewrite T2, Nat.eqb_refl. reflexivity. }
    { change (actor_of w2 u) with (actor_of w1 u). now rewrite AU. }
    { cbn. rewrite app_length. cbn. unfold i. lia. }
    assert (NI : nth i (w_mocks w2) 0 = w_now w) by (cbn; unfold i; now rewrite nth_middle).
    rewrite NI in *. rewrite E. pose proof (body_now _ _ _ _ _ _ _ _ E) as NW.
    assert (OA' : forall x, (x < u)%nat -> actor_of w' x = actor_of w x).
    { intros x L. rewrite OA by lia. unfold actor_of. cbn. now rewrite app_nth1. }
    assert (OM' : forall j, (j < i)%nat -> nth j (w_mocks w') 0 = nth j (w_mocks w) 0).
    { intros j L. rewrite OM by lia. cbn. now rewrite app_nth1. }
    assert (OT' : forall t', t' <> t -> task_of w' t' = task_of w t').
    { intros t' N. rewrite OT, T2 by exact N. apply Nat.eqb_neq in N. now rewrite N. }
    destruct ok.
    + exists (put_reh t false (put_env t None w')). do 2 eexists. split; [reflexivity|].
      split; [tauto|]. split; [exact OA'|]. split; [exact OM'|]. split.
      { intros t' N. rewrite put_reh_task. pose proof N as N'. apply Nat.eqb_neq in N. rewrite N. cbn [andb]. rewrite put_env_task, N. cbn [andb]. auto. }
      split; [exact NW|]. intros _. exists o. destruct (E4 eq_refl) as [X Y]. split; [reflexivity|]. split; [exact CL|]. split.
      { assert (TB : (t <? length (w_tasks w'))%nat = true) by (apply Nat.ltb_lt; lia).
        unfold clean. rewrite put_reh_task, put_env_len, Nat.eqb_refl, TB. cbn [andb]. rewrite put_env_task, Nat.eqb_refl, TB. split; reflexivity. }
      split; [exact E3|]. split; [exact X|]. etransitivity; [exact Y|]. f_equal. change (actor_of w2 u) with (actor_of w1 u). now rewrite AU.
    + exists w'. do 2 eexists. split; [reflexivity|]. split; [tauto|]. split; [exact OA'|]. split; [exact OM'|]. split; [exact OT'|].
      split; [exact NW|]. discriminate.
  - do 3 eexists. split; [reflexivity|]. split; [split; [discriminate|intros [X _]; discriminate]|].
    split; [reflexivity|]. split; [intros j L; cbn; now rewrite app_nth1|]. split.
    { intros t' N. rewrite put_env_task. apply Nat.eqb_neq in N. now rewrite N. }
    split; [reflexivity|]. discriminate.
Qed.
Lemma whole_clone_again who w i : (t < length (w_tasks w))%nat -> clean (task_of w t) -> a_env (actor_of w who) = Some i -> (i < length (w_mocks w))%nat ->
  exists w' tr ok, rehearse clonable dec true t who b w = (w', tr, ok) /\ (ok = true <-> quiet b) /\
    (forall x, x <> who -> actor_of w' x = actor_of w x) /\ (forall j, j <> i -> nth j (w_mocks w') 0 = nth j (w_mocks w) 0) /\
    length (w_actors w') = length (w_actors w) /\ length (w_mocks w') = length (w_mocks w) /\
    (forall t', t' <> t -> task_of w' t' = task_of w t') /\ w_now w' = w_now w /\
    (ok = true -> exists o, tr = o ++ [OReturned who] /\ clocked (now_of w (Some i)) o /\ clean (task_of w' t) /\
       a_env (actor_of w' who) = Some i /\ now_of w' (Some i) == now_of w (Some i) + (if dec then 0 else takes b) /\
       a_val (actor_of w' who) = leaves b (a_val (actor_of w who))).
Proof.
  intros TL [KE KR] AE IL. unfold rehearse. cbn [MockModel.run_body]. rewrite KE. unfold MockModel.begin. rewrite AE.
  rewrite andb_false_r. cbv iota beta.
  set (w2 := put_reh t true (put_env t (Some i) w)).
  assert (T2 : forall t', task_of w2 t' = if Nat.eqb t' t then with_reh (with_env (task_of w t) (Some i)) true else task_of w t').
  { intro t'. unfold w2. apply Nat.ltb_lt in TL. rewrite put_reh_task, put_env_len, TL, andb_true_r.
    rewrite !put_env_task, TL, Nat.eqb_refl, !andb_true_r. destruct (Nat.eqb t' t); reflexivity. }
  assert (TL2 : length (w_tasks w2) = length (w_tasks w)) by (unfold w2; rewrite put_reh_len, put_env_len; reflexivity).
  destruct (flat_run dec b t who w2 i F) as (w' & o & ok & E & Q1 & CL & LM & LA & LT & OM & OA & OT & E1 & E2 & E3 & E4).
  { lia. }
  { rewrite T2, Nat.eqb_refl. reflexivity. }
  { rewrite T2, Nat.eqb_refl. reflexivity. }
  { exact AE. }
  { exact IL. }
  rewrite E. pose proof (body_now _ _ _ _ _ _ _ _ E) as NW.
  assert (OT' : forall t', t' <> t -> task_of w' t' = task_of w t').
  { intros t' N. rewrite OT, T2 by exact N. apply Nat.eqb_neq in N. now rewrite N. }
  destruct ok.
  - exists (put_reh t false (put_env t None w')). do 2 eexists. split; [reflexivity|].
    split; [exact Q1|]. split; [exact OA|]. split; [exact OM|]. split; [exact LA|]. split; [exact LM|]. split.
    { intros t' N. rewrite put_reh_task. pose proof N as N'. apply Nat.eqb_neq in N. rewrite N. cbn [andb]. rewrite put_env_task, N. cbn [andb]. auto. }
    split; [exact NW|]. intros _. exists o. destruct (E4 eq_refl) as [X Y]. split; [reflexivity|]. split; [exact CL|]. split.
    { assert (TB : (t <? length (w_tasks w'))%nat = true) by (apply Nat.ltb_lt; lia).
      unfold clean. rewrite put_reh_task, put_env_len, Nat.eqb_refl, TB. cbn [andb]. rewrite put_env_task, Nat.eqb_refl, TB. split; reflexivity. }
    split; [exact E3|]. split; [exact X|]. exact Y.
  - exists w'. do 2 eexists. split; [reflexivity|]. split; [exact Q1|]. split; [exact OA|]. split; [exact OM|]. split; [exact LA|]. split; [exact LM|].
    split; [exact OT'|]. split; [exact NW|]. discriminate.
Qed.
End Whole.
Lemma run_now os : forall w w' tr ok, run clonable os w = (w', tr, ok) -> w_now w' == w_now w + elapsed os.
Proof.
  induction os as [|o os IH]; intros w w' tr ok H; cbn [run] in H; [inversion H; subst; cbn; ring|].
  destruct (do_op clonable o w) as [[w1 o1] ok1] eqn:E. destruct (run clonable os w1) as [[w2 o2] ok2] eqn:R.
  inversion H; subst. rewrite (IH _ _ _ _ R). destruct o; cbn [do_op] in E; cbn [elapsed]; try (inversion E; subst; reflexivity).
  - inversion E; subst. cbn. destruct (Qltb d 0); ring.
  - unfold rehearse in E. apply body_now in E. rewrite E. reflexivity.
  - destruct (k_reh _); inversion E; subst; reflexivity.
Qed.
Lemma fresh_clean now n vals : all_clean (fresh now n vals).
Proof.
  intro t. unfold fresh, task_of. cbn [w_tasks].
  assert (E : nth t (repeat no_task n) no_task = no_task) by (revert t; induction n as [|n IH]; intros [|t]; cbn; auto).
  rewrite E. split; reflexivity.
Qed.
(** ** Rehearsals in rehearsals of the same clone *)
Fixpoint waits (tr : list obs) : Q := match tr with OWaited _ d :: tr' => d + waits tr' | _ :: tr' => waits tr' | [] => 0 end.
Lemma waits_app a b : waits (a ++ b) == waits a + waits b.
Proof. induction a as [|x a IH]; cbn [waits app]; [ring|]. destruct x; try exact IH. rewrite IH. ring. Qed.
Lemma clocked_q c c' o : c == c' -> clocked c o -> clocked c' o.
Proof.
  revert c c'. induction o as [|x o IH]; intros c c' E; [auto|]. destruct x; cbn [clocked]; try (now apply IH).
  - intros [A B]. split; [now rewrite A|]. eapply IH; eauto.
  - intros [A B]. split; [now rewrite A|]. eapply IH; eauto.
  - apply IH. now rewrite E.
Qed.
Lemma clocked_app c a b : clocked c a -> clocked (c + waits a) b -> clocked c (a ++ b).
Proof.
  revert c. induction a as [|x a IH]; intros c A B; cbn [app].
  - eapply clocked_q; [|exact B]. cbn. ring.
  - destruct x; cbn [clocked waits] in *; try (now apply IH).
    + destruct A. split; auto.
    + destruct A. split; auto.
    + apply IH; [exact A|]. eapply clocked_q; [|exact B]. ring.
Qed.
Lemma step_chain dec t u s w i w' o ok : k_env (task_of w t) = Some i -> a_env (actor_of w u) = Some i -> (i < length (w_mocks w))%nat ->
  do_step dec t u s w = (w', o, ok) ->
  clocked (nth i (w_mocks w) 0) o /\ nth i (w_mocks w') 0 == nth i (w_mocks w) 0 + waits o /\
  length (w_mocks w') = length (w_mocks w) /\ length (w_actors w') = length (w_actors w) /\ a_env (actor_of w' u) = Some i /\
  (ok = true -> waits o == spends dec (BDo s BEnd) /\ a_val (actor_of w' u) = finally (BDo s BEnd) (a_val (actor_of w u))).
Proof.
  intros KE AE IL H. pose proof (in_range_actor w u) as UL. rewrite AE in UL. specialize (UL ltac:(discriminate)).
  destruct s; cbn [do_step] in H.
  - destruct dec.
    + inversion H; subst. cbn. repeat split; auto; ring.
    + rewrite AE in H. inversion H; subst. cbn [w_mocks w_actors]. rewrite upd_length, nth_upd, Nat.eqb_refl. apply Nat.ltb_lt in IL. rewrite IL.
      cbn. repeat split; auto; ring.
  - inversion H; subst. rewrite KE. cbn. repeat split; auto; ring.
  - inversion H; subst. rewrite AE. cbn. repeat split; auto; ring.
  - inversion H; subst. cbn. repeat split; auto; ring.
  - inversion H; subst. cbn. repeat split; auto; ring.
  - inversion H; subst. rewrite !actor_set. cbn [w_mocks w_actors set_actor clocked waits]. rewrite upd_length, Nat.eqb_refl. apply Nat.ltb_lt in UL. rewrite UL.
    cbn. repeat split; auto; ring.
  - destruct (k_reh _); inversion H; subst; cbn; repeat split; auto; try ring; discriminate.
  - inversion H; subst. cbn. repeat split; auto; try ring; discriminate.
Qed.
Lemma chain_run b : forall dec t u w i w' o ok, chained (length (w_tasks w)) u b -> (t < length (w_tasks w))%nat ->
  k_env (task_of w t) = Some i -> a_env (actor_of w u) = Some i -> (i < length (w_mocks w))%nat ->
  run_body dec t u b w = (w', o, ok) ->
  clocked (nth i (w_mocks w) 0) o /\ nth i (w_mocks w') 0 == nth i (w_mocks w) 0 + waits o /\
  length (w_mocks w') = length (w_mocks w) /\ length (w_actors w') = length (w_actors w) /\ a_env (actor_of w' u) = Some i /\
  (ok = true -> waits o == spends dec b /\ a_val (actor_of w' u) = finally b (a_val (actor_of w u))).
Proof.
  induction b as [|s b IH|dec' cloned t' who inner IHi rest IHr]; intros dec t u w i w' o ok C TL KE AE IL H; cbn [MockModel.run_body] in H.
  - inversion H; subst. cbn. repeat split; auto; ring.
  - destruct (do_step dec t u s w) as [[w1 o1] ok1] eqn:S1.
    destruct (step_chain _ _ _ _ _ _ _ _ _ KE AE IL S1) as (A1 & A2 & A3 & A3' & A4 & A5).
    destruct (step_frame _ _ _ _ _ _ _ _ S1) as [L1 F1].
    destruct ok1.
    + destruct (run_body dec t u b w1) as [[w2 o2] ok2] eqn:R. inversion H; subst.
      destruct (IH dec t u w1 i w' o2 ok) as (B1 & B2 & B3 & B3' & B4 & B5); auto; try congruence.
      { rewrite L1. exact C. }
      { rewrite (proj1 (F1 t)). exact KE. }
      split; [apply clocked_app; [exact A1|]; eapply clocked_q; [exact A2|exact B1]|].
      split; [rewrite B2, A2, waits_app; ring|]. split; [congruence|]. split; [congruence|]. split; [exact B4|].
      intro K. destruct (A5 eq_refl) as [X1 X2]. destruct (B5 K) as [Y1 Y2]. split.
      * rewrite waits_app, X1, Y1. destruct s; cbn [spends]; try ring.
      * rewrite Y2, X2. destruct s; reflexivity.
    + inversion H; subst. split; [exact A1|]. split; [exact A2|]. split; [exact A3|]. split; [exact A3'|]. split; [exact A4|]. discriminate.
  - cbn [chained] in C. destruct C as (-> & -> & TL' & Ci & Cr).
    unfold MockModel.begin in H. rewrite AE in H. rewrite andb_false_r in H. cbv iota beta in H.
    set (w1 := put_reh t' true (put_env t' (Some i) w)) in *.
    assert (L1 : length (w_tasks w1) = length (w_tasks w)) by (unfold w1; rewrite put_reh_len, put_env_len; reflexivity).
    assert (E1 : k_env (task_of w1 t') = Some i).
    { unfold w1. apply Nat.ltb_lt in TL'. rewrite put_reh_task, put_env_len, Nat.eqb_refl, TL'. cbn [andb with_reh k_env]. rewrite put_env_task, Nat.eqb_refl, TL'. reflexivity. }
    destruct (run_body dec' t' u inner w1) as [[w2 o2] ok2] eqn:R.
    destruct (IHi dec' t' u w1 i w2 o2 ok2) as (B1 & B2 & B3 & B3' & B4 & B5); auto; try (rewrite L1; auto; fail).
    destruct ok2.
    + destruct (run_body dec t u rest _) as [[w4 o4] ok4] eqn:R4. inversion H; subst.
      destruct (body_frame _ _ _ _ _ _ _ R) as [L2 F2].
      set (w3 := put_reh t' false (put_env t' (k_env (task_of w t')) w2)) in *.
      assert (L3 : length (w_tasks w3) = length (w_tasks w)) by (unfold w3; rewrite put_reh_len, put_env_len; congruence).
      assert (E3 : k_env (task_of w3 t) = Some i).
      { unfold w3. assert (TB : (t' <? length (w_tasks w2))%nat = true) by (apply Nat.ltb_lt; lia).
        rewrite put_reh_task, put_env_len, TB, andb_true_r. destruct (Nat.eqb_spec t t') as [->|N].
        - cbn [andb with_reh k_env]. rewrite put_env_task, Nat.eqb_refl, TB. exact KE.
        - rewrite put_env_task, TB. apply Nat.eqb_neq in N. rewrite N. cbn [andb]. rewrite (proj1 (F2 t)). unfold w1.
          rewrite put_reh_task, N. cbn [andb]. rewrite put_env_task, N. exact KE. }
      destruct (IHr dec t u w3 i w' o4 ok) as (D1 & D2 & D3 & D3' & D4 & D5); auto; try (rewrite L3; auto; fail).
      { change (length (w_mocks w3)) with (length (w_mocks w2)). rewrite B3. exact IL. }
      change (w_mocks w3) with (w_mocks w2) in *. change (w_mocks w1) with (w_mocks w) in *.
      change (w_actors w3) with (w_actors w2) in *. change (w_actors w1) with (w_actors w) in *.
      cbn [app]. split.
      { apply clocked_app; [exact B1|]. cbn [clocked]. eapply clocked_q; [exact B2|exact D1]. }
      split; [rewrite D2, B2, waits_app; cbn [waits]; ring|]. split; [congruence|]. split; [congruence|]. split; [exact D4|].
      intro K. destruct (B5 eq_refl) as [X1 X2]. destruct (D5 K) as [Y1 Y2]. cbn [spends finally]. split.
      * rewrite waits_app. cbn [waits]. rewrite X1, Y1. reflexivity.
      * rewrite Y2. change (actor_of w3 u) with (actor_of w2 u). rewrite X2. reflexivity.
    + inversion H; subst. cbn [app]. split; [exact B1|]. split; [exact B2|]. split; [exact B3|]. split; [exact B3'|]. split; [exact B4|]. discriminate.
Qed.
Lemma rehearse_env dec cloned t who b w w' tr : rehearse clonable dec cloned t who b w = (w', tr, true) ->
  forall t', k_env (task_of w' t') = k_env (task_of w t').
Proof. intros H t'. unfold rehearse in H. apply body_frame in H. apply (proj2 H). Qed.
Lemma chain_whole dec t b who w i w' tr : chained (length (w_tasks w)) who b -> (t < length (w_tasks w))%nat ->
  a_env (actor_of w who) = Some i -> (i < length (w_mocks w))%nat -> rehearse clonable dec true t who b w = (w', tr, true) ->
  exists o, tr = o ++ [OReturned who] /\ clocked (now_of w (Some i)) o /\ now_of w' (Some i) == now_of w (Some i) + spends dec b /\
    a_val (actor_of w' who) = finally b (a_val (actor_of w who)).
Proof.
  intros C TL AE IL H. unfold rehearse in H. cbn [MockModel.run_body] in H. unfold MockModel.begin in H. rewrite AE, andb_false_r in H. cbv iota beta in H.
  set (w1 := put_reh t true (put_env t (Some i) w)) in *.
  destruct (run_body dec t who b w1) as [[w2 o2] ok2] eqn:R. destruct ok2; [|discriminate]. inversion H; subst.
  assert (L1 : length (w_tasks w1) = length (w_tasks w)) by (unfold w1; rewrite put_reh_len, put_env_len; reflexivity).
  destruct (chain_run b dec t who w1 i w2 o2 true) as (B1 & B2 & B3 & B3' & B4 & B5); auto; try (rewrite L1; auto; fail).
  { unfold w1. apply Nat.ltb_lt in TL. rewrite put_reh_task, put_env_len, Nat.eqb_refl, TL. cbn [andb with_reh k_env]. rewrite put_env_task, Nat.eqb_refl, TL. reflexivity. }
  destruct (B5 eq_refl) as [X Y]. exists o2. split; [reflexivity|]. split; [exact B1|]. split; [|exact Y].
  cbn [now_of]. rewrite <- X. exact B2.
Qed.
End MockProofs.
