(** Theorems about running networks: markers, terminal and decision tasks. *)
From Verif Require Import Common NetModel RehModel LoopModel LoopSpec LoopProofs.

(** ** Markers (C91) *)
Theorem standing_total h : exists x, standing h x.
Proof. exists (m_st (summary h)). apply standing_iff. reflexivity. Qed.
Theorem standing_unique h x y : standing h x -> standing h y -> x = y.
Proof. rewrite !standing_iff. congruence. Qed.

(** The default on_interrupt answers with the action given with the marker that
    stands, and with END if none does. *)
Theorem C91_default_answer d q xs pre t a post x :
  ltrace d q xs = pre ++ (t, OAnswer a) :: post -> standing pre x -> a = action_of x.
Proof.
  intros E H. apply standing_iff in H. destruct (trace_ok _ _ _ _ _ _ E) as (H1 & _). rewrite H1, H. reflexivity.
Qed.
(** get_marker and get_marker_time tell the marker that stands and when it was set. *)
Theorem C91_marker d q xs pre t m tm post x :
  ltrace d q xs = pre ++ (t, OMarkerIs m tm) :: post -> standing pre x ->
  match x with Some (m', t', _) => m = Some m' /\ tm = Some t' | None => m = None /\ tm = None end.
Proof.
  intros E H. apply standing_iff in H. destruct (trace_ok _ _ _ _ _ _ E) as (H1 & _). rewrite H in H1.
  destruct x as [[[m' t'] a]|]; simpl in H1; injection H1 as -> ->; auto.
Qed.
(** The answer is obeyed: END ends the task's process and the network goes on
    or fails, IGNORE waits on for the same event, RESTART starts the body again. *)
Theorem C91_obeyed d q xs pre t a post :
  ltrace d q xs = pre ++ (t, OAnswer a) :: post \/ ltrace d q xs = pre ++ (t, OOwn a) :: post ->
  exists t' o post', post = (t', o) :: post' /\
    match a with
    | IEnd => exists p, o = OOver p /\ made_last pre p
    | IIgnore => exists e, o = OSame e /\ awaited pre e
    | IRestart => o = OAgain
    | INone | IOther => o = ODead DSim
    end.
Proof.
  intro E.
  assert (exists y, (y = OAnswer a \/ y = OOwn a) /\ ltrace d q xs = pre ++ (t, y) :: post) as (y & Hy & E')
    by (destruct E as [E|E]; eauto).
  clear E. destruct post as [|[t' o] post'].
  - exfalso. destruct (state_ok d q xs) as (Qt & _). rewrite E', summary_snoc in Qt.
    destruct Hy as [-> | ->]; exact Qt.
  - exists t', o, post'. split; [reflexivity|].
    replace (pre ++ (t, y) :: (t', o) :: post') with ((pre ++ [(t, y)]) ++ (t', o) :: post') in E' by (rewrite <- app_assoc; reflexivity).
    destruct (trace_ok _ _ _ _ _ _ E') as (_ & H & _). rewrite summary_snoc in H.
    assert (m_last (upd (summary pre) (t, y)) = Some y /\ m_ml (upd (summary pre) (t, y)) = m_ml (summary pre) /\
            m_aw (upd (summary pre) (t, y)) = m_aw (summary pre)) as (L & M & A) by (destruct Hy as [-> | ->]; auto).
    rewrite L, M, A in H. destruct Hy as [-> | ->]; destruct a; auto;
      destruct H as (z & H1 & H2); exists z; (split; [exact H1|]); try (apply made_last_iff; exact H2); apply awaited_iff; exact H2.
Qed.
(** After a task's process has ended the network begins a task or fails. *)
Theorem C91_goes_on d q xs pre t p post : ltrace d q xs = pre ++ (t, OOver p) :: post ->
  exists t' o post', post = (t', o) :: post' /\ ((exists n k, o = OBegin n k) \/ exists x, o = ODead x).
Proof.
  intro E. destruct post as [|[t' o] post'].
  - exfalso. destruct (state_ok d q xs) as (Qt & _). rewrite E, summary_snoc in Qt. exact Qt.
  - exists t', o, post'. split; [reflexivity|].
    replace (pre ++ (t, OOver p) :: (t', o) :: post') with ((pre ++ [(t, OOver p)]) ++ (t', o) :: post') in E by (rewrite <- app_assoc; reflexivity).
    destruct (trace_ok _ _ _ _ _ _ E) as (_ & H & _). rewrite summary_snoc in H. exact H.
Qed.

(** A network of two tasks: the first marks itself, is interrupted, and the next
    begins without a marker. *)
Open Scope string_scope. Open Scope list_scope.
Definition two : lnet := mkLN [("A", KPlain); ("B", KPlain)] [("A", mkLinks (Some "B") ["B"]); ("B", mkLinks (Some "A") ["A"])].
Definition marking : list linput :=
  [LStart (Some "A"); LYield 1; LDone false; LOp (OpMark "busy" IIgnore); LYield 2; LAdvance 3; LInterrupt None;
   LOp OpMarker; LDone false; LOp (OpMark "late" IEnd); LYield 3; LInterrupt None; LOp OpMarker; LYield 4; LInterrupt None].
Example C91_ex : ltrace two [] marking =
  [(0, OBegin "A" KPlain); (0, OMade 0); (0, OWait 1); (0, OMark "busy" IIgnore); (0, OWait 2);
   (3, OAnswer IIgnore); (3, OSame 2); (3, OMarkerIs (Some "busy") (Some 0)); (3, OMark "late" IEnd); (3, OWait 3);
   (3, OAnswer IEnd); (3, OOver 0); (3, OBegin "B" KPlain); (3, OMade 1); (3, OMarkerIs None None); (3, OWait 4);
   (3, OAnswer IEnd); (3, OOver 1); (3, OBegin "A" KPlain); (3, OMade 2)].
Proof. vm_compute. reflexivity. Qed.

(** ** A restart keeps the marker (C92) *)
Definition restarted : list linput :=
  [LStart (Some "A"); LYield 1; LDone false; LOp (OpMark "second half" IRestart); LYield 2; LInterrupt None;
   LOp OpMarker; LYield 1; LInterrupt None].
(** Interrupted at its first event, a newly begun task ends; a restarted one is
    restarted once more. *)
Theorem C92_restart_refuted : exists d q xs pre t a post x,
  ltrace d q xs = pre ++ (t, OAnswer a) :: post /\ standing_since_restart pre x /\ a <> action_of x.
Proof.
  exists two, [], restarted,
    [(0, OBegin "A" KPlain); (0, OMade 0); (0, OWait 1); (0, OMark "second half" IRestart); (0, OWait 2);
     (0, OAnswer IRestart); (0, OAgain); (0, OMarkerIs (Some "second half") (Some 0)); (0, OWait 1)], 0, IRestart, [(0, OAgain)], None.
  split; [vm_compute; reflexivity|]. split; [|discriminate].
  change [(0, OBegin "A" KPlain); (0, OMade 0); (0, OWait 1); (0, OMark "second half" IRestart); (0, OWait 2);
     (0, OAnswer IRestart); (0, OAgain); (0, OMarkerIs (Some "second half") (Some 0)); (0, OWait 1)] with
    (([(0, OBegin "A" KPlain); (0, OMade 0); (0, OWait 1); (0, OMark "second half" IRestart); (0, OWait 2);
     (0, OAnswer IRestart)] ++ [(0, OAgain)]) ++ [(0, OMarkerIs (Some "second half") (Some 0))] ++ [(0, OWait 1)]).
  rewrite app_assoc. repeat (constructor; try congruence).
Qed.
(** Until a task is restarted it makes no difference. *)
Theorem C92_first_time_partial d q xs pre t a post x : (forall t', ~ In (t', OAgain) pre) ->
  ltrace d q xs = pre ++ (t, OAnswer a) :: post -> standing_since_restart pre x -> a = action_of x.
Proof.
  intros N E H. apply (C91_default_answer d q xs pre t a post); [exact E|]. clear E.
  induction H; try (constructor; fail).
  - exfalso. apply (N t0). apply in_app_iff. right. left. reflexivity.
  - apply StOther; auto. apply IHstanding_since_restart. intros t' I. apply (N t'). apply in_app_iff. auto.
Qed.

(** ** Terminal tasks (C93) *)
(** Whatever happens, short of a process finding the event of a terminal task
    and giving it the planning factor: no task begins after it, its process
    does not end, no interrupt is answered; it can only fail with a
    SimulationError. *)
Theorem C93_never_leaves d q xs pre t o post n : ~ In (LDone true) xs ->
  ltrace d q xs = pre ++ (t, o) :: post -> in_task pre n KTerm ->
  (forall n' k, o <> OBegin n' k) /\ (forall p, o <> OOver p) /\ (forall a, o <> OAnswer a) /\ (forall a, o <> OOwn a) /\
  o <> OAgain /\ (forall e, o <> OSame e) /\ forall x, o = ODead x -> x = DSim.
Proof.
  intros Hx E I. apply in_task_iff in I. destruct I as (t0 & I).
  pose proof (terminal_ok _ _ _ _ _ _ Hx E) as H. unfold okterm in H. rewrite I in H. simpl in H.
  split; [|split; [|split; [|split; [|split; [|split]]]]]; intros; try intro; subst; try exact H; destruct H.
Qed.
(** An interrupt, or the end of its event, makes the network fail. *)
Theorem C93_interrupt_raises d q xs n : ~ In (LDone true) xs ->
  in_task (ltrace d q xs) n KTerm -> ~ dead (ltrace d q xs) ->
  let s := fst (lrun d (linit q) xs) in
  (forall own, snd (lstep d s (LInterrupt own)) = [ODead DSim]) /\ snd (lstep d s (LDone false)) = [ODead DSim].
Proof.
  intros Hx I D s. apply in_task_iff in I. destruct I as (t0 & I).
  pose proof (state_ok d q xs) as HI. fold s in HI.
  pose proof (fold_term d xs Hx (linit q) sm0 (init_inv q) Logic.I) as HT. fold s in HT.
  change (Term s (summary (ltrace d q xs))) in HT. unfold Term in HT. rewrite I in HT.
  destruct (term_kind _ _ HI _ _ I) as (i & Ei & K).
  destruct HI as (_ & _ & _ & _ & Ph). rewrite dead_iff in D.
  destruct (s_phase s) eqn:Hp; try (destruct HT; fail).
  - unfold lstep. rewrite Hp, Ei. unfold interrupted. rewrite K. auto.
  - contradiction.
Qed.
(** Rehearsing a terminal task takes 1e24 and returns. *)
Theorem C93_rehearsal real now : let '(s, v, l) := rruns terminal_body real 2 (rinit now terminal_heap) RNone in
  rr_phase s = RFinished /\ rr_clock s = now + terminal_time.
Proof. split; reflexivity. Qed.

Definition ending : lnet := mkLN [("A", KPlain); ("Z", KTerm)] [("A", mkLinks (Some "Z") ["Z"])].
Example C93_ex : ltrace ending [] [LStart (Some "A"); LYield 1; LDone false; LReturn; LOp OpRunning; LInterrupt (Some IEnd)] =
  [(0, OBegin "A" KPlain); (0, OMade 0); (0, OWait 1); (0, OOver 0); (0, OBegin "Z" KTerm); (0, OMade 1); (0, OWait 0);
   (0, ORunningIs (Some (Some "Z", 1%nat))); (0, ODead DSim)].
Proof. vm_compute. reflexivity. Qed.

(** ** Decision tasks (C94) *)
Lemma mid_in pre t0 n k mid : (forall t o, In (t, o) mid -> ~ begins o) ->
  m_in (summary (pre ++ (t0, OBegin n k) :: mid)) = Some (n, k, t0) /\
  m_dec (summary (pre ++ (t0, OBegin n k) :: mid)) = decisions mid.
Proof.
  intro H. assert (forall m' , m_in m' = Some (n, k, t0) -> m_in (fold_left upd mid m') = Some (n, k, t0) /\
    m_dec (fold_left upd mid m') = (m_dec m' + decisions mid)%nat) as G.
  { induction mid as [|[t o] mid IH]; intros m' E; [cbn; lia || (split; [exact E|cbn; lia])|].
    cbn [fold_left]. assert (forall t o, In (t, o) mid -> ~ begins o) as H' by (intros t' o' I; apply (H t'); right; exact I).
    assert (~ begins o) as Hb by (apply (H t); left; reflexivity).
    destruct (IH H' (upd m' (t, o))) as [G1 G2].
    { destruct o; cbn; try exact E. exfalso. apply Hb. do 2 eexists. reflexivity. }
    split; [exact G1|]. rewrite G2. destruct o; cbn; try lia. exfalso. apply Hb. do 2 eexists. reflexivity. }
  unfold summary. rewrite fold_left_app. cbn [fold_left]. apply G. reflexivity.
Qed.
Lemma prefix_dead d q xs pre t0 n k post : ltrace d q xs = pre ++ (t0, OBegin n k) :: post -> ~ dead pre.
Proof.
  intros E Hd. apply dead_iff in Hd. destruct (trace_ok _ _ _ _ _ _ E) as (_ & _ & _ & _ & _ & H). exact (H Hd).
Qed.
Lemma mid_dead pre t0 n k mid : ~ dead pre -> ~ dead mid -> m_dead (summary (pre ++ (t0, OBegin n k) :: mid)) = false.
Proof.
  intros H1 H2. destruct (m_dead _) eqn:E; [|reflexivity]. apply dead_iff in E. destruct E as (t & x & I).
  apply in_app_iff in I. destruct I as [I|[I|I]]; [destruct H1|discriminate|destruct H2]; exists t, x; exact I.
Qed.
(** From the beginning of a decision task to the beginning of the next task the
    clock stands, unless the network fails. *)
Theorem C94_no_time d q xs pre t0 n k mid t o post : decision k ->
  ltrace d q xs = pre ++ (t0, OBegin n k) :: mid ++ (t, o) :: post ->
  (forall t' o', In (t', o') mid -> ~ begins o') -> ~ dead mid -> t == t0.
Proof.
  intros K E B D. pose proof (prefix_dead _ _ _ _ _ _ _ _ E) as Dp.
  replace (pre ++ (t0, OBegin n k) :: mid ++ (t, o) :: post) with ((pre ++ (t0, OBegin n k) :: mid) ++ (t, o) :: post) in E
    by (rewrite <- app_assoc; reflexivity).
  destruct (trace_ok _ _ _ _ _ _ E) as (_ & _ & _ & _ & H & _).
  destruct (mid_in pre t0 n k mid B) as [M1 M2]. rewrite M1 in H. apply H; [exact K|]. apply mid_dead; assumption.
Qed.
(** By the time the next task begins make_decision was called exactly once;
    a task that is no decision makes none. *)
Theorem C94_once d q xs pre t0 n k mid t n' k' post :
  ltrace d q xs = pre ++ (t0, OBegin n k) :: mid ++ (t, OBegin n' k') :: post ->
  (forall t' o', In (t', o') mid -> ~ begins o') ->
  decisions mid = match k with KHold | KSkip => 1%nat | _ => 0%nat end.
Proof.
  intros E B. pose proof (prefix_dead _ _ _ _ _ _ _ _ E) as Dp. pose proof E as E0.
  replace (pre ++ (t0, OBegin n k) :: mid ++ (t, OBegin n' k') :: post) with ((pre ++ (t0, OBegin n k) :: mid) ++ (t, OBegin n' k') :: post) in E
    by (rewrite <- app_assoc; reflexivity).
  pose proof (prefix_dead _ _ _ _ _ _ _ _ E) as Dm. rewrite dead_iff in Dm.
  destruct (trace_ok _ _ _ _ _ _ E) as (_ & _ & _ & _ & H & _).
  destruct (mid_in pre t0 n k mid B) as [M1 M2]. rewrite M1, M2 in H.
  apply not_true_is_false in Dm. destruct H as [H _].
  assert (k = KPlain \/ k = KTerm -> decisions mid = 0%nat) as G.
  { intro K. destruct (decisions mid) eqn:Ed; [reflexivity|exfalso].
    assert (exists m1 t' m2, mid = m1 ++ (t', ODecided) :: m2) as (m1 & t' & m2 & ->).
    { clear - Ed. revert n0 Ed. induction mid as [|[t' o] mid IH]; intros n0 Ed; [discriminate|].
      destruct o; simpl in Ed; try (destruct (IH _ Ed) as (m1 & t2 & m2 & ->); match goal with |- exists _ _ _, ?y :: _ = _ => exists (y :: m1), t2, m2; reflexivity end).
      exists [], t', mid. reflexivity. }
    replace (pre ++ (t0, OBegin n k) :: (m1 ++ (t', ODecided) :: m2) ++ (t, OBegin n' k') :: post)
      with ((pre ++ (t0, OBegin n k) :: m1) ++ (t', ODecided) :: m2 ++ (t, OBegin n' k') :: post) in E0
      by (repeat (rewrite <- app_assoc; cbn [app]); reflexivity).
    destruct (trace_ok _ _ _ _ _ _ E0) as (_ & _ & _ & _ & H0 & _).
    destruct (mid_in pre t0 n k m1) as [M3 _]; [intros t2 o2 I; apply (B t2); apply in_app_iff; auto|].
    rewrite M3 in H0. destruct H0 as [_ H0]. apply H0; [|reflexivity]. destruct K; subst k; nd. }
  destruct k; auto; destruct H as [_ H]; unfold decision; auto.
Qed.

Definition deciding : lnet := mkLN [("D", KHold); ("S", KSkip); ("A", KPlain)]
  [("D", mkLinks (Some "S") ["S"]); ("S", mkLinks (Some "A") ["A"; "D"]); ("A", mkLinks (Some "D") ["D"])].
Definition deciding_run : list linput :=
  [LStart (Some "D"); LOp OpRunning; LReturn; LAdvance 1; LDone false; LOp OpRunning; LOp (OpSetQueue ["A"; "A"]); LReturn;
   LYield 1; LAdvance 5; LDone false; LReturn; LOp OpRunning].
Example C94_ex : ltrace deciding [] deciding_run =
  [(0, OBegin "D" KHold); (0, OMade 0); (0, ORunningIs (Some (Some "D", 0%nat))); (0, ODecided); (0, OBad); (0, OOver 0);
   (0, OBegin "S" KSkip); (0, ORunningIs (Some (Some "S", 0%nat))); (0, OOk); (0, ODecided);
   (0, OBegin "A" KPlain); (0, OMade 1); (0, OWait 1); (5, OOver 1); (5, OBegin "A" KPlain); (5, OMade 2); (5, ORunningIs (Some (Some "A", 2%nat)))].
Proof. vm_compute. reflexivity. Qed.

(** ** The running task (C95) *)
Lemma not_over d q xs pre post : ltrace d q xs = pre ++ post -> forall p, m_ml (summary pre) = Some p ->
  m_over (summary pre) = false -> forall t, ~ In (t, OOver p) pre.
Proof.
  revert post. induction pre as [|y pre IH] using rev_ind; intros post E p M O t I; [destruct I|].
  rewrite <- app_assoc in E. specialize (IH _ E). rewrite summary_snoc in M, O.
  apply in_app_iff in I. destruct y as [t' o]. destruct I as [I|[I|[]]].
  - destruct o; cbn [upd m_ml m_over] in M, O; try (apply (IH p M O t I)); try discriminate.
    destruct (trace_ok _ _ _ _ _ _ E) as (_ & _ & H & _). injection M as ->.
    pose proof (bound_ok pre p t (or_intror I)). lia.
  - injection I as -> ->. discriminate.
Qed.
(** While the network is in a task that is not a DO_NOT_HOLD decision and has
    not failed, get_running_task gives its name and its process. *)
Theorem C95_running_partial d q xs pre t r post n k :
  ltrace d q xs = pre ++ (t, ORunningIs r) :: post -> in_task pre n k -> k <> KSkip -> ~ dead pre ->
  exists p, r = Some (Some n, p) /\ made_last pre p /\ alive pre p.
Proof.
  intros E I K D. apply in_task_iff in I. destruct I as (t0 & I).
  destruct (trace_ok _ _ _ _ _ _ E) as (_ & _ & _ & H & _). rewrite I in H.
  assert (m_dead (summary pre) = false) as D' by (apply not_true_is_false; rewrite <- dead_iff; exact D).
  destruct (H D' K) as (p & H1 & H2 & H3). exists p. split; [exact H1|].
  assert (made_last pre p) as ML by (apply made_last_iff; exact H2). split; [exact ML|].
  split; [|split].
  - clear - ML. induction ML as [h t p|h t o p _ (t' & IH) _]; [exists t|exists t']; apply in_app_iff; [right; left; reflexivity|auto].
  - eapply not_over; eauto.
  - intros t' x I'. apply D. exists t', x. exact I'.
Qed.
(** Before anything is begun there is none. *)
Theorem C95_none d q xs pre t r post :
  ltrace d q xs = pre ++ (t, ORunningIs r) :: post -> ~ dead pre -> (forall n k, ~ in_task pre n k) -> r = None.
Proof.
  intros E D I. destruct (trace_ok _ _ _ _ _ _ E) as (_ & _ & _ & H & _).
  assert (m_dead (summary pre) = false) as D' by (apply not_true_is_false; rewrite <- dead_iff; exact D).
  destruct (m_in (summary pre)) as [[[n k] t0]|] eqn:Em; [|apply H; exact D'].
  exfalso. apply (I n k). apply in_task_iff. exists t0. exact Em.
Qed.
(** In a DO_NOT_HOLD decision it is that decision's name with the process of an
    earlier task, which has ended. *)
Theorem C95_skip_refuted : exists d q xs pre t p post,
  ltrace d q xs = pre ++ (t, ORunningIs (Some (Some "S", p))) :: post /\ in_task pre "S" KSkip /\ In (0, OOver p) pre.
Proof.
  exists deciding, [], deciding_run.
  exists [(0, OBegin "D" KHold); (0, OMade 0%nat); (0, ORunningIs (Some (Some "D", 0%nat))); (0, ODecided); (0, OBad); (0, OOver 0%nat);
   (0, OBegin "S" KSkip)], 0, 0%nat.
  eexists. split; [vm_compute; reflexivity|]. split; [apply in_task_iff; eexists; vm_compute; reflexivity|].
  cbn. tauto.
Qed.
(** After the network has failed it still names a task. *)
Theorem C95_dead_refuted : exists d q xs pre t r post,
  ltrace d q xs = pre ++ (t, ORunningIs (Some r)) :: post /\ dead pre.
Proof.
  exists two, [], [LStart (Some "A"); LRaise; LOp OpRunning], [(0, OBegin "A" KPlain); (0, OMade 0%nat); (0, ODead DUser)], 0, (Some "A", 0%nat), [].
  split; [vm_compute; reflexivity|]. exists 0, DUser. cbn. tauto.
Qed.

(** ** Giving control back (C96) *)
(** A chain of DO_NOT_HOLD decisions is run through, in order, without time
    passing, up to the first other task. *)
Theorem C96_chain_partial d l : forall s n n' k, path d n (l ++ [n']) -> Forall (kind_is d KSkip) l -> kind_is d k n' -> k <> KSkip ->
  s_phase s = LDeciding -> s_name s = Some n -> (exists i, s_inst s = Some i /\ i_kind i = KSkip) -> s_queue s = [] ->
  let '(s', h) := lrun d s (repeat LReturn (S (List.length l))) in
  begun h = l ++ [n'] /\ s_now s' = s_now s /\ s_queue s' = [] /\ s_name s' = Some n' /\ s_proc s' = Some (s_made s) /\
  (exists i, s_inst s' = Some i /\ i_kind i = k) /\ (forall t o, In (t, o) h -> t = s_now s).
Proof.
  induction l as [|n1 l IH]; intros s n n' k P Sk K Nk Ph Nm (i & Ei & Ki) Qu.
  - destruct P as [(al & P) _]. unfold kind_is in K.
    cbn [repeat List.length lrun]. unfold lstep. rewrite Ph, Ei, Ki. unfold go_on. rewrite Nm, P, Qu. cbn [l_default].
    unfold begin_task. rewrite Qu. cbn [lbegin_queue]. rewrite K.
    destruct k; try congruence; cbn; repeat split; eauto;
      intros t o H; repeat (destruct H as [H|H]; [injection H as <- <-; reflexivity|]); destruct H.
  - destruct P as [(al & P) P2]. inversion Sk as [|x y Sk1 Sk2]; subst. unfold kind_is in Sk1.
    change (repeat LReturn (S (List.length (n1 :: l)))) with (LReturn :: repeat LReturn (S (List.length l))).
    cbn [lrun]. unfold lstep. rewrite Ph, Ei, Ki. unfold go_on. rewrite Nm, P, Qu. cbn [l_default].
    unfold begin_task. rewrite Qu. cbn [lbegin_queue]. rewrite Sk1.
    set (s1 := mkL _ _ _ _ _ _ _).
    specialize (IH s1 n1 n' k P2 Sk2 K Nk eq_refl eq_refl (ex_intro _ _ (conj eq_refl eq_refl)) eq_refl).
    destruct (lrun d s1 _) as [s2 h]. destruct IH as (H1 & H2 & H3 & H4 & H5 & H6 & H7).
    cbn [map app begun fst snd]. rewrite H1. repeat split; auto.
    intros t o [H|[H|H]]; [injection H as <- <-; reflexivity|injection H as <- <-; reflexivity|exact (H7 t o H)].
Qed.
Definition skips : lnet := mkLN [("S", KSkip); ("T", KSkip); ("A", KPlain)]
  [("S", mkLinks (Some "T") ["T"]); ("T", mkLinks (Some "A") ["A"])].
Example C96_ex : path skips "S" (["T"] ++ ["A"]) /\ Forall (kind_is skips KSkip) ["T"] /\ kind_is skips KPlain "A" /\
  begun (ltrace skips [] [LStart (Some "S"); LReturn; LReturn]) = ["S"; "T"; "A"].
Proof.
  split; [|split; [|split]]; try (vm_compute; reflexivity).
  - simpl. repeat split; eexists; reflexivity.
  - repeat constructor.
Qed.
(** If the decisions' defaults form a cycle the loop decides for ever: however
    often make_decision has returned it is being called again, the clock is where
    it was and nobody else has had a turn. *)
Definition cycle : lnet := mkLN [("S", KSkip)] [("S", mkLinks (Some "S") ["S"])].
Theorem C96_spin_refuted : forall n, let '(s, h) := lrun cycle (linit []) (LStart (Some "S") :: repeat LReturn n) in
  List.length (begun h) = S n /\ s_phase s = LDeciding /\ s_now s = 0 /\ (forall t, snd (lstep cycle s (LAdvance t)) = [OBad]).
Proof.
  assert (forall n s, s_phase s = LDeciding -> s_name s = Some "S" -> (exists i, s_inst s = Some i /\ i_kind i = KSkip) ->
    s_queue s = [] -> let '(s', h) := lrun cycle s (repeat LReturn n) in
    List.length (begun h) = n /\ s_phase s' = LDeciding /\ s_now s' = s_now s) as G.
  { induction n as [|n IH]; intros s Ph Nm (i & Ei & Ki) Qu; cbn [repeat lrun]; [auto|].
    unfold lstep. rewrite Ph, Ei, Ki. unfold go_on. rewrite Nm. cbn [sget cycle ln_links String.eqb Ascii.eqb Bool.eqb]. rewrite Qu.
    cbn [l_default]. unfold begin_task. rewrite Qu. cbn [lbegin_queue cycle ln_classes sget String.eqb Ascii.eqb Bool.eqb].
    set (s1 := mkL _ _ _ _ _ _ _). specialize (IH s1 eq_refl eq_refl (ex_intro _ _ (conj eq_refl eq_refl)) eq_refl).
    destruct (lrun _ s1 _) as [s2 h]. destruct IH as (H1 & H2 & H3). cbn. auto. }
  intro n. cbn [lrun]. set (r := lstep cycle (linit []) (LStart (Some "S"))). vm_compute in r. unfold r. clear r.
  set (s1 := mkL _ _ _ _ _ _ _).
  specialize (G n s1 eq_refl eq_refl (ex_intro _ _ (conj eq_refl eq_refl)) eq_refl).
  destruct (lrun cycle s1 _) as [s2 h]. destruct G as (H1 & H2 & H3). cbn. rewrite H1. repeat split; auto.
  intro t. unfold lstep. rewrite H2. destruct (Qltb _ _); reflexivity.
Qed.

(** ** Interrupting a network (C97) *)
(** A plain task that waits for an event answers an interrupt. *)
Theorem C97_plain_partial d q xs n own : let s := fst (lrun d (linit q) xs) in
  in_task (ltrace d q xs) n KPlain -> (exists e, s_phase s = LWaiting e) ->
  exists o l, snd (lstep d s (LInterrupt own)) = o :: l /\
    match own with Some a => o = OOwn a | None => exists x, standing (ltrace d q xs) x /\ o = OAnswer (action_of x) end.
Proof.
  intros s I (e & Hp). apply in_task_iff in I. destruct I as (t0 & I).
  pose proof (state_ok d q xs) as HI. fold s in HI. destruct HI as (_ & _ & _ & J & _).
  destruct (s_inst s) as [i|] eqn:Ei; [|destruct J as (J & _); congruence].
  destruct J as (n' & t1 & J1 & J2 & _). assert (i_kind i = KPlain) as K by congruence.
  unfold lstep. rewrite Hp, Ei. unfold interrupted. rewrite K.
  destruct (match match own with Some a => a | None => i_act i end with IEnd => over d s | IIgnore => _ | _ => _ end) as [s1 l].
  exists (match own with Some a => OOwn a | None => OAnswer (match own with Some a => a | None => i_act i end) end), l.
  split; [destruct own; reflexivity|]. destruct own as [a|]; [reflexivity|].
  exists (m_st (summary (ltrace d q xs))). split; [apply standing_iff; reflexivity|].
  f_equal. destruct (m_st _) as [[[? ?] ?]|]; simpl in J2; injection J2; auto.
Qed.
(** A decision task waiting out its timeout(0) does not: the network fails. *)
Theorem C97_decision_refuted : exists d xs n, let s := fst (lrun d (linit []) xs) in
  in_task (ltrace d [] xs) n KHold /\ ~ dead (ltrace d [] xs) /\
  forall own, snd (lstep d s (LInterrupt own)) = [ODead DInterrupt].
Proof.
  exists deciding, [LStart (Some "D"); LReturn], "D". split; [|split].
  - apply in_task_iff. eexists. vm_compute. reflexivity.
  - rewrite dead_iff. vm_compute. discriminate.
  - intro own. vm_compute. reflexivity.
Qed.

Print Assumptions standing_total.
Print Assumptions standing_unique.
Print Assumptions C91_default_answer.
Print Assumptions C91_marker.
Print Assumptions C91_obeyed.
Print Assumptions C91_goes_on.
Print Assumptions C92_restart_refuted.
Print Assumptions C92_first_time_partial.
Print Assumptions C93_never_leaves.
Print Assumptions C93_interrupt_raises.
Print Assumptions C93_rehearsal.
Print Assumptions C94_no_time.
Print Assumptions C94_once.
Print Assumptions C95_running_partial.
Print Assumptions C95_none.
Print Assumptions C95_skip_refuted.
Print Assumptions C95_dead_refuted.
Print Assumptions C96_chain_partial.
Print Assumptions C96_spin_refuted.
Print Assumptions C97_plain_partial.
Print Assumptions C97_decision_refuted.

(** ** Failures (C137) *)
Lemma dead_stays d x : forall xs s, s_phase s = LDead x -> forall t n k, ~ In (t, OBegin n k) (snd (lrun d s xs)).
Proof.
  induction xs as [|i xs IH]; intros s P t n k; [intros []|]. cbn [lrun].
  assert (E : s_phase (fst (lstep d s i)) = LDead x /\ forall n k, ~ In (OBegin n k) (snd (lstep d s i))).
  { destruct i; cbn [lstep]; rewrite ?P; cbn; try (split; [exact P|intros ? ? [H|[]]; discriminate]).
    - destruct o; cbn; try destruct (s_inst s); try destruct (s_queue s); cbn; (split; [auto|intros ? ? [H|[]]; discriminate]).
    - destruct (Qltb t0 (s_now s)); cbn; (split; [auto|]); [intros ? ? [H|[]]; discriminate|intros ? ? []]. }
  destruct E as [E1 E2]. destruct (lstep d s i) as [s1 o]. cbn [fst snd] in *. specialize (IH s1 E1 t n k).
  destruct (lrun d s1 xs) as [s2 l]. cbn [snd] in *. intro H. apply in_app_iff in H as [H|H]; [|exact (IH H)].
  apply in_map_iff in H as (y & Y & J). injection Y as _ ->. exact (E2 n k J).
Qed.
(** A task whose code raises, or whose awaited event fails, takes the network with it: the
    loop's process fails, and no task of it is begun any more. *)
Theorem C137_network_ends d s x i : s_inst s = Some i -> i_kind i <> KTerm ->
  (x = LFail /\ exists e, s_phase s = LWaiting e) \/ (x = LRaise /\ s_phase s = LCode) ->
  exists s1, lstep d s x = (s1, [ODead DUser]) /\ forall xs t n k, ~ In (t, OBegin n k) (snd (lrun d s1 xs)).
Proof.
  intros I K H. exists (with_phase s (LDead DUser)). split.
  - destruct H as [(-> & e & P)|(-> & P)]; cbn; rewrite P; [|reflexivity]. rewrite I. destruct (i_kind i); try reflexivity. contradiction K; reflexivity.
  - intros xs. apply (dead_stays d DUser). reflexivity.
Qed.
Print Assumptions C137_network_ends.
Example C137_network_ex : ltrace two [] [LStart (Some "A"); LYield 1; LFail; LReturn; LDone false; LOp OpClearQueue] =
  [(0, OBegin "A" KPlain); (0, OMade 0%nat); (0, OWait 1); (0, ODead DUser); (0, OBad); (0, OBad); (0, OOk)].
Proof. vm_compute. reflexivity. Qed.
