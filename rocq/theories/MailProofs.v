(** Proofs about messages. *)
From Coq Require Import Qround Permutation.
From Verif Require Import Common MailModel MailSpec.
From Verif Require CommsModel.

(** ** The queue *)
Lemma pop_split : forall l x r, pop l = Some (x, r) -> exists l1 l2, l = l1 ++ x :: l2 /\ r = l1 ++ l2 /\
  Forall (fun y => before x y = true) l1 /\ Forall (fun y => before y x = false) l2.
Proof.
  induction l as [|z l IH]; intros x r H; [discriminate|]. cbn in H. destruct (pop l) as [[y q]|] eqn:E.
  - destruct (IH y q eq_refl) as (l1 & l2 & -> & -> & F1 & F2). destruct (before y z) eqn:B; injection H as <- <-.
    + exists (z :: l1), l2. split; [reflexivity|]. split; [reflexivity|]. split; [constructor; assumption|assumption].
    + exists [], (l1 ++ y :: l2). split; [reflexivity|]. split; [reflexivity|]. split; [constructor|].
      assert (T : forall w, before y w = true -> before w z = false).
      { intros w W. unfold before in *. destruct (Qltb (e_time w) (e_time z)) eqn:A1.
        - exfalso. apply Qltb_lt in A1. apply orb_false_iff in B as [B1 B2]. apply Qltb_ge in B1. apply orb_true_iff in W as [W|W].
          + apply Qltb_lt in W. lra.
          + apply andb_true_iff in W as [W _]. apply andb_true_iff in W as [W _]. apply Qeqb_eq in W. lra.
        - cbn. destruct (Qeqb (e_time w) (e_time z)) eqn:A2; [cbn|reflexivity]. apply Qeqb_eq in A2. apply orb_false_iff in B as [B1 B2]. apply Qltb_ge in B1.
          apply orb_true_iff in W as [W|W]; [apply Qltb_lt in W; lra|]. apply andb_true_iff in W as [W W3]. apply negb_true_iff in W3. rewrite W3. reflexivity. }
      assert (BY : before y z = false) by assumption.
      assert (T2 : forall w, before w y = false -> before w z = false).
      { intros w W. destruct (before w z) eqn:A; [|reflexivity]. exfalso. unfold before in *. apply orb_false_iff in W as [W1 W2]. apply orb_false_iff in BY as [B1 B2].
        apply Qltb_ge in W1, B1. apply orb_true_iff in A as [A|A]; [apply Qltb_lt in A; lra|]. apply andb_true_iff in A as [A A3]. apply andb_true_iff in A as [A A2]. apply Qeqb_eq in A.
        assert (E1 : Qeqb (e_time w) (e_time y) = true) by (apply Qeqb_eq; lra). assert (E2 : Qeqb (e_time y) (e_time z) = true) by (apply Qeqb_eq; lra).
        rewrite E1, A2 in W2. rewrite E2, A3 in B2. cbn in *. destruct (e_urgent y); cbn in *; discriminate. }
      apply Forall_app. split; [eapply Forall_impl; [|exact F1]; intros; apply T; assumption|]. constructor; [assumption|]. eapply Forall_impl; [|exact F2]. intros; apply T2; assumption.
  - injection H as <- <-. destruct l as [|y l]; [|cbn in E; destruct (pop l) as [[? ?]|]; [destruct (before _ _)|]; discriminate]. exists [], []. repeat split; constructor.
Qed.
Lemma before_time : forall x y, before x y = true -> e_time x <= e_time y.
Proof. intros x y H. unfold before in H. apply orb_true_iff in H as [H|H]; [apply Qltb_lt in H; lra|]. apply andb_true_iff in H as [H _]. apply andb_true_iff in H as [H _]. apply Qeqb_eq in H. lra. Qed.
Lemma not_before_time : forall x y, before x y = false -> e_time y <= e_time x.
Proof. intros x y H. unfold before in H. apply orb_false_iff in H as [H _]. apply Qltb_ge in H. assumption. Qed.

(** ** Time *)
Definition instant (e : ev) : bool := match e with ESend _ _ | ERetry _ _ _ => false | _ => true end.
Definition sending (e : ev) : bool := match e with ESend _ _ => true | _ => false end.
Definition urgency (e : ev) : bool := match e with EStart | EInit _ _ | EListen _ => true | _ => false end.
Definition on_time (f : cfg) (now : Q) (e : entry) : Prop :=
  now <= e_time e /\ (instant (e_ev e) = true -> e_time e == now) /\ (sending (e_ev e) = true -> e_time e <= now + f_send f /\ 0 < f_send f) /\ e_urgent e = urgency (e_ev e).
Fixpoint ssorted (q : list entry) : Prop :=
  match q with
  | [] => True
  | x :: q' => (sending (e_ev x) = true -> Forall (fun y => sending (e_ev y) = true -> e_time x <= e_time y) q') /\ ssorted q'
  end.
Definition timed (f : cfg) (s : st) : Prop := Forall (on_time f (t_now s)) (t_queue s) /\ ssorted (t_queue s).
Lemma ssorted_app : forall q e, ssorted q -> (sending (e_ev e) = true -> Forall (fun y => sending (e_ev y) = true -> e_time y <= e_time e) q) -> ssorted (q ++ [e]).
Proof.
  induction q as [|x q IH]; intros e S H; cbn; [split; [constructor|exact I]|]. destruct S as [S1 S2]. split.
  - intro X. apply Forall_app. split; [apply S1; assumption|]. constructor; [|constructor]. intro Y. specialize (H Y). inversion H; subst. auto.
  - apply IH; [assumption|]. intro Y. specialize (H Y). inversion H; subst. assumption.
Qed.
Lemma ssorted_del : forall l1 x l2, ssorted (l1 ++ x :: l2) -> ssorted (l1 ++ l2).
Proof.
  induction l1 as [|y l1 IH]; intros x l2 S; cbn in *; [apply S|]. destruct S as [S1 S2]. split; [|eapply IH; eassumption].
  intro Y. specialize (S1 Y). apply Forall_app in S1 as [A B]. apply Forall_app. split; [assumption|]. inversion B; assumption.
Qed.
Lemma ssorted_in : forall l1 x l2 y, ssorted (l1 ++ x :: l2) -> In y l1 -> sending (e_ev y) = true -> sending (e_ev x) = true -> e_time y <= e_time x.
Proof.
  induction l1 as [|z l1 IH]; intros x l2 y S I Y X; [destruct I|]. cbn in S. destruct S as [S1 S2]. destruct I as [->|I].
  - specialize (S1 Y). rewrite Forall_forall in S1. apply (S1 x); [apply in_or_app; right; left; reflexivity|assumption].
  - eapply IH; eassumption.
Qed.
Lemma timed_schedule : forall f s t u e, timed f s -> u = urgency e -> t_now s <= t -> (instant e = true -> t == t_now s) -> (sending e = true -> t == t_now s + f_send f /\ 0 < f_send f) ->
  timed f (schedule s t u e).
Proof.
  intros f s t u e [F S] U L I SE. split; cbn.
  - apply Forall_app. split; [assumption|]. constructor; [|constructor]. unfold on_time. cbn. split; [assumption|]. split; [assumption|]. split; [intro X; destruct (SE X); split; lra|assumption].
  - apply ssorted_app; [assumption|]. cbn. intro X. destruct (SE X) as [E _]. eapply Forall_impl; [|exact F]. cbn. intros y (_ & _ & Y & _) Z. destruct (Y Z) as [Y1 _]. lra.
Qed.
Lemma timed_same : forall f s s', t_now s' = t_now s -> t_queue s' = t_queue s -> timed f s -> timed f s'.
Proof. intros f s s' N Q T. unfold timed in *. rewrite N, Q. assumption. Qed.
Lemma timed_box_get : forall f s a, timed f s -> timed f (box_get s a).
Proof.
  intros f s a T. unfold box_get. destruct (x_items _); [apply (timed_same f s); auto|]. apply timed_schedule; try reflexivity; [apply (timed_same f s); auto|cbn; lra|discriminate].
Qed.
Lemma timed_box_put : forall f s a i, timed f s -> timed f (box_put s a i).
Proof.
  intros f s a i T. unfold box_put. destruct (x_loop _); try (apply (timed_same f s); auto; fail). apply timed_box_get. apply (timed_same f s); auto.
Qed.
Lemma timed_in_get : forall f s, timed f s -> timed f (in_get s).
Proof.
  intros f s T. unfold in_get. destruct (t_in s) as [|[k id] r]; [apply (timed_same f s); auto|]. apply timed_schedule; try reflexivity; [apply (timed_same f s); auto|cbn; lra|discriminate].
Qed.
Lemma timed_in_put : forall f s k id, timed f s -> timed f (in_put s k id).
Proof. intros f s k id T. unfold in_put. destruct (t_loop s); try (apply (timed_same f s); auto; fail). apply timed_in_get. apply (timed_same f s); auto. Qed.
Lemma timed_deliver : forall f s k id m, timed f s -> timed f (fst (deliver s k id m)).
Proof. intros f s k id m T. cbn. apply timed_box_put. apply (timed_same f s); auto. Qed.
Lemma timed_attempt : forall f s k id n, good f -> timed f s -> timed f (fst (attempt f s k id n)).
Proof.
  intros f s k id n [G1 G2] T. unfold attempt. destruct (nth_error _ _) as [m|]; [|exact T]. destruct (CommsModel.blocked _ _ _).
  - destruct (_ =? _)%Z; [exact T|]. apply timed_schedule; try reflexivity; [exact T|cbn; lra|discriminate|discriminate].
  - destruct (Qltb 0 (f_send f)) eqn:E; [|apply timed_deliver; exact T]. apply Qltb_lt in E. apply timed_schedule; try reflexivity; [exact T|cbn; lra|discriminate|].
    intros _. split; [reflexivity|assumption].
Qed.
Lemma timed_process : forall f s e, good f -> timed f s -> timed f (fst (process f s e)).
Proof.
  intros f s [| k id | k id | k id n | k id | a | a i] G T; cbn [process fst].
  - apply timed_in_get; exact T.
  - apply timed_in_get. apply timed_schedule; try reflexivity; [exact T|lra|discriminate].
  - apply timed_attempt; assumption.
  - apply timed_attempt; assumption.
  - destruct (nth_error _ _); [apply timed_deliver|]; exact T.
  - apply timed_box_get; exact T.
  - apply timed_box_get; exact T.
Qed.
(** After an event is taken from the queue. *)
Definition taken (s : st) (x : entry) (r : list entry) : st := mkT (e_time x) (t_conf s) (t_heap s) (t_in s) (t_puts s) (t_loop s) r (t_box s).
Lemma pop_later : forall l x r y, pop l = Some (x, r) -> In y l -> e_time x <= e_time y.
Proof.
  intros l x r y P I. destruct (pop_split _ _ _ P) as (l1 & l2 & -> & _ & F1 & F2). rewrite Forall_forall in F1, F2. apply in_app_or in I as [I|[->|I]].
  - apply before_time. auto.
  - lra.
  - apply not_before_time. auto.
Qed.
Lemma timed_taken : forall f s x r, timed f s -> pop (t_queue s) = Some (x, r) -> timed f (taken s x r) /\ t_now s <= e_time x.
Proof.
  intros f s x r [F S] P. destruct (pop_split _ _ _ P) as (l1 & l2 & E & R & F1 & F2). assert (IX : In x (t_queue s)) by (rewrite E; apply in_or_app; right; left; reflexivity).
  rewrite Forall_forall in F. assert (NX : t_now s <= e_time x) by (apply F; assumption). split; [|assumption]. split; cbn.
  - rewrite Forall_forall. intros y Y. assert (IY : In y (t_queue s)) by (rewrite E; subst r; apply in_app_or in Y; apply in_or_app; destruct Y; [left|right; right]; assumption).
    pose proof (pop_later _ _ _ _ P IY) as L. destruct (F y IY) as (A & B & C & D). unfold on_time. split; [assumption|]. split; [intro I; specialize (B I); lra|]. split; [intro I; destruct (C I); split; lra|assumption].
  - subst r. rewrite E in S. eapply ssorted_del; eassumption.
Qed.
Lemma timed_step : forall f s o, good f -> timed f s -> timed f (fst (step f s o)) /\ t_now s <= t_now (fst (step f s o)).
Proof.
  assert (NB : forall s a, t_now (box_get s a) = t_now s) by (intros; unfold box_get; destruct (x_items _); reflexivity).
  assert (NP : forall s a i, t_now (box_put s a i) = t_now s) by (intros; unfold box_put; destruct (x_loop _); try reflexivity; rewrite NB; reflexivity).
  assert (NI : forall s, t_now (in_get s) = t_now s) by (intros; unfold in_get; destruct (t_in _) as [|[? ?] ?]; reflexivity).
  assert (NU : forall s k id, t_now (in_put s k id) = t_now s) by (intros; unfold in_put; destruct (t_loop _); try reflexivity; rewrite NI; reflexivity).
  assert (NA : forall f s k id n, t_now (fst (attempt f s k id n)) = t_now s).
  { intros. unfold attempt. destruct (nth_error _ _); [|reflexivity]. destruct (CommsModel.blocked _ _ _); [destruct (_ =? _)%Z; reflexivity|]. destruct (Qltb _ _); [reflexivity|]. cbn. rewrite NP. reflexivity. }
  intros f s o G T. destruct o as [| t | c | p a b | id | | a | a x]; cbn [step].
  - destruct (pop (t_queue s)) as [[x r]|] eqn:P; [|split; [exact T|cbn; lra]]. fold (taken s x r). destruct (timed_taken f s x r T P) as [T' L]. split; [apply timed_process; assumption|].
    assert (E : t_now (fst (process f (taken s x r) (e_ev x))) = e_time x); [|rewrite E; assumption].
    destruct (e_ev x); cbn [process fst]; rewrite ?NI, ?NB, ?NA; try reflexivity. destruct (nth_error _ _); [cbn; rewrite NP|]; reflexivity.
  - destruct (_ && _) eqn:E; [|split; [exact T|cbn; lra]]. apply andb_true_iff in E as [E1 E2]. apply Qleb_le in E1. split; [|exact E1]. destruct T as [F S]. split; [|exact S]. cbn.
    rewrite forallb_forall in E2. rewrite Forall_forall in *. intros y Y. specialize (E2 y Y). apply Qleb_le in E2. destruct (F y Y) as (A & B & C & D).
    split; [assumption|]. split; [intro I; specialize (B I); lra|]. split; [intro I; destruct (C I); split; lra|assumption].
  - split; [exact T|cbn; lra].
  - destruct (make_put _ _ _ _ _ _) as [h i]. split; [exact T|cbn; lra].
  - destruct (nth_error _ _); [|split; [exact T|cbn; lra]]. cbn [fst]. rewrite NU. split; [apply timed_in_put; exact T|cbn; lra].
  - destruct (t_loop s); cbn [fst]; (split; [|cbn; lra]); try exact T. apply timed_schedule; try reflexivity; [exact T|cbn; lra|discriminate].
  - destruct (x_loop _); cbn [fst]; (split; [|cbn; lra]); try exact T. apply timed_schedule; try reflexivity; [exact T|cbn; lra|discriminate].
  - cbn [fst]. rewrite NP. split; [apply timed_box_put; exact T|lra].
Qed.

(** ** What the operations on stores leave alone *)
Definition same_but_queue (s s' : st) (l : list entry) : Prop :=
  t_now s' = t_now s /\ t_conf s' = t_conf s /\ t_heap s' = t_heap s /\ t_in s' = t_in s /\ t_puts s' = t_puts s /\ t_loop s' = t_loop s /\ t_queue s' = t_queue s ++ l.
Lemma box_get_frame : forall s a, exists l, same_but_queue s (box_get s a) l /\ (l = [] \/ exists i, l = [mkE (t_now s) false (EHeard a i)]).
Proof.
  intros s a. unfold box_get. destruct (x_items (t_box s a)) as [|i r]; [exists []; split; [|left; reflexivity]|exists [mkE (t_now s) false (EHeard a i)]; split; [|right; exists i; reflexivity]]; repeat split.
  cbn. rewrite app_nil_r. reflexivity.
Qed.
Lemma box_put_frame : forall s a i, exists l, same_but_queue s (box_put s a i) l /\ (l = [] \/ exists i, l = [mkE (t_now s) false (EHeard a i)]).
Proof.
  intros s a i. unfold box_put. destruct (x_loop (t_box s a)); [exists []; split; [|left; reflexivity]| |exists []; split; [|left; reflexivity]].
  - repeat split. cbn. rewrite app_nil_r. reflexivity.
  - destruct (box_get_frame (with_box s a (mkX (x_items (t_box s a) ++ [i]) LWait)) a) as (l & F & L). exists l. split; assumption.
  - repeat split. cbn. rewrite app_nil_r. reflexivity.
Qed.
(** The heap keeps who sends what to whom. *)
Definition ext (h h' : list msg) : Prop := forall id m, nth_error h id = Some m -> exists m', nth_error h' id = Some m' /\ g_from m' = g_from m /\ g_to m' = g_to m /\ g_content m' = g_content m.
Lemma ext_refl : forall h, ext h h. Proof. intros h id m E. exists m. auto. Qed.
Lemma ext_app : forall h l, ext h (h ++ l).
Proof. intros h l id m E. exists m. rewrite nth_error_app1; [auto|]. apply nth_error_Some. congruence. Qed.
Lemma ext_sent : forall h id t, ext h (sent_at h id t).
Proof.
  intros h id t id' m E. unfold sent_at. destruct (nth_error h id) as [n|] eqn:N; [|exists m; auto]. destruct (nth_error_split _ _ N) as (l1 & l2 & -> & L).
  assert (A : firstn id (l1 ++ n :: l2) = l1) by (rewrite firstn_app, <- L, Nat.sub_diag, firstn_all, app_nil_r; reflexivity).
  assert (B : skipn (S id) (l1 ++ n :: l2) = l2) by (rewrite skipn_app, <- L, skipn_all2 by lia; replace (S (length l1) - length l1)%nat with 1%nat by lia; reflexivity).
  rewrite A, B. destruct (lt_eq_lt_dec id' id) as [[C|C]|C].
  - rewrite nth_error_app1 in * by lia. exists m. auto.
  - subst id'. rewrite N in E. injection E as <-. rewrite nth_error_app2 by lia. rewrite L, Nat.sub_diag. eexists. split; [reflexivity|]. cbn. auto.
  - rewrite nth_error_app2 in * by lia. destruct (id' - length l1)%nat as [|k] eqn:K; [lia|]. exists m. auto.
Qed.
Lemma sent_length : forall h id t m, nth_error (sent_at h id t) m = None <-> nth_error h m = None.
Proof.
  intros h id t m. unfold sent_at. destruct (nth_error h id) as [n|] eqn:N; [|reflexivity]. destruct (nth_error_split _ _ N) as (l1 & l2 & -> & L).
  assert (A : firstn id (l1 ++ n :: l2) = l1) by (rewrite firstn_app, <- L, Nat.sub_diag, firstn_all, app_nil_r; reflexivity).
  assert (B : skipn (S id) (l1 ++ n :: l2) = l2) by (rewrite skipn_app, <- L, skipn_all2 by lia; replace (S (length l1) - length l1)%nat with 1%nat by lia; reflexivity).
  rewrite A, B, !nth_error_None, !app_length. cbn. reflexivity.
Qed.

(** ** One run() *)
Definition loopev (e : ev) : bool := match e with EStart | EGot _ _ => true | _ => false end.
Definition nloop (q : list entry) : nat := length (filter (fun e => loopev (e_ev e)) q).
Arguments nloop : simpl never.
Lemma nloop_app : forall p q, nloop (p ++ q) = (nloop p + nloop q)%nat.
Proof. intros. unfold nloop. rewrite filter_app, app_length. reflexivity. Qed.
Definition busy (l : loop) : nat := match l with LBusy => 1 | _ => 0 end.
Definition one_loop (s : st) : Prop := nloop (t_queue s) = busy (t_loop s) /\ (t_loop s = LWait -> t_in s = []).
Lemma one_in_get : forall s, nloop (t_queue s) = 0%nat -> one_loop (in_get s).
Proof.
  intros s N. unfold in_get. destruct (t_in s) as [|[k id] r]; split; cbn; [assumption|reflexivity|rewrite nloop_app, N; reflexivity|discriminate].
Qed.
Lemma one_frame : forall s s' l, same_but_queue s s' l -> nloop l = 0%nat -> one_loop s -> one_loop s'.
Proof. intros s s' l (_ & _ & _ & I & _ & L & Q) N [A B]. split; [rewrite Q, nloop_app, N, A, L; lia|]. rewrite L, I. assumption. Qed.
Lemma heard_nloop : forall l (now : Q) a, l = [] \/ (exists i, l = [mkE now false (EHeard a i)]) -> nloop l = 0%nat.
Proof. intros l now a [->|(i & ->)]; reflexivity. Qed.
Lemma one_deliver : forall s k id m, one_loop s -> one_loop (fst (deliver s k id m)).
Proof.
  intros s k id m O. cbn [fst deliver]. match goal with |- one_loop (box_put ?s1 ?a ?i) => destruct (box_put_frame s1 a i) as (l & F & L) end. eapply one_frame; [exact F|eapply heard_nloop; exact L|exact O].
Qed.
Lemma one_attempt : forall f s k id n, one_loop s -> one_loop (fst (attempt f s k id n)).
Proof.
  intros f s k id n O. unfold attempt. destruct (nth_error _ _); [|exact O]. destruct (CommsModel.blocked _ _ _).
  - destruct (_ =? _)%Z; [exact O|]. destruct O as [A B]. split; [cbn; rewrite nloop_app, A; apply Nat.add_0_r|exact B].
  - destruct (Qltb _ _); [|apply one_deliver; exact O]. destruct O as [A B]. split; [cbn; rewrite nloop_app, A; apply Nat.add_0_r|exact B].
Qed.
Lemma one_box_get : forall s a, one_loop s -> one_loop (box_get s a).
Proof. intros s a O. destruct (box_get_frame s a) as (l & F & L). eapply one_frame; [exact F|eapply heard_nloop; exact L|exact O]. Qed.
Lemma nloop_taken : forall q x r, pop q = Some (x, r) -> nloop q = ((if loopev (e_ev x) then 1 else 0) + nloop r)%nat.
Proof.
  intros q x r P. destruct (pop_split _ _ _ P) as (l1 & l2 & -> & -> & _). rewrite !nloop_app. change (x :: l2) with ([x] ++ l2). rewrite nloop_app. unfold nloop at 2. cbn. destruct (loopev (e_ev x)); cbn; lia.
Qed.
Lemma one_step : forall f s o, one_loop s -> one_loop (fst (step f s o)).
Proof.
  intros f s o O. destruct o as [| t | c | p a b | id | | a | a x]; cbn [step].
  - destruct (pop (t_queue s)) as [[x r]|] eqn:P; [|exact O]. fold (taken s x r). pose proof (nloop_taken _ _ _ P) as N. destruct O as [A B].
    assert (LE : loopev (e_ev x) = true -> nloop r = 0%nat) by (intro E; rewrite E in N; destruct (t_loop s); cbn in A; lia).
    assert (NL : loopev (e_ev x) = false -> one_loop (taken s x r)) by (intro E; rewrite E in N; split; [cbn; lia|exact B]).
    destruct (e_ev x); cbn [process fst loopev] in *; try (apply one_in_get || apply one_attempt || apply one_box_get); auto.
    + cbn. rewrite nloop_app, (LE eq_refl). reflexivity.
    + destruct (nth_error _ _); [apply one_deliver|]; auto.
  - destruct (_ && _); exact O.
  - exact O.
  - destruct (make_put _ _ _ _ _ _) as [h i]. exact O.
  - destruct (nth_error _ _); [|exact O]. cbn [fst]. unfold in_put. cbn [t_loop]. destruct O as [A B]. destruct (t_loop s) eqn:L.
    + split; cbn; [assumption|congruence].
    + apply one_in_get. exact A.
    + split; cbn; [assumption|congruence].
  - destruct (t_loop s) eqn:L; cbn [fst]; try exact O. destruct O as [A B]. split; cbn; [rewrite nloop_app, A, L; reflexivity|discriminate].
  - destruct (x_loop _); cbn [fst]; try exact O. destruct O as [A B]. split; cbn; [rewrite nloop_app, A; apply Nat.add_0_r|exact B].
  - cbn [fst]. destruct (box_put_frame s a (IRaw x)) as (l & F & L). eapply one_frame; [exact F|eapply heard_nloop; exact L|exact O].
Qed.

(** ** Nothing is made up *)
Definition carries (e : ev) : option (nat * nat) :=
  match e with EGot k id | EInit k id | ERetry k id _ | ESend k id => Some (k, id) | _ => None end.
Definition known (tr : list out) (h : list msg) (k id : nat) : Prop := exists m t, nth_error h id = Some m /\ In (APut k id (g_from m) (g_to m) t) tr.
Definition has (tr : list out) (h : list msg) (a : nat) (i : item) : Prop :=
  match i with
  | IMsg k id => exists m t, nth_error h id = Some m /\ g_to m = a /\ In (ADeliver k id (g_from m) a t) tr
  | IRaw x => In (ARaw a x) tr
  end.
Record honest (s : st) (tr : list out) : Prop := mkHonest {
  h_queue : forall e k id, In e (t_queue s) -> carries (e_ev e) = Some (k, id) -> known tr (t_heap s) k id;
  h_in : forall k id, In (k, id) (t_in s) -> known tr (t_heap s) k id;
  h_box : forall a i, In i (x_items (t_box s a)) -> has tr (t_heap s) a i;
  h_pend : forall e a i, In e (t_queue s) -> e_ev e = EHeard a i -> has tr (t_heap s) a i;
  h_heap : forall id m, nth_error (t_heap s) id = Some m -> exists mode t, In (AMade id (g_from m) (g_to m) (g_content m) mode t) tr;
  h_put : forall k id a b t, In (APut k id a b t) tr -> exists c mode t', In (AMade id a b c mode t') tr;
  h_del : forall k id a b t, In (ADeliver k id a b t) tr -> exists t', In (APut k id a b t') tr;
  h_heard : forall a i c t, In (AHeard a i c t) tr ->
    match i with
    | IMsg k id => exists src mode t1 t2, In (AMade id src a c mode t1) tr /\ In (ADeliver k id src a t2) tr
    | IRaw x => c = mkK (DMessage x) None /\ In (ARaw a x) tr
    end }.
Lemma known_mono : forall tr l h h' k id, ext h h' -> known tr h k id -> known (tr ++ l) h' k id.
Proof. intros tr l h h' k id E (m & t & M & P). destruct (E id m M) as (m' & M' & F & T & _). exists m', t. split; [exact M'|]. rewrite F, T. apply in_or_app. left. exact P. Qed.
Lemma has_mono : forall tr l h h' a i, ext h h' -> has tr h a i -> has (tr ++ l) h' a i.
Proof.
  intros tr l h h' a [k id|x] E H; cbn in *.
  - destruct H as (m & t & M & T & D). destruct (E id m M) as (m' & M' & F & T' & _). exists m', t. split; [exact M'|]. split; [congruence|]. rewrite F. apply in_or_app. left. exact D.
  - apply in_or_app. left. exact H.
Qed.
(** The trace may be extended by outputs that are fine in themselves; the state may lose
    entries, and get entries and items that are known. *)
Lemma honest_mono : forall s s' tr l, honest s tr -> ext (t_heap s) (t_heap s') ->
  (forall e, In e (t_queue s') -> In e (t_queue s) \/ (forall k id, carries (e_ev e) = Some (k, id) -> known (tr ++ l) (t_heap s') k id) /\ (forall a i, e_ev e = EHeard a i -> has (tr ++ l) (t_heap s') a i)) ->
  (forall k id, In (k, id) (t_in s') -> In (k, id) (t_in s) \/ known (tr ++ l) (t_heap s') k id) ->
  (forall a i, In i (x_items (t_box s' a)) -> In i (x_items (t_box s a)) \/ has (tr ++ l) (t_heap s') a i) ->
  (forall id m, nth_error (t_heap s') id = Some m -> (exists m0, nth_error (t_heap s) id = Some m0) \/ exists mode t, In (AMade id (g_from m) (g_to m) (g_content m) mode t) l) ->
  (forall o, In o l -> match o with
     | APut k id a b t => exists c mode t', In (AMade id a b c mode t') tr
     | ADeliver k id a b t => exists t', In (APut k id a b t') tr
     | AHeard a (IMsg k id) c t => exists src mode t1 t2, In (AMade id src a c mode t1) tr /\ In (ADeliver k id src a t2) tr
     | AHeard a (IRaw x) c t => c = mkK (DMessage x) None /\ In (ARaw a x) tr
     | _ => True end) ->
  honest s' (tr ++ l).
Proof.
  intros s s' tr l H E HQ HI HB HH HO. constructor.
  - intros e k id I C. destruct (HQ e I) as [O|[N _]]; [eapply known_mono; [exact E|eapply h_queue; eassumption]|auto].
  - intros k id I. destruct (HI k id I) as [O|N]; [eapply known_mono; [exact E|eapply h_in; eassumption]|auto].
  - intros a i I. destruct (HB a i I) as [O|N]; [eapply has_mono; [exact E|eapply h_box; eassumption]|auto].
  - intros e a i I C. destruct (HQ e I) as [O|[_ N]]; [eapply has_mono; [exact E|eapply h_pend; eassumption]|auto].
  - intros id m M. destruct (HH id m M) as [(m0 & M0)|(mode & t & N)].
    + destruct (E id m0 M0) as (m' & M' & A & B & C). rewrite M in M'. injection M' as <-. rewrite A, B, C. destruct (h_heap _ _ H id m0 M0) as (mode & t & X). exists mode, t. apply in_or_app. left. exact X.
    + exists mode, t. apply in_or_app. right. exact N.
  - intros k id a b t I. apply in_app_or in I as [I|I].
    + destruct (h_put _ _ H k id a b t I) as (c & mode & t' & X). exists c, mode, t'. apply in_or_app. left. exact X.
    + destruct (HO _ I) as (c & mode & t' & X). exists c, mode, t'. apply in_or_app. left. exact X.
  - intros k id a b t I. apply in_app_or in I as [I|I].
    + destruct (h_del _ _ H k id a b t I) as (t' & X). exists t'. apply in_or_app. left. exact X.
    + destruct (HO _ I) as (t' & X). exists t'. apply in_or_app. left. exact X.
  - intros a i c t I. apply in_app_or in I as [I|I].
    + pose proof (h_heard _ _ H a i c t I) as X. destruct i as [k id|x].
      * destruct X as (src & mode & t1 & t2 & X1 & X2). exists src, mode, t1, t2. split; apply in_or_app; left; assumption.
      * destruct X as [X1 X2]. split; [exact X1|apply in_or_app; left; exact X2].
    + pose proof (HO _ I) as X. destruct i as [k id|x]; cbn in X.
      * destruct X as (src & mode & t1 & t2 & X1 & X2). exists src, mode, t1, t2. split; apply in_or_app; left; assumption.
      * destruct X as [X1 X2]. split; [exact X1|apply in_or_app; left; exact X2].
Qed.
Lemma box_get_items : forall s a b i, In i (x_items (t_box (box_get s a) b)) -> In i (x_items (t_box s b)).
Proof.
  intros s a b i. unfold box_get. destruct (x_items (t_box s a)) as [|j r] eqn:E; cbn; destruct (b =? a)%nat eqn:B; cbn; intro I; auto; [destruct I|].
  apply Nat.eqb_eq in B. subst b. rewrite E. right. exact I.
Qed.
Lemma box_get_pend : forall s a e, In e (t_queue (box_get s a)) -> In e (t_queue s) \/ exists j, e_ev e = EHeard a j /\ In j (x_items (t_box s a)).
Proof.
  intros s a e. unfold box_get. destruct (x_items (t_box s a)) as [|j r] eqn:E; cbn; intro I; [left; exact I|]. apply in_app_or in I as [I|[<-|[]]]; [left; exact I|]. right. exists j. split; [reflexivity|left; reflexivity].
Qed.
Lemma box_put_items : forall s a j b i, In i (x_items (t_box (box_put s a j) b)) -> In i (x_items (t_box s b)) \/ (b = a /\ i = j).
Proof.
  intros s a j b i I. unfold box_put in I. destruct (x_loop (t_box s a)).
  2: apply box_get_items in I.
  all: cbn in I; destruct (b =? a)%nat eqn:B; auto; apply Nat.eqb_eq in B; subst b; cbn in I; apply in_app_or in I as [I|[<-|[]]]; auto.
Qed.
Lemma box_put_pend : forall s a j e, In e (t_queue (box_put s a j)) -> In e (t_queue s) \/ exists i, e_ev e = EHeard a i /\ (In i (x_items (t_box s a)) \/ i = j).
Proof.
  intros s a j e I. unfold box_put in I. destruct (x_loop (t_box s a)); cbn in I; auto.
  destruct (box_get_pend _ _ _ I) as [X|(i & X & Y)]; cbn in *; auto; rewrite Nat.eqb_refl in Y; cbn in Y; apply in_app_or in Y as [Y|[<-|[]]]; right; eauto.
Qed.
Lemma honest_deliver : forall s tr k id m, honest s tr -> nth_error (t_heap s) id = Some m -> known tr (t_heap s) k id -> honest (fst (deliver s k id m)) (tr ++ snd (deliver s k id m)).
Proof.
  intros s tr k id m H M K. cbn [fst snd deliver]. set (s1 := mkT _ _ _ _ _ _ _ _). destruct (box_put_frame s1 (g_to m) (IMsg k id)) as (l & F & L). destruct F as (F1 & F2 & F3 & F4 & F5 & F6 & F7).
  assert (HN : has (tr ++ [ADeliver k id (g_from m) (g_to m) (t_now s)]) (t_heap s1) (g_to m) (IMsg k id)).
  { cbn. destruct (ext_sent (t_heap s) id (t_now s) id m M) as (m' & M' & A & B & C). exists m', (t_now s). split; [exact M'|]. split; [exact B|]. rewrite A. apply in_or_app. right. left. reflexivity. }
  apply (honest_mono s); [exact H|rewrite F3; apply ext_sent| | | | |].
  - intros e I. apply box_put_pend in I as [I|(i & E & I)]; [left; exact I|]. right. split; [intros ? ? C; rewrite E in C; discriminate|]. intros a' i' E'. rewrite E in E'. injection E' as <- <-. rewrite F3. destruct I as [I| ->]; [|exact HN].
    eapply has_mono; [apply ext_sent|]. eapply h_box; [exact H|exact I].
  - intros k' id' I. rewrite F4 in I. left. exact I.
  - intros a i I. apply box_put_items in I as [I|[-> ->]]; [left; exact I|]. right. rewrite F3. exact HN.
  - intros id' m' M'. left. rewrite F3 in M'. destruct (nth_error (t_heap s) id') eqn:E; [eexists; reflexivity|]. apply sent_length with (id := id) (t := t_now s) in E. cbn in M'. congruence.
  - intros o [<-|[]]. destruct K as (m0 & t & M0 & P). rewrite M in M0. injection M0 as <-. exists t. exact P.
Qed.
Lemma honest_same : forall s s' tr l, honest s tr -> t_heap s' = t_heap s -> t_in s' = t_in s -> (forall a, x_items (t_box s' a) = x_items (t_box s a)) ->
  (forall e, In e (t_queue s') -> In e (t_queue s) \/ (forall k id, carries (e_ev e) = Some (k, id) -> known tr (t_heap s) k id) /\ (forall a i, e_ev e <> EHeard a i)) ->
  (forall o, In o l -> match o with AStart _ | ADrop _ => True | _ => False end) -> honest s' (tr ++ l).
Proof.
  intros s s' tr l H HH HI HB HQ HO. apply (honest_mono s); [exact H|rewrite HH; apply ext_refl| | | | |].
  - intros e I. destruct (HQ e I) as [O|[N X]]; [left; exact O|]. right. split; [|intros a i E; elim (X a i E)]. intros k id C. eapply known_mono; [rewrite HH; apply ext_refl|auto].
  - rewrite HI. auto.
  - intros a i. rewrite HB. auto.
  - rewrite HH. eauto.
  - intros o I. specialize (HO o I). destruct o; try contradiction; exact Logic.I.
Qed.
Lemma honest_in_get : forall s tr, honest s tr -> honest (in_get s) tr.
Proof.
  intros s tr H. rewrite <- (app_nil_r tr). unfold in_get. destruct (t_in s) as [|[k id] r] eqn:E.
  - apply (honest_same s); auto. intros o [].
  - apply (honest_mono s); [exact H|apply ext_refl| | | | |].
    + cbn. intros e I. apply in_app_or in I as [I|[<-|[]]]; [left; exact I|]. right. split; [|discriminate]. cbn. intros k' id' X. injection X as <- <-.
      eapply known_mono; [apply ext_refl|]. eapply h_in; [exact H|]. rewrite E. left. reflexivity.
    + cbn. intros k' id' I. left. rewrite E. right. exact I.
    + auto.
    + cbn. eauto.
    + intros o [].
Qed.
Lemma honest_box_get : forall s tr l a, honest s tr -> (forall o, In o l -> match o with
     | AHeard a (IMsg k id) c t => exists src mode t1 t2, In (AMade id src a c mode t1) tr /\ In (ADeliver k id src a t2) tr
     | AHeard a (IRaw x) c t => c = mkK (DMessage x) None /\ In (ARaw a x) tr
     | _ => False end) -> honest (box_get s a) (tr ++ l).
Proof.
  intros s tr l a H HO. destruct (box_get_frame s a) as (q & (F1 & F2 & F3 & F4 & F5 & F6 & F7) & _). apply (honest_mono s); [exact H|rewrite F3; apply ext_refl| | | | |].
  - intros e I. destruct (box_get_pend s a e I) as [X|(i & X & Y)]; [left; exact X|]; right; (split; [intros ? ? C; rewrite X in C; discriminate|]); intros a' i' E; rewrite X in E; injection E as <- <-;
      (eapply has_mono; [rewrite F3; apply ext_refl|]; eapply h_box; [exact H|exact Y]).
  - rewrite F4. auto.
  - intros b i I. left. eapply box_get_items. exact I.
  - rewrite F3. eauto.
  - intros o I. specialize (HO o I). destruct o as [| | | | | |? [|] ? ?]; try contradiction; exact HO.
Qed.
Lemma honest_attempt : forall f s tr k id n, honest s tr -> known tr (t_heap s) k id -> honest (fst (attempt f s k id n)) (tr ++ snd (attempt f s k id n)).
Proof.
  intros f s tr k id n H K. unfold attempt. destruct (nth_error (t_heap s) id) as [m|] eqn:M; [|cbn; rewrite app_nil_r; exact H].
  assert (SC : forall t e, carries e = Some (k, id) -> honest (schedule s t false e) (tr ++ [])).
  { intros t e C. apply (honest_same s); auto; [|intros o []]. cbn. intros x I. apply in_app_or in I as [I|[<-|[]]]; [left; exact I|]. right. cbn. split; [intros k' id' E; rewrite C in E; injection E as <- <-; exact K|].
    intros a i ->. discriminate. }
  destruct (CommsModel.blocked _ _ _); [destruct (_ =? _)%Z|destruct (Qltb _ _)]; cbn [fst snd].
  - apply (honest_same s); auto. intros o [<-|[]]. exact I.
  - apply SC. reflexivity.
  - apply SC. reflexivity.
  - apply honest_deliver; assumption.
Qed.
Lemma honest_step : forall f s tr o, honest s tr -> honest (fst (step f s o)) (tr ++ snd (step f s o)).
Proof.
  intros f s tr o H. assert (N : honest s (tr ++ [])) by (rewrite app_nil_r; exact H). destruct o as [| t | c | p a b | id | | a | a x]; cbn [step].
  - destruct (pop (t_queue s)) as [[x r]|] eqn:P; [|exact N]. fold (taken s x r). destruct (pop_split _ _ _ P) as (l1 & l2 & E & R & _).
    assert (IX : In x (t_queue s)) by (rewrite E; apply in_or_app; right; left; reflexivity).
    assert (T : honest (taken s x r) tr).
    { rewrite <- (app_nil_r tr). apply (honest_same s); auto; [|intros o []]. cbn. intros e I. left. rewrite E. subst r. apply in_app_or in I. apply in_or_app. destruct I; [left|right; right]; assumption. }
    pose proof (h_queue _ _ H x) as HK. pose proof (h_pend _ _ H x) as HP. specialize (fun k id => HK k id IX). specialize (fun a i => HP a i IX).
    destruct (e_ev x) as [| k id | k id | k id n | k id | a | a i] eqn:EV; cbn [process fst snd].
    + apply honest_in_get. apply (honest_same (taken s x r)); auto. intros o [<-|[]]. exact I.
    + rewrite app_nil_r. apply honest_in_get. rewrite <- (app_nil_r tr). apply (honest_same (taken s x r)); auto; [|intros o []].
      cbn. intros e I. apply in_app_or in I as [I|[<-|[]]]; [left; exact I|]. right. cbn. split; [intros k' id' X; injection X as <- <-; apply HK; reflexivity|discriminate].
    + apply honest_attempt; [exact T|]. apply HK. reflexivity.
    + apply honest_attempt; [exact T|]. apply HK. reflexivity.
    + cbn [t_heap taken]. destruct (nth_error (t_heap s) id) as [m|] eqn:M; [|cbn; rewrite app_nil_r; exact T]. apply honest_deliver; [exact T|exact M|]. apply HK. reflexivity.
    + apply honest_box_get; [exact T|intros o []].
    + apply honest_box_get; [exact T|]. intros o [<-|[]]. specialize (HP a i eq_refl). destruct i as [k id|y]; cbn in HP |- *.
      * destruct HP as (m & t & M & TO & D). rewrite M. destruct (h_heap _ _ H id m M) as (mode & t1 & X). exists (g_from m), mode, t1, t. rewrite <- TO at 1. split; assumption.
      * split; [reflexivity|exact HP].
  - destruct (_ && _); [|exact N]. apply (honest_same s); auto. intros o [].
  - apply (honest_same s); auto. intros o [].
  - destruct (make_put (f_mode f) (t_now s) (t_heap s) p a b) as [h i] eqn:E. cbn [fst snd]. set (l := match nth_error (t_heap s) i with Some _ => _ | None => _ end).
    assert (X : ext (t_heap s) h) by (destruct p; cbn in E; injection E as <- <-; (apply ext_app || apply ext_refl)).
    apply (honest_mono s); auto.
    + cbn. intros id m M. destruct (nth_error (t_heap s) id) as [m0|] eqn:M0; [left; eauto|]. right.
      assert (EI : id = i). { destruct p; cbn in E; injection E as <- <-; try congruence; apply nth_error_None in M0; assert (id < length (t_heap s ++ [mkG a (mkK DEmpty None) b None None None (f_mode f) (t_now s)]))%nat by (rewrite app_length; cbn; assert (id < length (t_heap s) + 1)%nat by (eapply Nat.lt_le_trans; [apply nth_error_Some; rewrite M; discriminate|rewrite app_length; cbn; lia]); lia); rewrite app_length in *; cbn in *; lia. }
      subst i. unfold l. rewrite M0, M. eexists _, _. left. reflexivity.
    + intros o I. unfold l in I. destruct (nth_error (t_heap s) i); [destruct I|]. destruct (nth_error h i); [|destruct I]. destruct I as [<-|[]]. exact Logic.I.
  - destruct (nth_error (t_heap s) id) as [m|] eqn:M; [|exact N]. cbn [fst snd]. set (s1 := mkT _ _ _ _ _ _ _ _). set (l := [APut _ _ _ _ _]).
    assert (G : honest (with_in s1 (t_in s1 ++ [(t_puts s, id)]) (t_loop s1)) (tr ++ l)).
    { apply (honest_mono s); auto; [apply ext_refl| | |].
      - cbn. intros k' id' I. apply in_app_or in I as [I|[I|[]]]; [left; exact I|]. injection I as <- <-. right. exists m, (t_now s). split; [exact M|]. apply in_or_app. right. left. reflexivity.
      - cbn. eauto.
      - intros o [<-|[]]. destruct (h_heap _ _ H id m M) as (mode & t & X). eauto. }
    unfold in_put. destruct (t_loop s1); [exact G|apply honest_in_get; exact G|exact G].
  - destruct (t_loop s); try exact N. apply (honest_same s); auto; [|intros o []]. cbn. intros e I. apply in_app_or in I as [I|[<-|[]]]; [left; exact I|]. right. split; discriminate.
  - destruct (x_loop _); try exact N. apply (honest_same s); auto; [| |intros o []].
    + intro b. cbn. destruct (b =? a)%nat eqn:B; [|reflexivity]. apply Nat.eqb_eq in B. subst b. reflexivity.
    + cbn. intros e I. apply in_app_or in I as [I|[<-|[]]]; [left; exact I|]. right. split; discriminate.
  - cbn [fst snd]. destruct (box_put_frame s a (IRaw x)) as (q & (F1 & F2 & F3 & F4 & F5 & F6 & F7) & _).
    assert (HX : has (tr ++ [ARaw a x]) (t_heap s) a (IRaw x)) by (cbn; apply in_or_app; right; left; reflexivity).
    apply (honest_mono s); auto; [rewrite F3; apply ext_refl| | | | |].
    + intros e I. apply box_put_pend in I as [I|(i & E & I)]; [left; exact I|]. right. split; [intros ? ? C; rewrite E in C; discriminate|]. intros a' i' E'. rewrite E in E'. injection E' as <- <-. rewrite F3. destruct I as [I| ->]; [|exact HX].
      eapply has_mono; [apply ext_refl|]. eapply h_box; [exact H|exact I].
    + rewrite F4. auto.
    + intros b i I. apply box_put_items in I as [I|[-> ->]]; [left; exact I|]. right. rewrite F3. exact HX.
    + rewrite F3. eauto.
    + intros o [<-|[]]. exact I.
Qed.

(** ** The stores of the receivers *)
Definition pend (a : nat) (q : list entry) : list item := flat_map (fun e => match e_ev e with EHeard b i => if Nat.eqb b a then [i] else [] | _ => [] end) q.
Definition boxev (a : nat) (e : ev) : bool := match e with EListen b | EHeard b _ => Nat.eqb b a | _ => false end.
Definition nbox (a : nat) (q : list entry) : nat := length (filter (fun e => boxev a (e_ev e)) q).
Arguments pend : simpl never.
Arguments nbox : simpl never.
Lemma nbox_app : forall a p q, nbox a (p ++ q) = (nbox a p + nbox a q)%nat.
Proof. intros. unfold nbox. rewrite filter_app, app_length. reflexivity. Qed.
Lemma pend_app : forall a p q, pend a (p ++ q) = pend a p ++ pend a q.
Proof. intros. unfold pend. apply flat_map_app. Qed.
Lemma nbox_pend : forall a q, nbox a q = 0%nat -> pend a q = [].
Proof.
  intros a q. induction q as [|e q IH]; intro N; [reflexivity|]. change (e :: q) with ([e] ++ q) in *. rewrite nbox_app in N. rewrite pend_app, IH by lia. rewrite app_nil_r.
  unfold nbox, pend in *. cbn in *. destruct (e_ev e); try reflexivity. cbn in N. destruct (Nat.eqb a0 a); [discriminate|reflexivity].
Qed.
Definition bx (s : st) (a : nat) (l : list item) : Prop :=
  pend a (t_queue s) ++ x_items (t_box s a) = l /\ nbox a (t_queue s) = busy (x_loop (t_box s a)) /\ (x_loop (t_box s a) = LWait -> x_items (t_box s a) = []).
Lemma bx_frame : forall s s' q a l, t_box s' a = t_box s a -> t_queue s' = t_queue s ++ q -> nbox a q = 0%nat -> bx s a l -> bx s' a l.
Proof. intros s s' q a l B Q N (X & Y & Z). unfold bx. rewrite B, Q, nbox_app, pend_app, N, (nbox_pend _ _ N), Nat.add_0_r, app_nil_r. auto. Qed.
Lemma bx_get : forall s a, nbox a (t_queue s) = 0%nat -> bx (box_get s a) a (x_items (t_box s a)).
Proof.
  intros s a N. unfold box_get. destruct (x_items (t_box s a)) as [|i r] eqn:E; unfold bx; cbn; rewrite Nat.eqb_refl; cbn.
  - rewrite (nbox_pend _ _ N). auto.
  - rewrite nbox_app, pend_app, N, (nbox_pend _ _ N). unfold nbox, pend. cbn. rewrite Nat.eqb_refl. cbn. split; [reflexivity|]. split; [reflexivity|discriminate].
Qed.
Lemma box_get_other : forall s a b, b <> a -> t_box (box_get s a) b = t_box s b.
Proof. intros s a b D. apply Nat.eqb_neq in D. unfold box_get. destruct (x_items _); cbn; rewrite D; reflexivity. Qed.
Lemma heard_nbox : forall q (now : Q) a b, q = [] \/ (exists i, q = [mkE now false (EHeard a i)]) -> b <> a -> nbox b q = 0%nat.
Proof. intros q now a b [->|(i & ->)] D; [reflexivity|]. unfold nbox. cbn. rewrite (proj2 (Nat.eqb_neq a b)); [reflexivity|congruence]. Qed.
Lemma bx_get_other : forall s a b l, b <> a -> bx s b l -> bx (box_get s a) b l.
Proof.
  intros s a b l D X. destruct (box_get_frame s a) as (q & (_ & _ & _ & _ & _ & _ & F7) & L). eapply bx_frame; [apply box_get_other; exact D|exact F7|eapply heard_nbox; eassumption|exact X].
Qed.
Lemma box_put_other : forall s a i b, b <> a -> t_box (box_put s a i) b = t_box s b.
Proof.
  intros s a i b D. unfold box_put. pose proof D as D'. apply Nat.eqb_neq in D'. destruct (x_loop _); [| rewrite box_get_other by exact D|]; cbn; rewrite D'; reflexivity.
Qed.
Lemma bx_put : forall s a i b l, bx s b l -> bx (box_put s a i) b (l ++ (if Nat.eqb a b then [i] else [])).
Proof.
  intros s a i b l X. destruct (Nat.eqb a b) eqn:E.
  - apply Nat.eqb_eq in E. subst b. destruct X as (X & Y & Z). unfold box_put. destruct (x_loop (t_box s a)) eqn:L.
    + unfold bx. cbn. rewrite Nat.eqb_refl. cbn. rewrite app_assoc, X. split; [reflexivity|]. split; [exact Y|discriminate].
    + specialize (Z eq_refl). rewrite Z in *. cbn in Y. match goal with |- bx (box_get ?s1 a) a _ => assert (G := bx_get s1 a Y) end. cbn in G. rewrite Nat.eqb_refl in G. cbn in G.
      rewrite app_nil_r, (nbox_pend _ _ Y) in X. subst l. exact G.
    + unfold bx. cbn. rewrite Nat.eqb_refl. cbn. rewrite app_assoc, X. split; [reflexivity|]. split; [exact Y|discriminate].
  - apply Nat.eqb_neq in E. rewrite app_nil_r. destruct (box_put_frame s a i) as (q & (_ & _ & _ & _ & _ & _ & F7) & L). eapply bx_frame; [apply box_put_other; congruence|exact F7|eapply heard_nbox; [exact L|congruence]|exact X].
Qed.
Lemma came_app : forall a p q, came a (p ++ q) = came a p ++ came a q. Proof. intros. apply flat_map_app. Qed.
Lemma heard_app : forall a p q, heard a (p ++ q) = heard a p ++ heard a q. Proof. intros. apply flat_map_app. Qed.
Lemma bx_taken : forall s x r a l, pop (t_queue s) = Some (x, r) -> boxev a (e_ev x) = false -> bx s a l -> bx (taken s x r) a l.
Proof.
  intros s x r a l P B (X & Y & Z). destruct (pop_split _ _ _ P) as (l1 & l2 & E & -> & _). rewrite E in *. change (x :: l2) with ([x] ++ l2) in *. rewrite !nbox_app, !pend_app in *.
  assert (N : nbox a [x] = 0%nat) by (unfold nbox; cbn; rewrite B; reflexivity). rewrite (nbox_pend _ _ N), N in *. cbn in *. unfold bx. cbn. rewrite nbox_app, pend_app. auto.
Qed.
Lemma bx_taken_ev : forall s x r a l, pop (t_queue s) = Some (x, r) -> boxev a (e_ev x) = true -> bx s a l ->
  nbox a r = 0%nat /\ l = pend a [x] ++ x_items (t_box s a).
Proof.
  intros s x r a l P B (X & Y & Z). destruct (pop_split _ _ _ P) as (l1 & l2 & E & -> & _). rewrite E in *. change (x :: l2) with ([x] ++ l2) in *. rewrite !nbox_app, !pend_app in *.
  assert (N : nbox a [x] = 1%nat) by (unfold nbox; cbn; rewrite B; reflexivity). assert (N1 : nbox a l1 = 0%nat /\ nbox a l2 = 0%nat) by (destruct (x_loop _); cbn in Y; lia). destruct N1 as [N1 N2]. split; [lia|].
  rewrite (nbox_pend _ _ N1), (nbox_pend _ _ N2), app_nil_r in X. auto.
Qed.
Definition boxed (s : st) (tr : list out) : Prop := forall a, exists l, came a tr = heard a tr ++ l /\ bx s a l.
Lemma boxed_put : forall s tr a i o, boxed s tr -> (forall b, came b [o] = if Nat.eqb a b then [i] else []) -> (forall b, heard b [o] = []) -> boxed (box_put s a i) (tr ++ [o]).
Proof.
  intros s tr a i o B C H b. destruct (B b) as (l & E & X). exists (l ++ (if Nat.eqb a b then [i] else [])). split; [rewrite came_app, heard_app, C, H, E, app_nil_r, app_assoc; reflexivity|]. apply bx_put. exact X.
Qed.
Lemma boxed_frame : forall s s' tr q l, (forall a, t_box s' a = t_box s a) -> t_queue s' = t_queue s ++ q -> (forall a, nbox a q = 0%nat) -> (forall a, came a l = [] /\ heard a l = []) -> boxed s tr -> boxed s' (tr ++ l).
Proof.
  intros s s' tr q l B Q N L H a. destruct (H a) as (x & E & X). destruct (L a) as [L1 L2]. exists x. split; [rewrite came_app, heard_app, L1, L2, !app_nil_r; exact E|]. eapply bx_frame; eauto.
Qed.
Lemma boxed_deliver : forall s tr k id m, boxed s tr -> boxed (fst (deliver s k id m)) (tr ++ snd (deliver s k id m)).
Proof. intros s tr k id m B. cbn [fst snd deliver]. apply boxed_put; [exact B| |reflexivity]. intro b. cbn. rewrite app_nil_r. reflexivity. Qed.
Lemma in_get_frame : forall s, exists q, (forall a, t_box (in_get s) a = t_box s a) /\ t_queue (in_get s) = t_queue s ++ q /\ (forall a, nbox a q = 0%nat).
Proof. intro s. unfold in_get. destruct (t_in s) as [|[k id] r]; [exists []; cbn; rewrite app_nil_r; auto|exists [mkE (t_now s) false (EGot k id)]; cbn; auto]. Qed.
Lemma boxed_attempt : forall f s tr k id n, boxed s tr -> boxed (fst (attempt f s k id n)) (tr ++ snd (attempt f s k id n)).
Proof.
  intros f s tr k id n B. unfold attempt. destruct (nth_error _ _) as [m|]; [|cbn; rewrite app_nil_r; exact B]. destruct (CommsModel.blocked _ _ _); [destruct (_ =? _)%Z|destruct (Qltb _ _)]; cbn [fst snd].
  - apply (boxed_frame s s tr []); auto. rewrite app_nil_r. reflexivity.
  - eapply (boxed_frame s); try reflexivity; auto.
  - eapply (boxed_frame s); try reflexivity; auto.
  - apply boxed_deliver. exact B.
Qed.
Lemma boxed_step : forall f s tr o, boxed s tr -> boxed (fst (step f s o)) (tr ++ snd (step f s o)).
Proof.
  intros f s tr o B. assert (N : boxed s (tr ++ [])) by (rewrite app_nil_r; exact B). destruct o as [| t | c | p a b | id | | a | a x]; cbn [step].
  - destruct (pop (t_queue s)) as [[x r]|] eqn:P; [|exact N]. fold (taken s x r).
    assert (T : (forall a, boxev a (e_ev x) = false) -> boxed (taken s x r) tr). { intros H a. destruct (B a) as (l & E & X). exists l. split; [exact E|]. eapply bx_taken; eauto. }
    destruct (e_ev x) as [| k id | k id | k id n | k id | a | a i] eqn:EV; cbn [process fst snd].
    + destruct (in_get_frame (taken s x r)) as (q & F1 & F2 & F3). eapply boxed_frame; [exact F1|exact F2|exact F3|auto|]. apply T. reflexivity.
    + match goal with |- boxed (in_get ?s1) _ => destruct (in_get_frame s1) as (q & F1 & F2 & F3) end. cbn [schedule t_queue] in F2. rewrite <- app_assoc in F2. eapply (boxed_frame (taken s x r)); [exact F1|exact F2|intro a; rewrite nbox_app, F3; reflexivity|auto|]. apply T. reflexivity.
    + apply boxed_attempt. apply T. reflexivity.
    + apply boxed_attempt. apply T. reflexivity.
    + specialize (T (fun _ => eq_refl)). destruct (nth_error _ _); [apply boxed_deliver; exact T|cbn; rewrite app_nil_r; exact T].
    + rewrite app_nil_r. intro b. destruct (B b) as (l & E & X). exists l. split; [exact E|]. destruct (Nat.eq_dec b a) as [->|D].
      * destruct (bx_taken_ev _ _ _ _ _ P (eq_trans (f_equal (boxev a) EV) (Nat.eqb_refl a)) X) as [M ->]. unfold pend. cbn. rewrite EV. apply (bx_get (taken s x r)). exact M.
      * apply bx_get_other; [exact D|]. eapply bx_taken; [exact P| |exact X]. rewrite EV. apply Nat.eqb_neq. congruence.
    + intro b. destruct (B b) as (l & E & X). destruct (Nat.eq_dec b a) as [->|D].
      * destruct (bx_taken_ev _ _ _ _ _ P (eq_trans (f_equal (boxev a) EV) (Nat.eqb_refl a)) X) as [M ->]. unfold pend in E. cbn in E. rewrite EV, Nat.eqb_refl in E. cbn in E. exists (x_items (t_box s a)).
        split; [rewrite came_app, heard_app; cbn; rewrite Nat.eqb_refl, E; cbn; rewrite app_nil_r, <- app_assoc; reflexivity|]. apply (bx_get (taken s x r)). exact M.
      * exists l. split; [rewrite came_app, heard_app; cbn; rewrite (proj2 (Nat.eqb_neq a b)) by congruence; cbn; rewrite !app_nil_r; exact E|]. apply bx_get_other; [exact D|]. eapply bx_taken; [exact P| |exact X]. rewrite EV. apply Nat.eqb_neq. congruence.
  - destruct (_ && _); [|exact N]. apply (boxed_frame s _ tr []); auto. cbn. rewrite app_nil_r. reflexivity.
  - apply (boxed_frame s _ tr []); auto. cbn. rewrite app_nil_r. reflexivity.
  - destruct (make_put _ _ _ _ _ _) as [h i]. cbn [fst snd]. apply (boxed_frame s _ tr []); auto; [cbn; rewrite app_nil_r; reflexivity|].
    intro c. destruct (nth_error (t_heap s) i); [auto|]. destruct (nth_error h i); auto.
  - destruct (nth_error _ _) as [m|]; [|exact N]. cbn [fst snd]. unfold in_put. cbn [t_loop]. destruct (t_loop s).
    + apply (boxed_frame s _ tr []); auto. cbn. rewrite app_nil_r. reflexivity.
    + match goal with |- boxed (in_get ?s1) _ => destruct (in_get_frame s1) as (q & F1 & F2 & F3) end. eapply (boxed_frame s); [exact F1|exact F2|exact F3|auto|exact B].
    + apply (boxed_frame s _ tr []); auto. cbn. rewrite app_nil_r. reflexivity.
  - destruct (t_loop s); try exact N. eapply (boxed_frame s); try reflexivity; auto.
  - destruct (x_loop (t_box s a)) eqn:L; try exact N. cbn [fst snd]. rewrite app_nil_r. intro b. destruct (B b) as (l & E & X). exists l. split; [exact E|]. destruct X as (X & Y & Z). unfold bx. cbn. destruct (b =? a)%nat eqn:D.
    + apply Nat.eqb_eq in D. subst b. cbn. rewrite nbox_app, pend_app, Y, L. unfold nbox, pend. cbn. rewrite Nat.eqb_refl, app_nil_r. split; [exact X|]. split; [reflexivity|discriminate].
    + rewrite nbox_app, pend_app. apply Nat.eqb_neq in D. unfold nbox at 2, pend at 2. cbn. rewrite (proj2 (Nat.eqb_neq a b)) by congruence. cbn. rewrite app_nil_r, Nat.add_0_r. auto.
  - cbn [fst snd]. apply boxed_put; [exact B| |reflexivity]. intro b. cbn. rewrite app_nil_r. reflexivity.
Qed.

(** ** Order between a pair whose link is up *)
Definition s_send (e : ev) : option (nat * nat) := match e with ESend k id => Some (k, id) | _ => None end.
Definition s_init (e : ev) : option (nat * nat) := match e with EInit k id => Some (k, id) | _ => None end.
Definition s_got (e : ev) : option (nat * nat) := match e with EGot k id => Some (k, id) | _ => None end.
Definition s_retry (e : ev) : option (nat * nat) := match e with ERetry k id _ => Some (k, id) | _ => None end.
Section Pair.
Variables a b : nat.
Definition pairb (h : list msg) (id : nat) : bool := match nth_error h id with Some m => Nat.eqb (g_from m) a && Nat.eqb (g_to m) b | None => false end.
Definition tag (h : list msg) (p : option (nat * nat)) : list nat := match p with Some (k, id) => if pairb h id then [k] else [] | None => [] end.
Definition tags (h : list msg) (sel : ev -> option (nat * nat)) (q : list entry) : list nat := flat_map (fun e => tag h (sel (e_ev e))) q.
Definition ins (h : list msg) (l : list (nat * nat)) : list nat := flat_map (fun p => tag h (Some p)) l.
Definition flight (s : st) : list nat := tags (t_heap s) s_send (t_queue s) ++ tags (t_heap s) s_init (t_queue s) ++ tags (t_heap s) s_got (t_queue s) ++ ins (t_heap s) (t_in s).
Arguments tags : simpl never.
Arguments ins : simpl never.
Arguments tag : simpl never.
Lemma tags_app : forall h sel p q, tags h sel (p ++ q) = tags h sel p ++ tags h sel q. Proof. intros. apply flat_map_app. Qed.
Lemma tags_one : forall h sel e, tags h sel [e] = tag h (sel (e_ev e)). Proof. intros. apply app_nil_r. Qed.
Lemma tags_none : forall h sel q, (forall e, In e q -> sel (e_ev e) = None) -> tags h sel q = [].
Proof. intros h sel q. induction q as [|e q IH]; intro H; [reflexivity|]. change (e :: q) with ([e] ++ q). rewrite tags_app, tags_one, (H e (or_introl eq_refl)), IH; [reflexivity|]. intros x I. apply H. right. exact I. Qed.
Definition valid (s : st) : Prop :=
  (forall e k id, In e (t_queue s) -> carries (e_ev e) = Some (k, id) -> exists m, nth_error (t_heap s) id = Some m) /\
  (forall k id, In (k, id) (t_in s) -> exists m, nth_error (t_heap s) id = Some m).
Lemma honest_valid : forall s tr, honest s tr -> valid s.
Proof.
  intros s tr H. split.
  - intros e k id I C. destruct (h_queue _ _ H e k id I C) as (m & t & M & _). eauto.
  - intros k id I. destruct (h_in _ _ H k id I) as (m & t & M & _). eauto.
Qed.
Lemma pairb_ext : forall h h' id m, ext h h' -> nth_error h id = Some m -> pairb h' id = pairb h id.
Proof. intros h h' id m E M. destruct (E id m M) as (m' & M' & A & B & _). unfold pairb. rewrite M, M', A, B. reflexivity. Qed.
Lemma tags_ext : forall h h' sel q, ext h h' -> (forall e p, sel e = Some p -> carries e = Some p) ->
  (forall e k id, In e q -> carries (e_ev e) = Some (k, id) -> exists m, nth_error h id = Some m) -> tags h' sel q = tags h sel q.
Proof.
  intros h h' sel q E S. induction q as [|e q IH]; intro V; [reflexivity|]. change (e :: q) with ([e] ++ q). rewrite !tags_app, !tags_one, IH; [|intros x k id I; apply V; right; exact I]. f_equal.
  unfold tag. destruct (sel (e_ev e)) as [[k id]|] eqn:X; [|reflexivity]. destruct (V e k id (or_introl eq_refl) (S _ _ X)) as (m & M). rewrite (pairb_ext h h' id m E M). reflexivity.
Qed.
Lemma ins_ext : forall h h' l, ext h h' -> (forall k id, In (k, id) l -> exists m, nth_error h id = Some m) -> ins h' l = ins h l.
Proof.
  intros h h' l E. induction l as [|[k id] l IH]; intro V; [reflexivity|]. unfold ins in *. cbn. rewrite IH; [|intros k' id' I; apply (V k'); right; exact I]. f_equal.
  destruct (V k id (or_introl eq_refl)) as (m & M). unfold tag. rewrite (pairb_ext h h' id m E M). reflexivity.
Qed.
Lemma sel_send : forall e p, s_send e = Some p -> carries e = Some p. Proof. destruct e; cbn; congruence. Qed.
Lemma sel_init : forall e p, s_init e = Some p -> carries e = Some p. Proof. destruct e; cbn; congruence. Qed.
Lemma sel_got : forall e p, s_got e = Some p -> carries e = Some p. Proof. destruct e; cbn; congruence. Qed.
Lemma flight_ext : forall s s' q, valid s -> ext (t_heap s) (t_heap s') -> t_in s' = t_in s -> t_queue s' = t_queue s ++ q -> (forall e, In e q -> carries (e_ev e) = None) -> flight s' = flight s.
Proof.
  intros s s' q [V1 V2] E I Q N. unfold flight. rewrite I, Q, !tags_app.
  rewrite !(tags_none _ _ q) by (intros e X; specialize (N e X); destruct (e_ev e); cbn in *; congruence). rewrite !app_nil_r.
  rewrite !(tags_ext (t_heap s) (t_heap s')) by (auto using sel_send, sel_init, sel_got). rewrite (ins_ext (t_heap s) (t_heap s')) by auto. reflexivity.
Qed.
Lemma flight_in_get : forall s, tags (t_heap s) s_got (t_queue s) = [] -> flight (in_get s) = flight s.
Proof.
  intros s N. unfold in_get, flight. destruct (t_in s) as [|[k id] r] eqn:E; cbn [t_heap t_queue t_in with_in schedule]; [reflexivity|].
  rewrite !tags_app, !tags_one. cbn [e_ev s_send s_init s_got]. rewrite N. unfold ins. cbn. rewrite !app_nil_r. reflexivity.
Qed.
Lemma tags_taken : forall h sel l1 x l2, (sel (e_ev x) <> None -> forall y, In y l1 -> sel (e_ev y) = None) -> tags h sel (l1 ++ x :: l2) = tag h (sel (e_ev x)) ++ tags h sel (l1 ++ l2).
Proof.
  intros h sel l1 x l2 H. change (x :: l2) with ([x] ++ l2). rewrite !tags_app, tags_one. destruct (sel (e_ev x)) as [p|] eqn:E; [|reflexivity]. rewrite (tags_none h sel l1) by (apply H; discriminate). reflexivity.
Qed.
Lemma nloop_none : forall q, nloop q = 0%nat -> forall e, In e q -> loopev (e_ev e) = false.
Proof.
  intros q. induction q as [|x q IH]; intros N e I; [destruct I|]. unfold nloop in N. cbn in N. destruct (loopev (e_ev x)) eqn:L; [discriminate|]. destruct I as [<-|I]; [exact L|]. apply IH; [exact N|exact I].
Qed.
Lemma flight_taken : forall f s x r, timed f s -> one_loop s -> pop (t_queue s) = Some (x, r) ->
  tags (t_heap s) s_send (t_queue s) = tag (t_heap s) (s_send (e_ev x)) ++ tags (t_heap s) s_send r /\
  tags (t_heap s) s_init (t_queue s) = tag (t_heap s) (s_init (e_ev x)) ++ tags (t_heap s) s_init r /\
  tags (t_heap s) s_got (t_queue s) = tag (t_heap s) (s_got (e_ev x)) ++ tags (t_heap s) s_got r /\
  (loopev (e_ev x) = true -> tags (t_heap s) s_got r = []).
Proof.
  intros f s x r [F S] [O _] P. pose proof (nloop_taken _ _ _ P) as N. destruct (pop_split _ _ _ P) as (l1 & l2 & E & -> & F1 & F2). rewrite E in *. rewrite Forall_forall in F, F1.
  assert (FX := F x (in_or_app l1 (x :: l2) x (or_intror (or_introl eq_refl)))). destruct FX as (X1 & X2 & X3 & X4).
  assert (FY : forall y, In y l1 -> on_time f (t_now s) y) by (intros; apply F; apply in_or_app; left; assumption).
  assert (ZL : loopev (e_ev x) = true -> nloop (l1 ++ l2) = 0%nat) by (intro L; rewrite L in N; destruct (t_loop s); cbn in O; lia).
  split; [|split; [|split]].
  - apply tags_taken. intros D y I. destruct (s_send (e_ev y)) eqn:Y; [|reflexivity]. exfalso.
    assert (SX : sending (e_ev x) = true) by (destruct (e_ev x); cbn in *; congruence). assert (SY : sending (e_ev y) = true) by (destruct (e_ev y); cbn in *; congruence).
    pose proof (ssorted_in _ _ _ _ S I SY SX) as L. specialize (F1 y I). unfold before in F1. apply orb_true_iff in F1 as [B|B]; [apply Qltb_lt in B; lra|].
    apply andb_true_iff in B as [B _]. apply andb_true_iff in B as [_ B]. rewrite X4 in B. destruct (e_ev x); cbn in *; congruence.
  - apply tags_taken. intros D y I. destruct (s_init (e_ev y)) eqn:Y; [|reflexivity]. exfalso. destruct (FY y I) as (Y1 & Y2 & Y3 & Y4).
    assert (TX : e_time x == t_now s) by (apply X2; destruct (e_ev x); cbn in *; congruence). assert (TY : e_time y == t_now s) by (apply Y2; destruct (e_ev y); cbn in *; congruence).
    specialize (F1 y I). unfold before in F1. apply orb_true_iff in F1 as [B|B]; [apply Qltb_lt in B; lra|]. apply andb_true_iff in B as [_ B]. apply negb_true_iff in B. rewrite Y4 in B. destruct (e_ev y); cbn in *; congruence.
  - apply tags_taken. intros D y I. assert (LX : loopev (e_ev x) = true) by (destruct (e_ev x); cbn in *; congruence).
    pose proof (nloop_none _ (ZL LX) y (in_or_app l1 l2 y (or_introl I))) as L. destruct (e_ev y); cbn in *; congruence.
  - intro LX. apply tags_none. intros e I. pose proof (nloop_none _ (ZL LX) e I) as L. destruct (e_ev e); cbn in *; congruence.
Qed.
Lemma valid_taken : forall s x r, valid s -> pop (t_queue s) = Some (x, r) -> valid (taken s x r).
Proof.
  intros s x r [V1 V2] P. destruct (pop_split _ _ _ P) as (l1 & l2 & E & -> & _). split; [|exact V2]. cbn. intros e k id I. apply V1. rewrite E. apply in_app_or in I. apply in_or_app. destruct I; [left|right; right]; assumption.
Qed.
Definition ordered (s : st) (tr : list out) : Prop :=
  puts a b tr = arrivals a b tr ++ flight s /\
  (forall e k id, In e (t_queue s) -> s_retry (e_ev e) = Some (k, id) -> pairb (t_heap s) id = false).
Lemma puts_app : forall p q, puts a b (p ++ q) = puts a b p ++ puts a b q. Proof. intros. apply flat_map_app. Qed.
Lemma arrivals_app : forall p q, arrivals a b (p ++ q) = arrivals a b p ++ arrivals a b q. Proof. intros. apply flat_map_app. Qed.
Lemma heard_carries : forall l (now : Q) c, l = [] \/ (exists i, l = [mkE now false (EHeard c i)]) -> forall e, In e l -> carries (e_ev e) = None.
Proof. intros l now c [->|(i & ->)] e I; [destruct I|]. destruct I as [<-|[]]. reflexivity. Qed.
Lemma carries_retry : forall e, carries e = None -> s_retry e = None. Proof. destruct e; cbn; congruence. Qed.
Lemma noretry_ext : forall s s' q, valid s -> ext (t_heap s) (t_heap s') -> t_queue s' = t_queue s ++ q -> (forall e, In e q -> s_retry (e_ev e) = None) ->
  (forall e k id, In e (t_queue s) -> s_retry (e_ev e) = Some (k, id) -> pairb (t_heap s) id = false) ->
  (forall e k id, In e (t_queue s') -> s_retry (e_ev e) = Some (k, id) -> pairb (t_heap s') id = false).
Proof.
  intros s s' q [V1 _] E Q N R e k id I S. rewrite Q in I. apply in_app_or in I as [I|I]; [|rewrite (N e I) in S; discriminate].
  assert (C : carries (e_ev e) = Some (k, id)) by (destruct (e_ev e); cbn in *; congruence). destruct (V1 e k id I C) as (m & M). rewrite (pairb_ext _ _ id m E M). eapply R; eassumption.
Qed.
Lemma deliver_flight : forall s k id m, valid s -> nth_error (t_heap s) id = Some m ->
  flight (fst (deliver s k id m)) = flight s /\ puts a b (snd (deliver s k id m)) = [] /\ arrivals a b (snd (deliver s k id m)) = tag (t_heap s) (Some (k, id)) /\
  ((forall e k id, In e (t_queue s) -> s_retry (e_ev e) = Some (k, id) -> pairb (t_heap s) id = false) ->
   forall e k' id', In e (t_queue (fst (deliver s k id m))) -> s_retry (e_ev e) = Some (k', id') -> pairb (t_heap (fst (deliver s k id m))) id' = false).
Proof.
  intros s k id m V M. cbn [fst snd deliver]. match goal with |- context [box_put ?s1 ?c ?i] => destruct (box_put_frame s1 c i) as (q & (F1 & F2 & F3 & F4 & F5 & F6 & F7) & L) end.
  split; [|split; [reflexivity|split]].
  - eapply flight_ext; [exact V|rewrite F3; apply ext_sent|exact F4|exact F7|eapply heard_carries; exact L].
  - cbn. rewrite app_nil_r. unfold tag, pairb. rewrite M. reflexivity.
  - apply (noretry_ext s _ q V); [rewrite F3; apply ext_sent|exact F7|]. intros e I. apply carries_retry. eapply heard_carries; eassumption.
Qed.
Lemma up_blocked : forall c, up a b c -> CommsModel.blocked c a b = false.
Proof.
  assert (M : forall x l, ~ In x l -> RouteModel.memb x l = false).
  { intros x l N. unfold RouteModel.memb. destruct (existsb (Nat.eqb x) l) eqn:E; [|reflexivity]. apply existsb_exists in E as (y & I & Y). apply Nat.eqb_eq in Y. subst y. contradiction. }
  intros c (D & A & B & L). unfold CommsModel.blocked, CommsModel.link_compare. rewrite D, (M _ _ A), (M _ _ B). cbn.
  match goal with |- ?x = false => destruct x eqn:E end; [|reflexivity]. apply existsb_exists in E as ([y z] & I & Y). cbn in Y. apply andb_true_iff in Y as [Y Z]. apply Nat.eqb_eq in Y, Z. subst. contradiction.
Qed.
Lemma pairb_some : forall h id m, nth_error h id = Some m -> pairb h id = true -> g_from m = a /\ g_to m = b.
Proof. intros h id m M P. unfold pairb in P. rewrite M in P. apply andb_true_iff in P as [A B]. apply Nat.eqb_eq in A, B. auto. Qed.
Lemma schedule_flight : forall s t u e, flight (schedule s t u e) =
  (tags (t_heap s) s_send (t_queue s) ++ tag (t_heap s) (s_send e)) ++ (tags (t_heap s) s_init (t_queue s) ++ tag (t_heap s) (s_init e)) ++ (tags (t_heap s) s_got (t_queue s) ++ tag (t_heap s) (s_got e)) ++ ins (t_heap s) (t_in s).
Proof. intros. unfold flight. cbn [schedule t_heap t_queue t_in]. rewrite !tags_app, !tags_one. reflexivity. Qed.
Lemma attempt_flight : forall f s k id n, valid s -> timed f s -> up a b (t_conf s) -> (exists m, nth_error (t_heap s) id = Some m) ->
  let r := attempt f s k id n in
  puts a b (snd r) = [] /\
  tags (t_heap s) s_send (t_queue s) ++ tag (t_heap s) (Some (k, id)) ++ tags (t_heap s) s_init (t_queue s) ++ tags (t_heap s) s_got (t_queue s) ++ ins (t_heap s) (t_in s) = arrivals a b (snd r) ++ flight (fst r) /\
  ((forall e k id, In e (t_queue s) -> s_retry (e_ev e) = Some (k, id) -> pairb (t_heap s) id = false) ->
   forall e k' id', In e (t_queue (fst r)) -> s_retry (e_ev e) = Some (k', id') -> pairb (t_heap (fst r)) id' = false).
Proof.
  intros f s k id n V T U (m & M). cbn zeta. unfold attempt. rewrite M. assert (NB : pairb (t_heap s) id = true -> CommsModel.blocked (t_conf s) (g_from m) (g_to m) = false).
  { intro P. destruct (pairb_some _ _ _ M P) as [-> ->]. apply up_blocked. exact U. }
  destruct (CommsModel.blocked _ _ _).
  - assert (P : pairb (t_heap s) id = false) by (destruct (pairb (t_heap s) id); [specialize (NB eq_refl); discriminate|reflexivity]).
    assert (TG : tag (t_heap s) (Some (k, id)) = []) by (unfold tag; rewrite P; reflexivity). rewrite TG. destruct (_ =? _)%Z; cbn [fst snd]; (split; [reflexivity|]); (split; [|]).
    + reflexivity.
    + auto.
    + cbn [arrivals flat_map app]. rewrite schedule_flight. cbn [s_send s_init s_got]. unfold tag. rewrite !app_nil_r. reflexivity.
    + intros R e k' id' I S. cbn in I. apply in_app_or in I as [I|[<-|[]]]; [eapply R; eassumption|]. cbn in S. injection S as <- <-. exact P.
  - destruct (Qltb 0 (f_send f)) eqn:Z.
    + cbn [fst snd]. split; [reflexivity|]. split.
      * cbn [arrivals flat_map app]. rewrite schedule_flight. cbn [s_send s_init s_got]. unfold tag at 3 4. rewrite !app_nil_r, <- app_assoc. reflexivity.
      * intros R e k' id' I S. cbn in I. apply in_app_or in I as [I|[<-|[]]]; [eapply R; eassumption|discriminate].
    + destruct (deliver_flight s k id m V M) as (D1 & D2 & D3 & D4). split; [exact D2|]. split; [|exact D4]. rewrite D1, D3.
      assert (NS : tags (t_heap s) s_send (t_queue s) = []).
      { apply tags_none. intros e I. destruct T as [F _]. rewrite Forall_forall in F. destruct (F e I) as (_ & _ & X & _). destruct (s_send (e_ev e)) eqn:Y; [|reflexivity]. exfalso.
        destruct X as [_ X]; [destruct (e_ev e); cbn in *; congruence|]. apply Qltb_ge in Z. lra. }
      unfold flight. rewrite NS. reflexivity.
Qed.
Lemma ordered_step : forall f s tr o, timed f s -> one_loop s -> honest s tr -> up a b (t_conf s) -> ordered s tr -> ordered (fst (step f s o)) (tr ++ snd (step f s o)).
Proof.
  intros f s tr o T O H U [P R]. pose proof (honest_valid _ _ H) as V. assert (N : ordered s (tr ++ [])) by (rewrite app_nil_r; split; assumption).
  assert (SAME : forall s' q l, ext (t_heap s) (t_heap s') -> t_in s' = t_in s -> t_queue s' = t_queue s ++ q -> (forall e, In e q -> carries (e_ev e) = None) -> puts a b l = [] -> arrivals a b l = [] -> ordered s' (tr ++ l)).
  { intros s' q l E I Q C L1 L2. split; [rewrite puts_app, arrivals_app, L1, L2, !app_nil_r, (flight_ext s s' q V E I Q C); exact P|]. apply (noretry_ext s s' q V E Q); [intros e X; apply carries_retry; auto|exact R]. }
  destruct o as [| t | c | p c d | id | | c | c x]; cbn [step].
  - destruct (pop (t_queue s)) as [[x r]|] eqn:E; [|exact N]. fold (taken s x r).
    destruct (flight_taken f s x r T O E) as (G1 & G2 & G3 & G4). destruct (timed_taken f s x r T E) as [TT _]. pose proof (valid_taken _ _ _ V E) as VT.
    assert (IX : In x (t_queue s)) by (destruct (pop_split _ _ _ E) as (l1 & l2 & -> & _); apply in_or_app; right; left; reflexivity).
    assert (RT : forall e k id, In e (t_queue (taken s x r)) -> s_retry (e_ev e) = Some (k, id) -> pairb (t_heap (taken s x r)) id = false).
    { cbn. intros e k id I. apply R. destruct (pop_split _ _ _ E) as (l1 & l2 & -> & -> & _). apply in_app_or in I. apply in_or_app. destruct I; [left|right; right]; assumption. }
    assert (VX : forall k id, carries (e_ev x) = Some (k, id) -> exists m, nth_error (t_heap s) id = Some m) by (intros k id; destruct V as [V1 _]; eauto).
    unfold flight in P. rewrite G1, G2, G3 in P. clear G1 G2 G3. pose proof (R x) as RX.
    destruct (e_ev x) as [| k id | k id | k id n | k id | c | c i] eqn:EV; cbn [process fst snd s_send s_init s_got loopev carries] in *; rewrite ?app_nil_l in P.
    + specialize (G4 eq_refl). split.
      * rewrite puts_app, arrivals_app, !app_nil_r. rewrite flight_in_get by exact G4. exact P.
      * unfold in_get. destruct (t_in (taken s x r)) as [|[k id] l]; [exact RT|]. cbn. intros e k' id' I S. apply in_app_or in I as [I|[<-|[]]]; [eapply RT; eassumption|discriminate].
    + specialize (G4 eq_refl). split.
      * rewrite app_nil_r. rewrite flight_in_get; [|cbn [schedule t_heap t_queue]; rewrite tags_app, tags_one; cbn [taken t_heap t_queue]; rewrite G4; reflexivity].
        rewrite schedule_flight. cbn [s_send s_init s_got taken t_heap t_queue t_in]. rewrite G4 in *. cbn [tag] in *. rewrite P. cbn. rewrite !app_nil_r, <- app_assoc. reflexivity.
      * assert (RS : forall e k' id', In e (t_queue (schedule (taken s x r) (t_now (taken s x r)) true (EInit k id))) -> s_retry (e_ev e) = Some (k', id') -> pairb (t_heap s) id' = false).
        { cbn. intros e k' id' I S. apply in_app_or in I as [I|[<-|[]]]; [eapply RT; eassumption|discriminate]. }
        unfold in_get. destruct (t_in _) as [|[k1 id1] l]; [exact RS|]. cbn [schedule with_in t_queue t_heap] in *. intros e k' id' I S. apply in_app_or in I as [I|[<-|[]]]; [eapply RS; eassumption|discriminate].
    + destruct (attempt_flight f (taken s x r) k id 0 VT TT U (VX k id eq_refl)) as (A1 & A2 & A3). split; [|apply A3; exact RT].
      rewrite puts_app, arrivals_app, A1, app_nil_r, <- app_assoc, <- A2, P. cbn [taken t_heap t_queue t_in]. rewrite <- app_assoc. reflexivity.
    + destruct (attempt_flight f (taken s x r) k id n VT TT U (VX k id eq_refl)) as (A1 & A2 & A3). split; [|apply A3; exact RT].
      assert (PF : tag (t_heap s) (Some (k, id)) = []) by (unfold tag; rewrite (RX k id IX eq_refl); reflexivity).
      rewrite puts_app, arrivals_app, A1, app_nil_r, <- app_assoc, <- A2, P. cbn [taken t_heap t_queue t_in]. rewrite PF. reflexivity.
    + destruct (VX k id eq_refl) as (m & M). cbn [taken t_heap]. rewrite M. fold (taken s x r). destruct (deliver_flight (taken s x r) k id m VT M) as (D1 & D2 & D3 & D4). split; [|apply D4; exact RT].
      rewrite puts_app, arrivals_app, D1, D2, D3, P, app_nil_r. cbn [taken t_heap t_queue t_in flight]. unfold flight. cbn [taken t_heap t_queue t_in]. rewrite <- !app_assoc. reflexivity.
    + destruct (box_get_frame (taken s x r) c) as (q & (F1 & F2 & F3 & F4 & F5 & F6 & F7) & L). split.
      * rewrite app_nil_r. rewrite (flight_ext (taken s x r) _ q VT); [exact P|rewrite F3; apply ext_refl|exact F4|exact F7|eapply heard_carries; exact L].
      * apply (noretry_ext (taken s x r) _ q VT); [rewrite F3; apply ext_refl|exact F7|intros e I; apply carries_retry; eapply heard_carries; eassumption|exact RT].
    + destruct (box_get_frame (taken s x r) c) as (q & (F1 & F2 & F3 & F4 & F5 & F6 & F7) & L). split.
      * rewrite puts_app, arrivals_app, !app_nil_r. rewrite (flight_ext (taken s x r) _ q VT); [exact P|rewrite F3; apply ext_refl|exact F4|exact F7|eapply heard_carries; exact L].
      * apply (noretry_ext (taken s x r) _ q VT); [rewrite F3; apply ext_refl|exact F7|intros e I; apply carries_retry; eapply heard_carries; eassumption|exact RT].
  - destruct (_ && _); [|exact N]. apply (SAME _ []); auto using ext_refl; [cbn; rewrite app_nil_r; reflexivity|intros e []].
  - apply (SAME _ []); auto using ext_refl; [cbn; rewrite app_nil_r; reflexivity|intros e []].
  - destruct (make_put (f_mode f) (t_now s) (t_heap s) p c d) as [h i] eqn:E. cbn [fst snd].
    assert (X : ext (t_heap s) h) by (destruct p; cbn in E; injection E as <- <-; (apply ext_app || apply ext_refl)).
    apply (SAME _ []); auto; [cbn; rewrite app_nil_r; reflexivity|intros e []| |]; (destruct (nth_error (t_heap s) i); [reflexivity|destruct (nth_error h i); reflexivity]).
  - destruct (nth_error (t_heap s) id) as [m|] eqn:M; [|exact N]. cbn [fst snd]. set (s1 := mkT _ _ _ _ _ _ _ _). set (s2 := with_in s1 (t_in s1 ++ [(t_puts s, id)]) (t_loop s1)).
    assert (FL : puts a b (tr ++ [APut (t_puts s) id (g_from m) (g_to m) (t_now s)]) = arrivals a b (tr ++ [APut (t_puts s) id (g_from m) (g_to m) (t_now s)]) ++ flight s2).
    { rewrite puts_app, arrivals_app, P. unfold flight. cbn [s1 s2 with_in t_heap t_queue t_in]. unfold ins at 2. rewrite flat_map_app. fold (ins (t_heap s) (t_in s)). cbn. rewrite !app_nil_r. unfold tag at 1. unfold pairb. rewrite M. rewrite <- !app_assoc. reflexivity. }
    unfold in_put. fold s2. destruct (t_loop s1) eqn:L; [split; [exact FL|exact R]| |split; [exact FL|exact R]]. split.
    + rewrite flight_in_get; [exact FL|]. apply tags_none. intros e I. destruct O as [O _]. cbn in L. rewrite L in O. pose proof (nloop_none _ O e I) as LE. destruct (e_ev e); cbn in *; congruence.
    + unfold in_get. destruct (t_in s2) as [|[k id'] l]; [exact R|]. cbn. intros e k' i I S. apply in_app_or in I as [I|[<-|[]]]; [eapply R; eassumption|discriminate].
  - destruct (t_loop s); try exact N. eapply SAME; try reflexivity; [apply ext_refl|]. intros e [<-|[]]. reflexivity.
  - destruct (x_loop _); try exact N. eapply SAME; try reflexivity; [apply ext_refl|]. intros e [<-|[]]. reflexivity.
  - cbn [fst snd]. destruct (box_put_frame s c (IRaw x)) as (q & (F1 & F2 & F3 & F4 & F5 & F6 & F7) & L). apply (SAME _ q); auto; [rewrite F3; apply ext_refl|eapply heard_carries; exact L].
Qed.
End Pair.

(** ** How long it takes *)
Lemma later_same : forall x y z, x <= z -> y == z -> later x y == z /\ later y x == z.
Proof. intros x y z A B. unfold later. split; [destruct (Qltb x y) eqn:E|destruct (Qltb y x) eqn:E]; try lra; [apply Qltb_ge in E|apply Qltb_lt in E]; lra. Qed.
Definition due (tr : list out) (k : nat) (d : Q) : Prop := forall tp ts id c c', In (APut k id c c' tp) tr -> In (AStart ts) tr -> later tp ts == d.
Definition started (tr : list out) : Prop := exists ts, In (AStart ts) tr.
Definition nowish (e : ev) : option nat := match e with EGot k _ | EInit k _ => Some k | _ => None end.
Section Late.
Variables a b : nat.
Variable f : cfg.
Record late (s : st) (tr : list out) : Prop := mkLate {
  l_num : forall k id c d t, In (APut k id c d t) tr -> (k < t_puts s)%nat /\ t <= t_now s;
  l_uniq : forall k id c d t id' c' d' t', In (APut k id c d t) tr -> In (APut k id' c' d' t') tr -> id = id' /\ t = t';
  l_start : forall t, In (AStart t) tr -> t <= t_now s /\ t_loop s <> LOff;
  l_off : forall e, In e (t_queue s) -> e_ev e = EStart -> ~ started tr;
  l_one : forall t t', In (AStart t) tr -> In (AStart t') tr -> t = t';
  l_began : forall e k id, In e (t_queue s) -> carries (e_ev e) = Some (k, id) -> started tr;
  l_now : forall e k, In e (t_queue s) -> nowish (e_ev e) = Some k -> due tr k (t_now s);
  l_in : forall k id, In (k, id) (t_in s) -> due tr k (t_now s);
  l_send : forall e k id, In e (t_queue s) -> e_ev e = ESend k id -> pairb a b (t_heap s) id = true -> exists d, due tr k d /\ e_time e == d + f_send f;
  l_wait : t_loop s = LWait -> started tr;
  l_del : forall k id t, In (ADeliver k id a b t) tr -> started tr /\ exists d, due tr k d /\ t == d + f_send f }.
Definition plain (o : out) : Prop := match o with APut _ _ _ _ _ | AStart _ => False | _ => True end.
Lemma due_plain : forall tr l k d, (forall o, In o l -> plain o) -> due tr k d -> due (tr ++ l) k d.
Proof.
  intros tr l k d P D tp ts id c c' A B. apply in_app_or in A as [A|A]; [|elim (P _ A)]. apply in_app_or in B as [B|B]; [|elim (P _ B)]. eapply D; eassumption.
Qed.
Lemma started_plain : forall tr l, (forall o, In o l -> plain o) -> started (tr ++ l) <-> started tr.
Proof. intros tr l P. split; intros (t & I); [apply in_app_or in I as [I|I]; [exists t; exact I|elim (P _ I)]|exists t; apply in_or_app; left; exact I]. Qed.
Lemma late_mono : forall s s' tr l, late s tr -> (forall o, In o l -> plain o) -> valid s ->
  t_now s' = t_now s -> t_puts s' = t_puts s -> ext (t_heap s) (t_heap s') -> (t_loop s <> LOff -> t_loop s' <> LOff) -> (t_loop s' = LWait -> t_loop s = LWait \/ started tr) ->
  (forall e, In e (t_queue s') -> In e (t_queue s) \/
     (e_ev e = EStart -> ~ started tr) /\ (forall k id, carries (e_ev e) = Some (k, id) -> started tr) /\ (forall k, nowish (e_ev e) = Some k -> due tr k (t_now s)) /\
     (forall k id, e_ev e = ESend k id -> pairb a b (t_heap s') id = true -> exists d, due tr k d /\ e_time e == d + f_send f)) ->
  (forall k id, In (k, id) (t_in s') -> In (k, id) (t_in s) \/ due tr k (t_now s)) ->
  (forall k id t, In (ADeliver k id a b t) l -> started tr /\ exists d, due tr k d /\ t == d + f_send f) -> late s' (tr ++ l).
Proof.
  intros s s' tr l L P V N U E LO LW HQ HI HD. assert (NP : forall k id c d t, In (APut k id c d t) (tr ++ l) -> In (APut k id c d t) tr) by (intros k id c d t X; apply in_app_or in X as [X|X]; [exact X|elim (P _ X)]).
  assert (NS : forall t, In (AStart t) (tr ++ l) -> In (AStart t) tr) by (intros t X; apply in_app_or in X as [X|X]; [exact X|elim (P _ X)]). constructor.
  - intros k id c d t X. rewrite N, U. eapply l_num; eauto.
  - intros k id c d t id' c' d' t' X Y. eapply l_uniq; eauto.
  - intros t X. rewrite N. destruct (l_start _ _ L t (NS t X)). auto.
  - intros e I X. rewrite started_plain by exact P. destruct (HQ e I) as [O|(O & _)]; [eapply l_off; eauto|auto].
  - intros t t' X Y. eapply l_one; eauto.
  - intros e k id I X. apply started_plain; [exact P|]. destruct (HQ e I) as [O|(_ & O & _)]; [eapply l_began; eauto|eauto].
  - intros e k I X. apply due_plain; [exact P|]. rewrite N. destruct (HQ e I) as [O|(_ & _ & O & _)]; [eapply l_now; eauto|eauto].
  - intros k id I. apply due_plain; [exact P|]. rewrite N. destruct (HI k id I) as [O|O]; [eapply l_in; eauto|eauto].
  - intros e k id I X Y. assert (Z : exists d, due tr k d /\ e_time e == d + f_send f).
    { destruct (HQ e I) as [O|(_ & _ & _ & O)]; [|eauto]. destruct V as [V1 _]. assert (C : carries (e_ev e) = Some (k, id)) by (rewrite X; reflexivity). destruct (V1 e k id O C) as (m & M). rewrite (pairb_ext a b _ _ id m E M) in Y. eapply l_send; eauto. }
    destruct Z as (d & D & T). exists d. split; [apply due_plain; assumption|exact T].
  - intro W. apply started_plain; [exact P|]. destruct (LW W) as [W'|W']; [eapply l_wait; eauto|exact W'].
  - intros k id t X. apply in_app_or in X as [X|X].
    + destruct (l_del _ _ L k id t X) as [S (d & D & T)]. split; [apply started_plain; assumption|]. exists d. split; [apply due_plain; assumption|exact T].
    + destruct (HD k id t X) as [S (d & D & T)]. split; [apply started_plain; assumption|]. exists d. split; [apply due_plain; assumption|exact T].
Qed.
Lemma late_heard : forall s s' tr l q, late s tr -> (forall o, In o l -> plain o) -> valid s -> t_now s' = t_now s -> t_puts s' = t_puts s -> ext (t_heap s) (t_heap s') -> t_loop s' = t_loop s -> t_in s' = t_in s -> t_queue s' = t_queue s ++ q ->
  (forall e, In e q -> carries (e_ev e) = None /\ e_ev e <> EStart) ->
  (forall k id t, In (ADeliver k id a b t) l -> started tr /\ exists d, due tr k d /\ t == d + f_send f) -> late s' (tr ++ l).
Proof.
  intros s s' tr l q L P V N U E LO I Q C D. apply (late_mono s); auto; [rewrite LO; auto|rewrite LO; auto| |rewrite I; auto].
  intros e X. rewrite Q in X. apply in_app_or in X as [X|X]; [left; exact X|right]. destruct (C e X) as [C1 C2]. split; [congruence|]. destruct (e_ev e); cbn in *; try discriminate; repeat split; congruence.
Qed.
Lemma heard_quiet : forall l (now : Q) c, l = [] \/ (exists i, l = [mkE now false (EHeard c i)]) -> forall e, In e l -> carries (e_ev e) = None /\ e_ev e <> EStart.
Proof. intros l now c [->|(i & ->)] e I; [destruct I|]. destruct I as [<-|[]]. split; [reflexivity|discriminate]. Qed.
Lemma late_in_get : forall s tr, late s tr -> valid s -> started tr -> late (in_get s) tr.
Proof.
  intros s tr L V S. rewrite <- (app_nil_r tr). unfold in_get. destruct (t_in s) as [|[k id] r] eqn:E.
  - apply (late_mono s); cbn; auto; [intros o []|apply ext_refl|discriminate|intros ? ? []|intros k id t []].
  - apply (late_mono s); cbn; auto; [intros o []|apply ext_refl|discriminate| | |intros k' id' t []].
    + intros e X. apply in_app_or in X as [X|[<-|[]]]; [left; exact X|right]. cbn. split; [discriminate|]. split; [auto|]. split; [|discriminate]. intros k' X. injection X as <-. eapply l_in; [exact L|]. rewrite E. left. reflexivity.
    + intros k' id' X. left. rewrite E. right. exact X.
Qed.
Lemma late_deliver : forall s tr k id m, late s tr -> valid s -> nth_error (t_heap s) id = Some m -> started tr -> (pairb a b (t_heap s) id = true -> exists d, due tr k d /\ t_now s == d + f_send f) ->
  late (fst (deliver s k id m)) (tr ++ snd (deliver s k id m)).
Proof.
  intros s tr k id m L V M S D. cbn [fst snd deliver]. match goal with |- context [box_put ?s1 ?c ?i] => destruct (box_put_frame s1 c i) as (q & (F1 & F2 & F3 & F4 & F5 & F6 & F7) & H) end.
  apply (late_heard s _ tr _ q); auto; [intros o [<-|[]]; exact I|rewrite F3; apply ext_sent|eapply heard_quiet; exact H|].
  intros k' id' t [X|[]]. injection X as <- <- E1 E2 <-. split; [exact S|]. apply D. unfold pairb. rewrite M, E1, E2, !Nat.eqb_refl. reflexivity.
Qed.
Lemma late_attempt : forall s tr k id n, late s tr -> valid s -> good f -> up a b (t_conf s) -> started tr -> (pairb a b (t_heap s) id = true -> due tr k (t_now s)) -> late (fst (attempt f s k id n)) (tr ++ snd (attempt f s k id n)).
Proof.
  intros s tr k id n L V G U S D. unfold attempt. destruct (nth_error (t_heap s) id) as [m|] eqn:M; [|cbn; rewrite app_nil_r; exact L].
  assert (SC : forall t e, e_ev e <> EStart -> nowish (e_ev e) = None -> (forall k id, e_ev e = ESend k id -> pairb a b (t_heap s) id = true -> exists d, due tr k d /\ e_time e == d + f_send f) -> e = mkE t false (e_ev e) -> late (schedule s t false (e_ev e)) (tr ++ [])).
  { intros t e X1 X2 X3 X4. apply (late_mono s); cbn; auto; [intros o []|apply ext_refl| |intros k' id' t' []]. intros y Y. apply in_app_or in Y as [Y|[<-|[]]]; [left; exact Y|right]. rewrite <- X4. split; [congruence|]. split; [auto|]. split; [intros k' Z; congruence|exact X3]. }
  destruct (CommsModel.blocked (t_conf s) (g_from m) (g_to m)) eqn:B; [destruct (_ =? _)%Z|destruct (Qltb 0 (f_send f)) eqn:Z]; cbn [fst snd].
  - apply (late_heard s s tr _ []); auto; [intros o [<-|[]]; exact I|apply ext_refl|rewrite app_nil_r; reflexivity|intros e []|]. intros k' id' t [X|[]]. discriminate.
  - apply (SC _ (mkE (t_now s + f_rate f) false (ERetry k id (n + 1)))); try reflexivity; discriminate.
  - apply (SC _ (mkE (t_now s + f_send f) false (ESend k id))); try reflexivity; [discriminate|]. intros k' id' X P. injection X as <- <-. exists (t_now s). split; [apply D; exact P|reflexivity].
  - apply late_deliver; auto. intro P. exists (t_now s). split; [apply D; exact P|]. destruct G as [G _]. apply Qltb_ge in Z. lra.
Qed.
Lemma held : forall s tr, late s tr -> timed f s -> one_loop s -> started tr -> t_in s <> [] -> exists y, In y (t_queue s) /\ e_time y == t_now s.
Proof.
  intros s tr L [F _] [O W] (ts & S) N. destruct (l_start _ _ L ts S) as [_ LO]. destruct (t_loop s) eqn:E; [congruence|elim N; auto|]. cbn in O. rewrite Forall_forall in F.
  assert (X : exists y, In y (t_queue s) /\ loopev (e_ev y) = true).
  { unfold nloop in O. destruct (filter (fun e => loopev (e_ev e)) (t_queue s)) as [|y l] eqn:Y; [discriminate|]. exists y. apply (proj1 (filter_In (fun e => loopev (e_ev e)) y (t_queue s))). rewrite Y. left. reflexivity. }
  destruct X as (y & I & LY). exists y. split; [exact I|]. destruct (F y I) as (_ & T & _). apply T. destruct (e_ev y); cbn in *; congruence.
Qed.
(** Time moves only when nothing is due now. *)
Lemma late_time : forall s s' tr, late s tr -> timed f s -> one_loop s -> t_now s <= t_now s' -> (forall y, In y (t_queue s) -> t_now s' <= e_time y) ->
  t_puts s' = t_puts s -> t_heap s' = t_heap s -> t_loop s' = t_loop s -> t_in s' = t_in s -> (forall e, In e (t_queue s') -> In e (t_queue s)) -> late s' tr.
Proof.
  intros s s' tr L T O N B U H LO I Q. assert (DN : forall k, due tr k (t_now s) -> ((exists y, In y (t_queue s) /\ e_time y == t_now s) \/ ~ started tr) -> due tr k (t_now s')).
  { intros k D [(y & Y & E)|NS] tp ts id c c' A S; [|elim NS; exists ts; exact S]. rewrite (D tp ts id c c' A S). specialize (B y Y). lra. }
  constructor.
  - intros k id c d t X. destruct (l_num _ _ L k id c d t X). rewrite U. split; [assumption|lra].
  - apply L.
  - intros t X. destruct (l_start _ _ L t X). rewrite LO. split; [lra|assumption].
  - intros e X. eapply l_off; eauto.
  - apply L.
  - intros e k id X. eapply l_began; eauto.
  - intros e k X Y. apply DN; [eapply l_now; eauto|]. left. exists e. split; [auto|]. destruct T as [F _]. rewrite Forall_forall in F. destruct (F e (Q e X)) as (_ & Z & _). apply Z. destruct (e_ev e); cbn in *; congruence.
  - intros k id X. rewrite I in X. intros tp ts id' c c' A S. revert tp ts id' c c' A S. apply DN; [eapply l_in; eauto|].
    destruct (t_in s) as [|p r] eqn:E; [destruct X|].
    assert (C : started tr -> exists y, In y (t_queue s) /\ e_time y == t_now s) by (intro S; apply (held s tr); auto; rewrite E; discriminate).
    assert (DEC : started tr \/ ~ started tr).
    { clear. induction tr as [|o tr IH]; [right; intros (t & [])|]. destruct IH as [(t & I)|N]; [left; exists t; right; exact I|]. destruct o; try (right; intros (t' & [X|X]); [discriminate|elim N; exists t'; exact X]). left. exists t. left. reflexivity. }
    destruct DEC; auto.
  - intros e k id X. rewrite H. eapply l_send; eauto.
  - rewrite LO. apply L.
  - apply L.
Qed.
Lemma late_step : forall s tr o, good f -> timed f s -> one_loop s -> honest s tr -> up a b (t_conf s) -> ordered a b s tr -> late s tr -> late (fst (step f s o)) (tr ++ snd (step f s o)).
Proof.
  intros s tr o G T O H U OR L. pose proof (honest_valid _ _ H) as V. assert (N : late s (tr ++ [])) by (rewrite app_nil_r; exact L).
  destruct o as [| t | c | p c d | id | | c | c x]; cbn [step].
  - destruct (pop (t_queue s)) as [[x r]|] eqn:E; [|exact N]. fold (taken s x r). destruct (timed_taken f s x r T E) as [TT NX]. pose proof (valid_taken _ _ _ V E) as VT.
    destruct (pop_split _ _ _ E) as (l1 & l2 & EQ & ER & _). assert (IX : In x (t_queue s)) by (rewrite EQ; apply in_or_app; right; left; reflexivity).
    assert (IR : forall e, In e r -> In e (t_queue s)) by (intros e I; rewrite EQ; subst r; apply in_app_or in I; apply in_or_app; destruct I; [left|right; right]; assumption).
    assert (LT : late (taken s x r) tr) by (apply (late_time s); auto; intros y Y; eapply pop_later; eassumption).
    assert (TN : nowish (e_ev x) <> None -> e_time x == t_now s) by (intro Z; destruct T as [F _]; rewrite Forall_forall in F; destruct (F x IX) as (_ & W & _); apply W; destruct (e_ev x); cbn in *; congruence).
    pose proof (l_began _ _ L x) as BG. specialize (fun k id => BG k id IX). pose proof (l_now _ _ L x) as NW. specialize (fun k => NW k IX). pose proof (l_send _ _ L x) as SD. specialize (fun k id => SD k id IX). pose proof (l_off _ _ L x IX) as OF.
    pose proof (nloop_taken _ _ _ E) as NL. destruct OR as [_ RX]. specialize (fun k id => RX x k id IX). destruct O as [O1 O2].
    destruct (e_ev x) as [| k id | k id | k id n | k id | c | c i] eqn:EV; cbn [process fst snd carries nowish loopev s_retry] in *.
    + specialize (OF eq_refl). assert (NC : forall e k id, In e (t_queue s) -> carries (e_ev e) <> Some (k, id)) by (intros e k id I C; apply OF; eapply (l_began _ _ L); eassumption).
      apply late_in_get; [|exact VT|exists (t_now (taken s x r)); apply in_or_app; right; left; reflexivity].
      assert (NP : forall k id c d t, In (APut k id c d t) (tr ++ [AStart (t_now (taken s x r))]) -> In (APut k id c d t) tr) by (intros k id c d t X; apply in_app_or in X as [X|[X|[]]]; [exact X|discriminate]).
      assert (NS : forall t, In (AStart t) (tr ++ [AStart (t_now (taken s x r))]) -> t = t_now (taken s x r)).
      { intros t X. apply in_app_or in X as [X|[X|[]]]; [elim OF; exists t; exact X|congruence]. }
      constructor.
      * intros k id c d t X. eapply (l_num _ _ LT); eauto.
      * intros k id c d t id' c' d' t' X Y. eapply (l_uniq _ _ LT); eauto.
      * intros t X. rewrite (NS t X). split; [lra|]. cbn. intro Z. rewrite Z in O1. cbn in O1. lia.
      * intros e I X. exfalso. assert (Z : nloop r = 0%nat) by (destruct (t_loop s); cbn in O1; lia). pose proof (nloop_none _ Z e I) as LE. rewrite X in LE. discriminate.
      * intros t t' X Y. rewrite (NS t X), (NS t' Y). reflexivity.
      * intros e k id I C. elim (NC e k id (IR e I) C).
      * intros e k I C. exfalso. specialize (fun k id => NC e k id (IR e I)). destruct (e_ev e); cbn in *; try discriminate; eapply NC; reflexivity.
      * intros k id I tp ts id' c c' A S. rewrite (NS ts S). destruct (l_num _ _ LT _ _ _ _ _ (NP _ _ _ _ _ A)) as [_ Z]. apply (later_same tp _ (t_now (taken s x r))); [exact Z|reflexivity].
      * intros e k id I C. elim (NC e k id (IR e I)). rewrite C. reflexivity.
      * intros _. exists (t_now (taken s x r)). apply in_or_app. right. left. reflexivity.
      * intros k id t X. apply in_app_or in X as [X|[X|[]]]; [|discriminate]. destruct (l_del _ _ L k id t X) as [S _]. contradiction.
    + apply late_in_get.
      * apply (late_mono (taken s x r)); cbn; auto; [intros o []|apply ext_refl| |intros k' id' t []]. intros e I. apply in_app_or in I as [I|[<-|[]]]; [left; exact I|right]. cbn. split; [discriminate|]. split; [intros; eapply BG; reflexivity|]. split; [|discriminate].
        intros k' X. injection X as <-. intros tp ts id' c c' A S. rewrite (NW k eq_refl tp ts id' c c' A S). specialize (TN ltac:(discriminate)). lra.
      * destruct VT as [V1 V2]. split; [|exact V2]. cbn. intros e k' id' I C. apply in_app_or in I as [I|[<-|[]]]; [eapply V1; eassumption|]. cbn in C. injection C as <- <-. destruct V as [V0 _]. apply (V0 x k id IX). rewrite EV. reflexivity.
      * rewrite app_nil_r. eapply BG. reflexivity.
    + apply late_attempt; auto; [eapply BG; reflexivity|]. intros _ tp ts id' c c' A S. rewrite (NW k eq_refl tp ts id' c c' A S). cbn. specialize (TN ltac:(discriminate)). lra.
    + apply late_attempt; auto; [eapply BG; reflexivity|]. cbn. rewrite (RX k id eq_refl). discriminate.
    + cbn [taken t_heap]. fold (taken s x r). destruct (nth_error (t_heap s) id) as [m|] eqn:M; [|cbn; rewrite app_nil_r; exact LT]. apply late_deliver; auto; [eapply BG; reflexivity|].
      intro P. destruct (SD k id eq_refl P) as (d & D1 & D2). exists d. split; [exact D1|exact D2].
    + destruct (box_get_frame (taken s x r) c) as (q & (F1 & F2 & F3 & F4 & F5 & F6 & F7) & Z). apply (late_heard (taken s x r) _ tr _ q); auto; [intros o []|rewrite F3; apply ext_refl|eapply heard_quiet; exact Z|intros k id t []].
    + destruct (box_get_frame (taken s x r) c) as (q & (F1 & F2 & F3 & F4 & F5 & F6 & F7) & Z). apply (late_heard (taken s x r) _ tr _ q); auto; [intros o [<-|[]]; exact I|rewrite F3; apply ext_refl|eapply heard_quiet; exact Z|intros k id t [X|[]]; discriminate].
  - destruct (Qleb (t_now s) t && forallb (lets_pass t) (t_queue s)) eqn:E; [|exact N]. apply andb_true_iff in E as [E1 E2]. apply Qleb_le in E1. rewrite forallb_forall in E2. cbn [fst snd]. rewrite app_nil_r. apply (late_time s); auto.
    intros y Y. apply Qleb_le. apply E2. exact Y.
  - apply (late_heard s _ tr [] []); cbn; auto; [intros o []|apply ext_refl|rewrite app_nil_r; reflexivity|intros e []|intros k id t []].
  - destruct (make_put (f_mode f) (t_now s) (t_heap s) p c d) as [h i] eqn:E. cbn [fst snd].
    assert (X : ext (t_heap s) h) by (destruct p; cbn in E; injection E as <- <-; (apply ext_app || apply ext_refl)).
    set (l := match nth_error (t_heap s) i with Some _ => _ | None => _ end). assert (PL : forall o, In o l -> match o with AMade _ _ _ _ _ _ => True | _ => False end).
    { intros o Y. unfold l in Y. destruct (nth_error (t_heap s) i); [destruct Y|]. destruct (nth_error h i); [|destruct Y]. destruct Y as [<-|[]]. exact I. }
    apply (late_heard s _ tr l []); auto; [intros o Y; specialize (PL o Y); destruct o; try contradiction; exact I|cbn; rewrite app_nil_r; reflexivity|intros e []|]. intros k id t Y. elim (PL _ Y).
  - destruct (nth_error (t_heap s) id) as [m|] eqn:M; [|exact N]. cbn [fst snd]. set (s1 := mkT _ _ _ _ _ _ _ _). set (s2 := with_in s1 (t_in s1 ++ [(t_puts s, id)]) (t_loop s1)). set (l := [APut _ _ _ _ _]).
    assert (NP : forall k' id' c d t, In (APut k' id' c d t) (tr ++ l) -> In (APut k' id' c d t) tr \/ (k' = t_puts s /\ id' = id /\ t = t_now s)) by (intros k' id' c d t X; apply in_app_or in X as [X|[X|[]]]; [left; exact X|right; injection X as <- <- _ _ <-; auto]).
    assert (NS : forall t, In (AStart t) (tr ++ l) -> In (AStart t) tr) by (intros t X; apply in_app_or in X as [X|[X|[]]]; [exact X|discriminate]).
    assert (SS : started (tr ++ l) <-> started tr) by (split; intros (t & X); [exists t; apply NS; exact X|exists t; apply in_or_app; left; exact X]).
    assert (DU : forall k' d, (k' < t_puts s)%nat -> due tr k' d -> due (tr ++ l) k' d) by (intros k' d K D tp ts id' c c' A S; destruct (NP _ _ _ _ _ A) as [A'|(A' & _)]; [eapply D; eauto|lia]).
    assert (KN : forall k' id', known tr (t_heap s) k' id' -> (k' < t_puts s)%nat) by (intros k' id' (m' & t & _ & X); destruct (l_num _ _ L _ _ _ _ _ X); assumption).
    assert (L2 : late s2 (tr ++ l)).
    { constructor; cbn [s2 s1 with_in t_now t_puts t_loop t_queue t_in t_heap].
      - intros k' id' c d t X. destruct (NP _ _ _ _ _ X) as [X'|(-> & _ & ->)]; [destruct (l_num _ _ L _ _ _ _ _ X'); split; [lia|assumption]|split; [lia|lra]].
      - intros k' id1 c d t id2 c' d' t' X Y. destruct (NP _ _ _ _ _ X) as [X'|(E1 & -> & ->)]; destruct (NP _ _ _ _ _ Y) as [Y'|(E2 & -> & ->)].
        + exact (l_uniq _ _ L _ _ _ _ _ _ _ _ _ X' Y').
        + exfalso. destruct (l_num _ _ L _ _ _ _ _ X'). lia.
        + exfalso. destruct (l_num _ _ L _ _ _ _ _ Y'). lia.
        + auto.
      - intros t X. exact (l_start _ _ L t (NS t X)).
      - intros e I X. rewrite SS. exact (l_off _ _ L e I X).
      - intros t t' X Y. exact (l_one _ _ L t t' (NS t X) (NS t' Y)).
      - intros e k' id' I X. rewrite SS. exact (l_began _ _ L e k' id' I X).
      - intros e k' I X. apply DU; [|exact (l_now _ _ L e k' I X)]. destruct (e_ev e) eqn:EV; cbn in X; try discriminate; injection X as <-; (eapply KN; eapply (h_queue _ _ H e); [exact I|rewrite EV; reflexivity]).
      - intros k' id' I. apply in_app_or in I as [I|[I|[]]].
        + apply DU; [exact (KN k' id' (h_in _ _ H k' id' I))|exact (l_in _ _ L k' id' I)].
        + injection I as <- <-. intros tp ts id' c c' A S. destruct (NP _ _ _ _ _ A) as [A'|(_ & _ & ->)]; [destruct (l_num _ _ L _ _ _ _ _ A'); lia|]. destruct (l_start _ _ L ts (NS ts S)) as [Z _]. apply (later_same ts (t_now s) (t_now s)); [exact Z|reflexivity].
      - intros e k' id' I X P. destruct (l_send _ _ L e k' id' I X P) as (d & D1 & D2). exists d. split; [|exact D2]. apply DU; [|exact D1]. eapply KN. eapply (h_queue _ _ H e); [exact I|rewrite X; reflexivity].
      - intro W. apply SS. exact (l_wait _ _ L W).
      - intros k' id' t X. apply in_app_or in X as [X|[X|[]]]; [|discriminate]. destruct (l_del _ _ L k' id' t X) as [S (d & D1 & D2)]. split; [apply SS; exact S|]. exists d. split; [|exact D2]. apply DU; [|exact D1].
        destruct (h_del _ _ H _ _ _ _ _ X) as (t' & Y). destruct (l_num _ _ L _ _ _ _ _ Y). assumption. }
    assert (V2 : valid s2). { destruct V as [V1 V3]. split; [exact V1|]. cbn. intros k' id' I. apply in_app_or in I as [I|[I|[]]]; [eauto|]. injection I as <- <-. eauto. }
    unfold in_put. fold s2. destruct (t_loop s1) eqn:W; [exact L2| |exact L2]. apply late_in_get; [exact L2|exact V2|]. apply SS. exact (l_wait _ _ L W).
  - destruct (t_loop s) eqn:LO; try exact N. cbn [fst snd]. apply (late_mono s); cbn; auto; try (intros; discriminate); try (intros o []; fail); try (intros k id t []; fail); try apply ext_refl.
    intros e X. apply in_app_or in X as [X|[<-|[]]]; [left; exact X|right]. cbn. split; [|split; [discriminate|split; discriminate]]. intros _ (t & S). destruct (l_start _ _ L t S). congruence.
  - destruct (x_loop _); try exact N. cbn [fst snd]. apply (late_heard s _ tr [] [mkE (t_now s) true (EListen c)]); cbn; auto; [intros o []|apply ext_refl| |intros k id t []]. intros e [<-|[]]. split; [reflexivity|discriminate].
  - cbn [fst snd]. destruct (box_put_frame s c (IRaw x)) as (q & (F1 & F2 & F3 & F4 & F5 & F6 & F7) & Z). apply (late_heard s _ tr _ q); auto; [intros o [<-|[]]; exact I|rewrite F3; apply ext_refl|eapply heard_quiet; exact Z|intros k id t [X|[]]; discriminate].
Qed.
End Late.

(** ** Every put comes to one end *)
Definition fly1 (e : entry) : list nat := match carries (e_ev e) with Some (k, _) => [k] | None => [] end.
Definition fly (s : st) : list nat := flat_map fly1 (t_queue s) ++ map fst (t_in s).
Definition kept (s : st) (tr : list out) : Prop := all_puts tr = seq 0 (t_puts s) /\ Permutation (all_puts tr) (settled tr ++ fly s).
Lemma all_puts_app : forall p q, all_puts (p ++ q) = all_puts p ++ all_puts q. Proof. intros. apply flat_map_app. Qed.
Lemma settled_app : forall p q, settled (p ++ q) = settled p ++ settled q. Proof. intros. apply flat_map_app. Qed.
Lemma fly_in_get : forall s, Permutation (fly (in_get s)) (fly s).
Proof.
  intros s. unfold in_get, fly. destruct (t_in s) as [|[k id] r]; cbn; [reflexivity|]. rewrite flat_map_app. cbn. rewrite <- app_assoc. reflexivity.
Qed.
Lemma fly_frame : forall s s' q, t_in s' = t_in s -> t_queue s' = t_queue s ++ q -> (forall e, In e q -> carries (e_ev e) = None) -> fly s' = fly s.
Proof.
  intros s s' q I Q N. unfold fly. rewrite I, Q, flat_map_app. replace (flat_map fly1 q) with (@nil nat); [rewrite app_nil_r; reflexivity|].
  clear Q. induction q as [|e q IH]; [reflexivity|]. cbn. unfold fly1 at 1. rewrite (N e (or_introl eq_refl)). cbn. apply IH. intros x X. apply N. right. exact X.
Qed.
Lemma deliver_fly : forall s k id m, fly (fst (deliver s k id m)) = fly s.
Proof.
  intros s k id m. cbn [fst deliver]. match goal with |- context [box_put ?s1 ?c ?i] => destruct (box_put_frame s1 c i) as (q & (F1 & F2 & F3 & F4 & F5 & F6 & F7) & L) end.
  apply (fly_frame s _ q); [exact F4|exact F7|eapply heard_carries; exact L].
Qed.
Lemma attempt_fly : forall f s k id n m, nth_error (t_heap s) id = Some m ->
  all_puts (snd (attempt f s k id n)) = [] /\ Permutation (settled (snd (attempt f s k id n)) ++ fly (fst (attempt f s k id n))) (k :: fly s).
Proof.
  intros f s k id n m M. unfold attempt. rewrite M.
  assert (SC : forall t e, carries e = Some (k, id) -> Permutation (fly (schedule s t false e)) (k :: fly s)).
  { intros t e C. unfold fly. cbn. rewrite flat_map_app. cbn. unfold fly1 at 2. cbn. rewrite C. cbn. rewrite <- app_assoc. symmetry. apply Permutation_middle. }
  destruct (CommsModel.blocked _ _ _); [destruct (_ =? _)%Z|destruct (Qltb _ _)]; cbn [fst snd]; (split; [reflexivity|]).
  - reflexivity.
  - apply SC. reflexivity.
  - apply SC. reflexivity.
  - rewrite deliver_fly. reflexivity.
Qed.
Lemma process_puts : forall f s e, t_puts (fst (process f s e)) = t_puts s.
Proof.
  assert (D : forall s k id m, t_puts (fst (deliver s k id m)) = t_puts s).
  { intros s k id m. cbn [fst deliver]. match goal with |- context [box_put ?s1 ?c ?i] => destruct (box_put_frame s1 c i) as (q & (F1 & F2 & F3 & F4 & F5 & F6 & F7) & L) end. exact F5. }
  assert (A : forall f s k id n, t_puts (fst (attempt f s k id n)) = t_puts s).
  { intros. unfold attempt. destruct (nth_error _ _); [|reflexivity]. destruct (CommsModel.blocked _ _ _); [destruct (_ =? _)%Z; reflexivity|]. destruct (Qltb _ _); [reflexivity|apply D]. }
  assert (G : forall s, t_puts (in_get s) = t_puts s) by (intros; unfold in_get; destruct (t_in _) as [|[? ?] ?]; reflexivity).
  assert (B : forall s c, t_puts (box_get s c) = t_puts s) by (intros; unfold box_get; destruct (x_items _); reflexivity).
  intros f s [| k id | k id | k id n | k id | c | c i]; cbn [process fst]; rewrite ?G, ?A, ?B; try reflexivity. destruct (nth_error _ _); [apply D|reflexivity].
Qed.
Lemma kept_step : forall f s tr o, honest s tr -> kept s tr -> kept (fst (step f s o)) (tr ++ snd (step f s o)).
Proof.
  intros f s tr o H [S P]. pose proof (honest_valid _ _ H) as V. assert (N : kept s (tr ++ [])) by (rewrite app_nil_r; split; assumption).
  assert (SAME : forall s' l, t_puts s' = t_puts s -> Permutation (fly s) (settled l ++ fly s') -> all_puts l = [] -> kept s' (tr ++ l)).
  { intros s' l U F L. split; [rewrite all_puts_app, L, app_nil_r, U; exact S|]. rewrite all_puts_app, settled_app, L, app_nil_r, <- app_assoc, <- F. exact P. }
  destruct o as [| t | c | p c d | id | | c | c x]; cbn [step].
  - destruct (pop (t_queue s)) as [[x r]|] eqn:E; [|exact N]. fold (taken s x r). destruct (pop_split _ _ _ E) as (l1 & l2 & EQ & ER & _).
    assert (IX : In x (t_queue s)) by (rewrite EQ; apply in_or_app; right; left; reflexivity).
    assert (FT : Permutation (fly s) (fly1 x ++ fly (taken s x r))).
    { unfold fly. cbn. rewrite EQ, ER, !flat_map_app. cbn. rewrite !app_assoc. apply Permutation_app_tail. apply Permutation_app_tail. apply Permutation_app_comm. }
    assert (VX : forall k id, carries (e_ev x) = Some (k, id) -> exists m, nth_error (t_heap s) id = Some m) by (intros k id; destruct V as [V1 _]; eauto).
    apply SAME; [apply (process_puts f (taken s x r))| |]; unfold fly1 in FT; destruct (e_ev x) as [| k id | k id | k id n | k id | c | c i] eqn:EV; cbn [process fst snd carries] in *.
    + cbn. rewrite fly_in_get. exact FT.
    + cbn. rewrite fly_in_get. rewrite FT. unfold fly. cbn. rewrite flat_map_app. cbn. rewrite <- app_assoc. apply Permutation_middle.
    + destruct (VX k id eq_refl) as (m & M). destruct (attempt_fly f (taken s x r) k id 0 m M) as [_ A]. rewrite A. exact FT.
    + destruct (VX k id eq_refl) as (m & M). destruct (attempt_fly f (taken s x r) k id n m M) as [_ A]. rewrite A. exact FT.
    + destruct (VX k id eq_refl) as (m & M). cbn [taken t_heap]. rewrite M. fold (taken s x r). rewrite deliver_fly. exact FT.
    + destruct (box_get_frame (taken s x r) c) as (q & (F1 & F2 & F3 & F4 & F5 & F6 & F7) & L). cbn. rewrite (fly_frame (taken s x r) _ q F4 F7); [exact FT|eapply heard_carries; exact L].
    + destruct (box_get_frame (taken s x r) c) as (q & (F1 & F2 & F3 & F4 & F5 & F6 & F7) & L). cbn. rewrite (fly_frame (taken s x r) _ q F4 F7); [exact FT|eapply heard_carries; exact L].
    + reflexivity.
    + reflexivity.
    + destruct (VX k id eq_refl) as (m & M). apply (attempt_fly f (taken s x r) k id 0 m M).
    + destruct (VX k id eq_refl) as (m & M). apply (attempt_fly f (taken s x r) k id n m M).
    + cbn [taken t_heap]. destruct (nth_error (t_heap s) id); reflexivity.
    + reflexivity.
    + reflexivity.
  - destruct (_ && _); [|exact N]. apply SAME; reflexivity.
  - apply SAME; reflexivity.
  - destruct (make_put (f_mode f) (t_now s) (t_heap s) p c d) as [h i] eqn:E. cbn [fst snd]. apply SAME; [reflexivity| |]; (destruct (nth_error (t_heap s) i); [reflexivity|destruct (nth_error h i); reflexivity]).
  - destruct (nth_error (t_heap s) id) as [m|] eqn:M; [|exact N]. cbn [fst snd]. set (s1 := mkT _ _ _ _ _ _ _ _). set (s2 := with_in s1 (t_in s1 ++ [(t_puts s, id)]) (t_loop s1)).
    assert (K : forall s', t_puts s' = Datatypes.S (t_puts s) -> Permutation (fly s') (fly s2) -> kept s' (tr ++ [APut (t_puts s) id (g_from m) (g_to m) (t_now s)])).
    { intros s' U F. split; [rewrite all_puts_app, U, S, seq_S; reflexivity|]. rewrite all_puts_app, settled_app, F, P. cbn. rewrite app_nil_r. unfold fly. cbn. rewrite map_app. cbn. rewrite <- !app_assoc. reflexivity. }
    unfold in_put. fold s2. destruct (t_loop s1); [apply K; reflexivity| |apply K; reflexivity]. apply K; [unfold in_get; destruct (t_in s2) as [|[? ?] ?]; reflexivity|apply fly_in_get].
  - destruct (t_loop s); try exact N. apply SAME; [reflexivity| |reflexivity]. cbn [fst snd settled flat_map app]. match goal with |- Permutation _ (fly ?s') => rewrite (fly_frame s s' [mkE (t_now s) true EStart]); [reflexivity|reflexivity|reflexivity|] end. intros e [<-|[]]. reflexivity.
  - destruct (x_loop _); try exact N. apply SAME; [reflexivity| |reflexivity]. cbn [fst snd settled flat_map app]. match goal with |- Permutation _ (fly ?s') => rewrite (fly_frame s s' [mkE (t_now s) true (EListen c)]); [reflexivity|reflexivity|reflexivity|] end. intros e [<-|[]]. reflexivity.
  - cbn [fst snd]. destruct (box_put_frame s c (IRaw x)) as (q & (F1 & F2 & F3 & F4 & F5 & F6 & F7) & L). apply SAME; [exact F5| |reflexivity]. cbn [settled flat_map app]. rewrite (fly_frame s (box_put s c (IRaw x)) q F4 F7); [reflexivity|eapply heard_carries; exact L].
Qed.

(** ** Runs *)
Lemma step_conf : forall f s o, t_conf (fst (step f s o)) = match o with UConf c => c | _ => t_conf s end.
Proof.
  assert (BG : forall s c, t_conf (box_get s c) = t_conf s) by (intros; unfold box_get; destruct (x_items _); reflexivity).
  assert (BP : forall s c i, t_conf (box_put s c i) = t_conf s) by (intros; unfold box_put; destruct (x_loop _); try reflexivity; rewrite BG; reflexivity).
  assert (G : forall s, t_conf (in_get s) = t_conf s) by (intros; unfold in_get; destruct (t_in _) as [|[? ?] ?]; reflexivity).
  assert (A : forall f s k id n, t_conf (fst (attempt f s k id n)) = t_conf s).
  { intros. unfold attempt. destruct (nth_error _ _); [|reflexivity]. destruct (CommsModel.blocked _ _ _); [destruct (_ =? _)%Z; reflexivity|]. destruct (Qltb _ _); [reflexivity|]. cbn. rewrite BP. reflexivity. }
  intros f s [| t | c | p c d | id | | c | c x]; cbn [step].
  - destruct (pop (t_queue s)) as [[x r]|]; [|reflexivity]. destruct (e_ev x); cbn [process fst]; rewrite ?G, ?A, ?BG; try reflexivity. destruct (nth_error _ _); [cbn; rewrite BP|]; reflexivity.
  - destruct (_ && _); reflexivity.
  - reflexivity.
  - destruct (make_put _ _ _ _ _ _); reflexivity.
  - destruct (nth_error _ _); [|reflexivity]. cbn [fst]. unfold in_put. cbn. destruct (t_loop s); try reflexivity. rewrite G. reflexivity.
  - destruct (t_loop s); reflexivity.
  - destruct (x_loop _); reflexivity.
  - cbn [fst]. apply BP.
Qed.
Definition base (s : st) (tr : list out) : Prop := one_loop s /\ honest s tr /\ boxed s tr /\ kept s tr.
Lemma base_init : forall c t0, base (init c t0) [].
Proof.
  intros c t0. split; [split; [reflexivity|discriminate]|]. split; [|split].
  - constructor; cbn; try (intros; contradiction). intros id m M. destruct id; discriminate.
  - intro a. exists []. split; [reflexivity|]. split; [reflexivity|]. split; [reflexivity|discriminate].
  - split; reflexivity.
Qed.
Lemma base_run : forall f os s tr, base s tr -> base (fst (run f s os)) (tr ++ snd (run f s os)).
Proof.
  intros f os. induction os as [|o os IH]; intros s tr B; cbn [run]; [cbn; rewrite app_nil_r; exact B|].
  assert (B1 : base (fst (step f s o)) (tr ++ snd (step f s o))).
  { destruct B as (B1 & B2 & B3 & B4). split; [apply one_step; exact B1|]. split; [apply honest_step; exact B2|]. split; [apply boxed_step; exact B3|apply kept_step; assumption]. }
  destruct (step f s o) as [s1 l1]. cbn [fst snd] in B1. specialize (IH s1 _ B1). destruct (run f s1 os) as [s2 l2]. cbn [fst snd] in *. rewrite app_assoc. exact IH.
Qed.
Definition wired (a b : nat) (f : cfg) (s : st) (tr : list out) : Prop := base s tr /\ timed f s /\ up a b (t_conf s) /\ ordered a b s tr /\ late a b f s tr.
Lemma wired_init : forall a b f c t0, up a b c -> wired a b f (init c t0) [].
Proof.
  intros a b f c t0 U. split; [apply base_init|]. split; [split; [constructor|exact I]|]. split; [exact U|]. split.
  - split; [reflexivity|]. intros e k id [].
  - constructor; cbn; try (intros; contradiction). discriminate.
Qed.
Lemma wired_run : forall a b f os s tr, good f -> (forall c, In (UConf c) os -> up a b c) -> wired a b f s tr -> wired a b f (fst (run f s os)) (tr ++ snd (run f s os)).
Proof.
  intros a b f os. induction os as [|o os IH]; intros s tr G C W; cbn [run]; [cbn; rewrite app_nil_r; exact W|].
  assert (W1 : wired a b f (fst (step f s o)) (tr ++ snd (step f s o))).
  { destruct W as ((B1 & B2 & B3 & B4) & W2 & W3 & W4 & W5). split; [split; [apply one_step; exact B1|]; split; [apply honest_step; exact B2|]; split; [apply boxed_step; exact B3|apply kept_step; assumption]|].
    split; [apply timed_step; assumption|]. split; [rewrite step_conf; destruct o; auto; apply C; left; reflexivity|]. split; [apply ordered_step; assumption|apply late_step; assumption]. }
  destruct (step f s o) as [s1 l1]. cbn [fst snd] in W1. specialize (IH s1 _ G (fun c I => C c (or_intror I)) W1). destruct (run f s1 os) as [s2 l2]. cbn [fst snd] in *. rewrite app_assoc. exact IH.
Qed.
Lemma in_tags : forall a b h sel q k, In k (tags a b h sel q) -> exists e id, In e q /\ sel (e_ev e) = Some (k, id) /\ pairb a b h id = true.
Proof.
  intros a b h sel q k I. unfold tags in I. apply in_flat_map in I as (e & E & I). unfold tag in I. destruct (sel (e_ev e)) as [[k' id]|] eqn:S; [|destruct I]. destruct (pairb a b h id) eqn:P; [|destruct I]. destruct I as [<-|[]]. eauto.
Qed.
Lemma in_ins : forall a b h l k, In k (ins a b h l) -> exists id, In (k, id) l.
Proof. intros a b h l k I. unfold ins in I. apply in_flat_map in I as ([k' id] & E & I). unfold tag in I. destruct (pairb a b h id); [|destruct I]. destruct I as [<-|[]]. eauto. Qed.

(** ** time_sent *)
Definition arr1 (id : nat) (acc : option Q) (o : out) : option Q := match o with ADeliver _ id' _ _ t => if Nat.eqb id' id then Some t else acc | _ => acc end.
Definition stamped (s : st) (tr : list out) : Prop :=
  (forall id m, nth_error (t_heap s) id = Some m -> g_sent m = last_arrival id tr /\ g_received m = None) /\
  (forall id, nth_error (t_heap s) id = None -> last_arrival id tr = None).
Lemma last_app : forall id tr l, last_arrival id (tr ++ l) = fold_left (arr1 id) l (last_arrival id tr).
Proof. intros. unfold last_arrival. rewrite fold_left_app. reflexivity. Qed.
Lemma stamped_same : forall s s' tr l, t_heap s' = t_heap s -> (forall o, In o l -> match o with ADeliver _ _ _ _ _ => False | _ => True end) -> stamped s tr -> stamped s' (tr ++ l).
Proof.
  intros s s' tr l H N [A B]. assert (E : forall id, last_arrival id (tr ++ l) = last_arrival id tr).
  { intro id. rewrite last_app. generalize (last_arrival id tr). revert N. clear. induction l as [|o l IH]; intros N acc; [reflexivity|]. cbn. rewrite IH by (intros x X; apply N; right; exact X).
    specialize (N o (or_introl eq_refl)). destruct o; try contradiction; reflexivity. }
  unfold stamped. rewrite H. split; [intros id m M|intros id M]; rewrite E; auto.
Qed.
Lemma sent_nth : forall h id t m id', nth_error h id = Some m -> nth_error (sent_at h id t) id' = if Nat.eqb id id' then Some (mkG (g_from m) (g_content m) (g_to m) (g_header m) (Some t) (g_received m) (g_mode m) (g_created m)) else nth_error h id'.
Proof.
  intros h id t m id' N. unfold sent_at. rewrite N. destruct (nth_error_split _ _ N) as (l1 & l2 & -> & L).
  assert (A : firstn id (l1 ++ m :: l2) = l1) by (rewrite firstn_app, <- L, Nat.sub_diag, firstn_all, app_nil_r; reflexivity).
  assert (B : skipn (S id) (l1 ++ m :: l2) = l2) by (rewrite skipn_app, <- L, skipn_all2 by lia; replace (S (length l1) - length l1)%nat with 1%nat by lia; reflexivity).
  rewrite A, B. destruct (Nat.eqb id id') eqn:E.
  - apply Nat.eqb_eq in E. subst id'. rewrite nth_error_app2 by lia. rewrite L, Nat.sub_diag. reflexivity.
  - apply Nat.eqb_neq in E. destruct (lt_dec id' id) as [C|C]; [rewrite !nth_error_app1 by lia; reflexivity|]. rewrite !nth_error_app2 by lia. destruct (id' - length l1)%nat eqn:K; [lia|reflexivity].
Qed.
Lemma stamped_deliver : forall s tr k id m, nth_error (t_heap s) id = Some m -> stamped s tr -> stamped (fst (deliver s k id m)) (tr ++ snd (deliver s k id m)).
Proof.
  intros s tr k id m M [A B]. cbn [fst snd deliver]. match goal with |- context [box_put ?s1 ?c ?i] => destruct (box_put_frame s1 c i) as (q & (F1 & F2 & F3 & F4 & F5 & F6 & F7) & L) end.
  assert (E : forall id', last_arrival id' (tr ++ [ADeliver k id (g_from m) (g_to m) (t_now s)]) = if Nat.eqb id id' then Some (t_now s) else last_arrival id' tr) by (intro id'; rewrite last_app; reflexivity).
  unfold stamped. rewrite F3. cbn [t_heap]. split.
  - intros id' m'. rewrite (sent_nth _ _ _ _ _ M), E. destruct (Nat.eqb id id'); [|apply A]. intro X. injection X as <-. cbn. split; [reflexivity|]. apply (A id m M).
  - intros id'. rewrite (sent_nth _ _ _ _ _ M), E. destruct (Nat.eqb id id'); [discriminate|apply B].
Qed.
Lemma stamped_attempt : forall f s tr k id n, stamped s tr -> stamped (fst (attempt f s k id n)) (tr ++ snd (attempt f s k id n)).
Proof.
  intros f s tr k id n S. unfold attempt. destruct (nth_error (t_heap s) id) as [m|] eqn:M; [|apply (stamped_same s); auto; intros o []].
  destruct (CommsModel.blocked _ _ _); [destruct (_ =? _)%Z|destruct (Qltb _ _)]; cbn [fst snd]; try (apply (stamped_same s); auto; [intros o [<-|[]]; exact I || intros o []]); [apply (stamped_same s); auto; intros o []|apply (stamped_same s); auto; intros o []|apply stamped_deliver; assumption].
Qed.
Lemma stamped_step : forall f s tr o, stamped s tr -> stamped (fst (step f s o)) (tr ++ snd (step f s o)).
Proof.
  assert (G : forall s, t_heap (in_get s) = t_heap s) by (intros; unfold in_get; destruct (t_in _) as [|[? ?] ?]; reflexivity).
  assert (BG : forall s c, t_heap (box_get s c) = t_heap s) by (intros; unfold box_get; destruct (x_items _); reflexivity).
  intros f s tr o S. assert (N : stamped s (tr ++ [])) by (rewrite app_nil_r; exact S). destruct o as [| t | c | p c d | id | | c | c x]; cbn [step].
  - destruct (pop (t_queue s)) as [[x r]|]; [|exact N]. fold (taken s x r). assert (T : stamped (taken s x r) tr) by exact S.
    destruct (e_ev x) as [| k id | k id | k id n | k id | c | c i]; cbn [process fst snd].
    + apply (stamped_same s); [rewrite G; reflexivity|intros o [<-|[]]; exact I|exact S].
    + apply (stamped_same s); [rewrite G; reflexivity|intros o []|exact S].
    + apply stamped_attempt. exact T.
    + apply stamped_attempt. exact T.
    + destruct (nth_error _ _) eqn:M; [apply stamped_deliver; assumption|]. apply (stamped_same s); [reflexivity|intros o []|exact S].
    + apply (stamped_same s); [rewrite BG; reflexivity|intros o []|exact S].
    + apply (stamped_same s); [rewrite BG; reflexivity|intros o [<-|[]]; exact I|exact S].
  - destruct (_ && _); exact N.
  - exact N.
  - destruct (make_put (f_mode f) (t_now s) (t_heap s) p c d) as [h i] eqn:E. cbn [fst snd]. set (l := match nth_error (t_heap s) i with Some _ => _ | None => _ end).
    assert (PL : forall o, In o l -> match o with ADeliver _ _ _ _ _ => False | _ => True end).
    { intros o Y. unfold l in Y. destruct (nth_error (t_heap s) i); [destruct Y|]. destruct (nth_error h i); [|destruct Y]. destruct Y as [<-|[]]. exact I. }
    clearbody l. assert (X : stamped s (tr ++ l)) by (apply (stamped_same s); auto). destruct X as [A B].
    assert (NEW : forall m, g_sent m = None -> g_received m = None -> stamped (mkT (t_now s) (t_conf s) (t_heap s ++ [m]) (t_in s) (t_puts s) (t_loop s) (t_queue s) (t_box s)) (tr ++ l)).
    { intros m M1 M2. split; cbn.
      - intros id m' M. destruct (lt_dec id (length (t_heap s))) as [C|C]; [rewrite nth_error_app1 in M by exact C; auto|]. rewrite nth_error_app2 in M by lia.
        destruct (id - length (t_heap s))%nat eqn:K; [|destruct n; discriminate]. injection M as <-. rewrite B by (apply nth_error_None; lia). auto.
      - intros id M. apply B. apply nth_error_None. apply nth_error_None in M. rewrite app_length in M. cbn in M. lia. }
    destruct p; cbn in E; injection E as <- <-; try (apply NEW; reflexivity). split; assumption.
  - destruct (nth_error _ _) as [m|]; [|exact N]. cbn [fst snd]. apply (stamped_same s); [|intros o [<-|[]]; exact I|exact S]. unfold in_put. cbn [t_loop]. destruct (t_loop s); try reflexivity. rewrite G. reflexivity.
  - destruct (t_loop s); exact N.
  - destruct (x_loop _); exact N.
  - cbn [fst snd]. destruct (box_put_frame s c (IRaw x)) as (q & (F1 & F2 & F3 & F4 & F5 & F6 & F7) & L). apply (stamped_same s); [exact F3|intros o [<-|[]]; exact I|exact S].
Qed.
Lemma stamped_run : forall f os s tr, stamped s tr -> stamped (fst (run f s os)) (tr ++ snd (run f s os)).
Proof.
  intros f os. induction os as [|o os IH]; intros s tr S; cbn [run]; [cbn; rewrite app_nil_r; exact S|].
  pose proof (stamped_step f s tr o S) as S1. destruct (step f s o) as [s1 l1]. cbn [fst snd] in S1. specialize (IH s1 _ S1). destruct (run f s1 os) as [s2 l2]. cbn [fst snd] in *. rewrite app_assoc. exact IH.
Qed.

(** ** Equality of messages *)
Lemma oeqb_nat (a b : option nat) : oeqb Nat.eqb a b = true <-> a = b.
Proof. destruct a as [x|], b as [y|]; cbn; try (split; congruence); try tauto. rewrite Nat.eqb_eq. split; congruence. Qed.
Lemma oeqb_time (a b : option Q) : oeqb Qeqb a b = true <-> same_time a b.
Proof. destruct a as [x|], b as [y|]; cbn; try (split; [congruence|tauto]); try tauto. apply Qeqb_eq. Qed.
Lemma content_eqb_eq (a b : content) : content_eqb a b = true <-> a = b.
Proof.
  destruct a as [d x], b as [d' x']. unfold content_eqb. cbn [k_data k_text]. rewrite andb_true_iff, oeqb_nat.
  assert (D : data_eqb d d' = true <-> d = d') by (destruct d, d'; cbn; rewrite ?Nat.eqb_eq; split; congruence). rewrite D. split; [intros [-> ->]; reflexivity|intro E; injection E; auto].
Qed.
Lemma msg_eqb_spec (m m' : msg) : msg_eqb m m' = true <->
  g_from m = g_from m' /\ g_to m = g_to m' /\ g_content m = g_content m' /\ g_header m = g_header m' /\ g_mode m = g_mode m' /\
  same_time (g_sent m) (g_sent m') /\ same_time (g_received m) (g_received m').
Proof. unfold msg_eqb. rewrite !andb_true_iff, !Nat.eqb_eq, !oeqb_nat, !oeqb_time, content_eqb_eq. tauto. Qed.
