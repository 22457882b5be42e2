(** Proofs about task networks. *)
From Verif Require Import Common NetModel NetSpec.
From Coq Require Import DecimalString DecimalNat.

(** ** Dictionaries *)
Lemma sget_sset {V} n m (v : V) : forall d, sget m (sset n v d) = if String.eqb n m then Some v else sget m d.
Proof.
  induction d as [|[k w] d IH]; cbn.
  - destruct (String.eqb n m); reflexivity.
  - destruct (String.eqb k n) eqn:E; cbn.
    + apply String.eqb_eq in E. subst k. destruct (String.eqb n m); reflexivity.
    + rewrite IH. destruct (String.eqb k m) eqn:E2; [|reflexivity].
      apply String.eqb_eq in E2. subst m. rewrite (String.eqb_sym n k), E. reflexivity.
Qed.
Lemma sget_same {V} n (v : V) d : sget n (sset n v d) = Some v.
Proof. rewrite sget_sset, String.eqb_refl. reflexivity. Qed.
Lemma sget_other {V} n m (v : V) d : n <> m -> sget m (sset n v d) = sget m d.
Proof. intro H. rewrite sget_sset. apply String.eqb_neq in H. rewrite H. reflexivity. Qed.
Lemma sset_sset {V} n (v w : V) : forall d, sset n v (sset n w d) = sset n v d.
Proof.
  induction d as [|[k x] d IH]; cbn.
  - rewrite String.eqb_refl. reflexivity.
  - destruct (String.eqb k n) eqn:E; cbn; rewrite E; [reflexivity|]. rewrite IH. reflexivity.
Qed.
Lemma sget_app {V} n (d1 d2 : list (string * V)) :
  sget n (d1 ++ d2) = match sget n d1 with Some v => Some v | None => sget n d2 end.
Proof. induction d1 as [|[k v] d1 IH]; cbn; [reflexivity|]. destruct (String.eqb k n); auto. Qed.

Lemma nth_upd p r : forall l p', nth_error (upd_proc p r l) p' =
  if Nat.eqb p p' then match nth_error l p with Some _ => Some r | None => None end else nth_error l p'.
Proof.
  revert p. intros p l. revert p. induction l as [|x l IH]; intros p p'; cbn.
  - destruct p', p; cbn; try reflexivity. destruct (p =? p')%nat; reflexivity.
  - destruct p, p'; cbn; try reflexivity. apply IH.
Qed.
Lemma length_upd p r l : List.length (upd_proc p r l) = List.length l.
Proof. revert p. induction l as [|x l IH]; intros [|p]; cbn; auto. Qed.

(** ** Beginning a task *)
Lemma begin_ok s n t q : queue_of s n = Some q -> (hd_error q = Some t \/ q = []) ->
  begin_next s n t = (with_queue s n (tl q), QOk).
Proof.
  unfold queue_of, begin_next. intros Hq Ht. rewrite Hq. destruct q as [|x q].
  - unfold set_queue. rewrite Hq. cbn [a_queues with_queue]. rewrite sget_same. unfold with_queue. cbn.
    rewrite sset_sset. reflexivity.
  - destruct Ht as [Ht|Ht]; [|discriminate]. cbn in Ht. injection Ht as ->. rewrite String.eqb_refl. reflexivity.
Qed.

Lemma enter_ok s p r t q : queue_of s (r_net r) = Some q -> (hd_error q = Some t \/ q = []) ->
  enter s p r t =
    match sget t (n_classes (r_def r)) with
    | Some _ => (mkAct (a_nets s) (sset (r_net r) (tl q) (a_queues s))
                   (upd_proc p (mkProc (r_net r) (r_def r) (Some t)) (a_procs s)), QStarted t)
    | None => (mkAct (a_nets s) (sset (r_net r) (tl q) (a_queues s))
                   (upd_proc p (mkProc (r_net r) (r_def r) None) (a_procs s)), QKeyErr)
    end.
Proof. intros Hq Ht. unfold enter. rewrite (begin_ok _ _ _ _ Hq Ht). reflexivity. Qed.

(** *** What happens when the current task ends *)
Lemma finish_queued s p n d t x q l :
  in_task s p n d t -> sget t (n_classes d) <> Some KTerminal -> sget t (n_links d) = Some l ->
  queue_of s n = Some (x :: q) -> sget x (n_classes d) <> None ->
  snd (qstep s (QFinish p)) = QStarted x /\
  queue_of (fst (qstep s (QFinish p))) n = Some q /\
  in_task (fst (qstep s (QFinish p))) p n d x.
Proof.
  unfold in_task. intros Hp Hk Hl Hq Hx. cbn [qstep]. rewrite Hp. cbn [r_cur r_def r_net].
  assert (E : next_task_name s d n t = Some (Some x)).
  { unfold next_task_name, get_next. unfold queue_of in Hq. rewrite Hq, Hl. reflexivity. }
  rewrite E. rewrite (enter_ok s p (mkProc n d (Some t)) x (x :: q)); [|exact Hq|left; reflexivity].
  cbn [r_def r_net tl]. destruct (sget x (n_classes d)) eqn:Ex; [|congruence].
  destruct (sget t (n_classes d)) as [[]|]; try congruence;
  (split; [reflexivity|]; split; [apply sget_same|]; cbn; rewrite nth_upd, Nat.eqb_refl, Hp; reflexivity).
Qed.
Lemma finish_default s p n d t t' al :
  in_task s p n d t -> sget t (n_classes d) <> Some KTerminal -> sget t (n_links d) = Some (mkLinks (Some t') al) ->
  queue_of s n = Some [] -> sget t' (n_classes d) <> None ->
  snd (qstep s (QFinish p)) = QStarted t' /\
  queue_of (fst (qstep s (QFinish p))) n = Some [] /\
  in_task (fst (qstep s (QFinish p))) p n d t'.
Proof.
  unfold in_task. intros Hp Hk Hl Hq Hx. cbn [qstep]. rewrite Hp. cbn [r_cur r_def r_net].
  assert (E : next_task_name s d n t = Some (Some t')).
  { unfold next_task_name, get_next. unfold queue_of in Hq. rewrite Hq, Hl. reflexivity. }
  rewrite E. rewrite (enter_ok s p (mkProc n d (Some t)) t' []); [|exact Hq|right; reflexivity].
  cbn [r_def r_net tl]. destruct (sget t' (n_classes d)) eqn:Ex; [|congruence].
  destruct (sget t (n_classes d)) as [[]|]; try congruence;
  (split; [reflexivity|]; split; [apply sget_same|]; cbn; rewrite nth_upd, Nat.eqb_refl, Hp; reflexivity).
Qed.
Lemma finish_neither s p n d t al :
  in_task s p n d t -> sget t (n_links d) = Some (mkLinks None al) -> queue_of s n = Some [] ->
  snd (qstep s (QFinish p)) = QSimErr /\
  (forall q, snd (qstep (qrun (fst (qstep s (QFinish p))) q) (QFinish p)) = QDead).
Proof.
  unfold in_task. intros Hp Hl Hq. cbn [qstep]. rewrite Hp. cbn [r_cur r_def r_net].
  assert (E : next_task_name s d n t = Some None).
  { unfold next_task_name, get_next. unfold queue_of in Hq. rewrite Hq, Hl. reflexivity. }
  rewrite E.
  assert (K : forall os s, nth_error (a_procs s) p = Some (mkProc n d None) ->
              nth_error (a_procs (qrun s os)) p = Some (mkProc n d None)).
  { clear. induction os as [|o os IH]; intros s H; [exact H|]. cbn [qrun]. apply IH.
    assert (Hlen : (p < List.length (a_procs s))%nat) by (apply nth_error_Some; congruence).
    destruct o; cbn.
    - destruct (sget n0 (a_nets s)); exact H.
    - destruct (sget n0 (a_nets s)); exact H.
    - exact H.
    - unfold set_queue. destruct (sget n0 (a_queues s)) as [[|]|]; exact H.
    - destruct (sget n0 (a_queues s)); exact H.
    - destruct (get_next s n0); exact H.
    - exact H.
    - exact H.
    - destruct (sget n0 (a_nets s)) as [d0|]; [|exact H].
      assert (H1 : nth_error (a_procs s ++ [mkProc n0 d0 None]) p = Some (mkProc n d None))
        by (rewrite nth_error_app1 by exact Hlen; exact H).
      assert (Hent : forall t, nth_error (a_procs (fst (enter (mkAct (a_nets s) (a_queues s) (a_procs s ++ [mkProc n0 d0 None]))
                                 (List.length (a_procs s)) (mkProc n0 d0 None) t))) p = Some (mkProc n d None)).
      { intro t. unfold enter. destruct (begin_next _ _ _) as [s1 r] eqn:E.
        assert (Hs1 : a_procs s1 = a_procs s ++ [mkProc n0 d0 None]).
        { revert E. unfold begin_next, set_queue. cbn [a_queues a_procs r_net].
          destruct (sget n0 (a_queues s)) as [[|y q]|]; cbn.
          - rewrite sget_same. intro E. injection E as <- _. reflexivity.
          - destruct (String.eqb y t); intro E; injection E as <- _; reflexivity.
          - intro E. injection E as <- _. reflexivity. }
        assert (Hput : forall c, nth_error (upd_proc (List.length (a_procs s)) (mkProc n0 d0 c) (a_procs s1)) p = Some (mkProc n d None)).
        { intro c. rewrite nth_upd. destruct (Nat.eqb_spec (List.length (a_procs s)) p); [lia|]. rewrite Hs1. exact H1. }
        destruct r; cbn; try apply Hput. destruct (sget t (n_classes d0)); cbn; apply Hput. }
      destruct (get_next s n0) as [[h|]|]; [apply Hent|destruct init; [apply Hent|exact H1]|exact H1].
    - destruct (nth_error (a_procs s) p0) as [r|] eqn:Er; [|exact H].
      destruct (r_cur r) as [c|] eqn:Ec; [|exact H].
      assert (p0 <> p) by (intro; subst; rewrite H in Er; injection Er as <-; discriminate).
      assert (Hkill : nth_error (a_procs (kill s p0 r)) p = Some (mkProc n d None)).
      { cbn. rewrite nth_upd. destruct (Nat.eqb_spec p0 p); [congruence|exact H]. }
      assert (Hent : forall t, nth_error (a_procs (fst (enter s p0 r t))) p = Some (mkProc n d None)).
      { intro t. unfold enter. destruct (begin_next _ _ _) as [s1 r1] eqn:E.
        assert (Hs1 : a_procs s1 = a_procs s).
        { revert E. unfold begin_next, set_queue.
          destruct (sget (r_net r) (a_queues s)) as [[|y q]|]; cbn.
          - rewrite sget_same. intro E. injection E as <- _. reflexivity.
          - destruct (String.eqb y t); intro E; injection E as <- _; reflexivity.
          - intro E. injection E as <- _. reflexivity. }
        assert (Hput : forall c, nth_error (upd_proc p0 c (a_procs s1)) p = Some (mkProc n d None)).
        { intro c0. rewrite nth_upd. destruct (Nat.eqb_spec p0 p); [congruence|]. rewrite Hs1. exact H. }
        destruct r1; cbn; try apply Hput. destruct (sget t (n_classes (r_def r))); cbn; apply Hput. }
      destruct (sget c (n_classes (r_def r))) as [[]|]; try exact Hkill;
      (destruct (next_task_name s (r_def r) (r_net r) c) as [[|]|]; [apply Hent|exact Hkill|exact Hkill]). }
  assert (Kd : forall os, snd (qstep (qrun (kill s p (mkProc n d (Some t))) os) (QFinish p)) = QDead).
  { intro os. cbn [qstep]. rewrite K; [reflexivity|]. cbn. rewrite nth_upd, Nat.eqb_refl, Hp. reflexivity. }
  destruct (sget t (n_classes d)) as [[]|]; split; try reflexivity; apply Kd.
Qed.

(** ** Frames *)
Lemma begin_frame s n t : let s1 := fst (begin_next s n t) in
  a_procs s1 = a_procs s /\ a_nets s1 = a_nets s /\ forall m, m <> n -> queue_of s1 m = queue_of s m.
Proof.
  unfold begin_next, set_queue, queue_of.
  destruct (sget n (a_queues s)) as [[|y q]|]; cbn.
  - rewrite sget_same. cbn. split; [reflexivity|]. split; [reflexivity|]. intros m Hm.
    rewrite !sget_other by congruence. reflexivity.
  - destruct (String.eqb y t); cbn; auto. split; [reflexivity|]. split; [reflexivity|]. intros m Hm.
    rewrite sget_other by congruence. reflexivity.
  - auto.
Qed.
Lemma enter_frame s p r t : let s1 := fst (enter s p r t) in
  a_nets s1 = a_nets s /\ List.length (a_procs s1) = List.length (a_procs s) /\
  (forall p', p' <> p -> nth_error (a_procs s1) p' = nth_error (a_procs s) p') /\
  (forall m, m <> r_net r -> queue_of s1 m = queue_of s m).
Proof.
  unfold enter. pose proof (begin_frame s (r_net r) t) as (H1 & H2 & H3).
  destruct (begin_next s (r_net r) t) as [s1 o]. cbn in *.
  assert (K : forall c, let s2 := mkAct (a_nets s1) (a_queues s1) (upd_proc p (mkProc (r_net r) (r_def r) c) (a_procs s1)) in
     a_nets s2 = a_nets s /\ List.length (a_procs s2) = List.length (a_procs s) /\
     (forall p', p' <> p -> nth_error (a_procs s2) p' = nth_error (a_procs s) p') /\
     (forall m, m <> r_net r -> queue_of s2 m = queue_of s m)).
  { intros c. cbn. rewrite length_upd, H1. split; [exact H2|]. split; [reflexivity|]. split; [|exact H3].
    intros p' Hp'. rewrite nth_upd. destruct (Nat.eqb_spec p p'); [congruence|reflexivity]. }
  destruct o; try apply K. destruct (sget t (n_classes (r_def r))); apply K.
Qed.
Lemma kill_frame s p r : let s1 := kill s p r in
  a_nets s1 = a_nets s /\ List.length (a_procs s1) = List.length (a_procs s) /\
  (forall p', p' <> p -> nth_error (a_procs s1) p' = nth_error (a_procs s) p') /\
  (forall m, queue_of s1 m = queue_of s m).
Proof.
  cbn. rewrite length_upd. repeat split; auto. intros p' Hp'. rewrite nth_upd.
  destruct (Nat.eqb_spec p p'); [congruence|reflexivity].
Qed.

(** *** Finishing a task, in general *)
Lemma finish_cases s p r t : nth_error (a_procs s) p = Some r -> r_cur r = Some t ->
  (qstep s (QFinish p) = (kill s p r, QSimErr)) \/ (qstep s (QFinish p) = (kill s p r, QKeyErr)) \/
  exists q t' l, queue_of s (r_net r) = Some q /\ sget t (n_links (r_def r)) = Some l /\
    (hd_error q = Some t' \/ q = [] /\ l_default l = Some t') /\
    qstep s (QFinish p) = enter s p r t'.
Proof.
  intros Hp Hc. cbn [qstep]. rewrite Hp, Hc. unfold next_task_name, get_next. fold (queue_of s (r_net r)).
  destruct (sget t (n_classes (r_def r))) as [[]|].
  2:{ left. reflexivity. }
  all: destruct (queue_of s (r_net r)) as [q|] eqn:Eq; [|right; left; reflexivity].
  all: destruct (sget t (n_links (r_def r))) as [l|] eqn:El; [|right; left; reflexivity].
  all: destruct q as [|x q]; cbn [hd_error].
  all: try (right; right; exists (x :: q), x, l; cbn; auto; fail).
  all: destruct (l_default l) as [t'|] eqn:Ed; [right; right; exists [], t', l; auto 10|left; reflexivity].
Qed.
Lemma loop_cases s n init d : sget n (a_nets s) = Some d ->
  let p := List.length (a_procs s) in
  let s1 := mkAct (a_nets s) (a_queues s) (a_procs s ++ [mkProc n d None]) in
  (exists e, qstep s (QLoop n init) = (s1, e) /\ (e = QKeyErr \/ e = QSimErr)) \/
  exists q t, queue_of s n = Some q /\ (hd_error q = Some t \/ q = [] /\ init = Some t) /\
    qstep s (QLoop n init) = enter s1 p (mkProc n d None) t.
Proof.
  intros Hn p s1. cbn [qstep]. rewrite Hn. unfold get_next. fold (queue_of s n).
  destruct (queue_of s n) as [[|x q]|] eqn:E; cbn.
  - destruct init as [t|]; [right; exists [], t; auto|left; exists QSimErr; auto].
  - right. exists (x :: q), x. auto.
  - left. exists QKeyErr. auto.
Qed.

(** *** The ledger of a queue *)
Lemma enter_ledger s p r t q n : queue_of s (r_net r) = Some q ->
  (hd_error q = Some t \/ q = []) -> snd (enter s p r t) <> QKeyErr ->
  snd (enter s p r t) = QStarted t /\
  queue_of (fst (enter s p r t)) (r_net r) = Some (tl q) /\
  (r_net r <> n -> queue_of (fst (enter s p r t)) n = queue_of s n).
Proof.
  intros Hq Ht Hc. pose proof (enter_frame s p r t) as (_ & _ & _ & Hf).
  rewrite (enter_ok _ _ _ _ _ Hq Ht) in *. destruct (sget t (n_classes (r_def r))); cbn in *; [|congruence].
  split; [reflexivity|]. split; [apply sget_same|]. intro H. apply Hf. congruence.
Qed.

Lemma queue_ledger n : forall os s q, queue_of s n = Some q -> sget n (a_nets s) <> None ->
  calm s os -> Forall (no_reset n) os ->
  exists q', queue_of (qrun s os) n = Some q' /\
    q ++ queued n s os = started_from_queue n s os ++ q'.
Proof.
  induction os as [|o os IH]; intros s q Hq Hn Hc Hf.
  - exists q. split; [exact Hq|]. cbn. rewrite app_nil_r. reflexivity.
  - destruct Hc as [Hc1 Hc]. apply Forall_cons_iff in Hf as [Ho Hf].
    assert (K : exists q1 qd st, queue_of (fst (qstep s o)) n = Some q1 /\ sget n (a_nets (fst (qstep s o))) <> None /\
       q ++ qd = st ++ q1 /\
       queued_by n s o = qd /\ queue_start n s o = st).
    { unfold queued_by, queue_start. assert (same : forall s' r, fst (qstep s o) = s' -> snd (qstep s o) = r ->
          queue_of s' n = queue_of s n -> a_nets s' = a_nets s ->
          (match o, r with QSet m l, QOk => if String.eqb m n then l else [] | _, _ => [] end) = [] ->
          (match drives s o, r, queue_of s n with
           | Some (_, m), QStarted t, Some (_ :: _) => if String.eqb m n then [t] else []
           | _, _, _ => [] end) = [] ->
          exists q1 qd st, queue_of (fst (qstep s o)) n = Some q1 /\ sget n (a_nets (fst (qstep s o))) <> None /\
            q ++ qd = st ++ q1 /\
            (match o, snd (qstep s o) with QSet m l, QOk => if String.eqb m n then l else [] | _, _ => [] end) = qd /\
            (match drives s o, snd (qstep s o), queue_of s n with
             | Some (_, m), QStarted t, Some (_ :: _) => if String.eqb m n then [t] else []
             | _, _, _ => [] end) = st).
      { intros s' r E1 E2 E3 E4 E5 E6. exists q, [], []. rewrite E1, E2, E3, E4, E5, E6, app_nil_r. auto. }
      destruct o as [m d|m|m|m l|m|m|m|m|m init|p].
      - (* add *) cbn in *. destruct (sget m (a_nets s)) eqn:Em; [apply (same s QSimErr); auto|]. clear same.
        assert (m <> n) by congruence. cbn. exists q, [], []. unfold queue_of. cbn. rewrite sget_other by assumption.
        split; [exact Hq|]. split; [|rewrite app_nil_r; auto]. rewrite sget_app. destruct (sget n (a_nets s)); congruence.
      - (* del *) cbn in *. destruct (sget m (a_nets s)) eqn:Em; [|apply (same s QSimErr); auto]. clear same.
        cbn. exists q, [], []. split; [exact Hq|]. split; [|rewrite app_nil_r; auto].
        assert (X : forall V (dd : list (string * V)), sget n (sdel m dd) = sget n dd).
        { clear - Ho. intros V dd. unfold sdel. induction dd as [|[k v] dd IH]; [reflexivity|]. cbn.
          destruct (String.eqb k m) eqn:E; cbn; rewrite IH; [|reflexivity].
          apply String.eqb_eq in E. subst k. apply String.eqb_neq in Ho. rewrite Ho. reflexivity. }
        rewrite X. exact Hn.
      - (* clear *) cbn in *. clear same. exists q, [], []. unfold queue_of. cbn. rewrite sget_other by assumption.
        rewrite app_nil_r. auto.
      - (* set *) cbn in *. unfold set_queue in *. destruct (sget m (a_queues s)) as [[|y ql]|] eqn:Em.
        + clear same. cbn. destruct (String.eqb m n) eqn:E.
          * apply String.eqb_eq in E. subst m. unfold queue_of in Hq. rewrite Hq in Em. injection Em as ->.
            exists l, l, []. unfold queue_of. cbn. rewrite sget_same. auto.
          * apply String.eqb_neq in E. exists q, [], []. unfold queue_of. cbn. rewrite sget_other by assumption.
            rewrite app_nil_r. auto.
        + apply (same s QSimErr); auto.
        + cbn in Hc1. congruence.
      - cbn in *. destruct (sget m (a_queues s)); eapply same; auto.
      - cbn in *. destruct (get_next s m); eapply same; auto.
      - cbn in *. eapply same; auto.
      - cbn in *. eapply same; auto.
      - (* loop *)
        destruct (sget m (a_nets s)) as [d|] eqn:Em.
        2:{ exfalso. apply Hc1. cbn. rewrite Em. reflexivity. }
        cbn [drives]. destruct (loop_cases s m init d Em) as [(e & E & He)|(ql & t & Hql & Ht & E)].
        + rewrite E in *. cbn [fst snd]. exists q, [], []. split; [exact Hq|]. split; [exact Hn|].
          rewrite app_nil_r. split; [reflexivity|]. destruct He as [-> | ->]; auto.
        + set (s1 := mkAct (a_nets s) (a_queues s) (a_procs s ++ [mkProc m d None])) in *.
          rewrite E in *.
          destruct (enter_ledger s1 (List.length (a_procs s)) (mkProc m d None) t ql n Hql) as (A & B & C);
            [destruct Ht as [Ht|[Ht _]]; auto|exact Hc1|].
          pose proof (enter_frame s1 (List.length (a_procs s)) (mkProc m d None) t) as (Fn & _).
          rewrite A. cbn [r_net] in *. destruct (String.eqb m n) eqn:Emn.
          * apply String.eqb_eq in Emn. subst m. rewrite Hq in Hql. injection Hql as <-.
            exists (tl q), [], (match q with [] => [] | _ => [t] end). split; [exact B|]. split; [rewrite Fn; exact Hn|].
            rewrite Hq. destruct q as [|y q]; cbn in *; [auto|]. destruct Ht as [Ht|[Ht _]]; [|discriminate].
            injection Ht as ->. rewrite app_nil_r. auto.
          * exists q, [], []. apply String.eqb_neq in Emn. rewrite (C Emn), Fn. split; [exact Hq|]. split; [exact Hn|].
            rewrite app_nil_r. split; [reflexivity|]. split; [reflexivity|].
            destruct (queue_of s n) as [[|]|]; reflexivity.
      - (* finish *)
        unfold drives, net_of. destruct (nth_error (a_procs s) p) as [r|] eqn:Ep.
        2:{ cbn in *. rewrite Ep in *. exists q, [], []. rewrite app_nil_r. auto. }
        destruct (r_cur r) as [t|] eqn:Et.
        2:{ cbn in *. rewrite Ep, Et in *. exists q, [], []. rewrite app_nil_r. auto. }
        destruct (finish_cases s p r t Ep Et) as [E|[E|(ql & t' & l & Hql & Hl & Ht & E)]].
        + rewrite E in *. exists q, [], []. rewrite app_nil_r. auto.
        + exfalso. apply Hc1. rewrite E. reflexivity.
        + rewrite E in *.
          destruct (enter_ledger s p r t' ql n Hql) as (A & B & C);
            [destruct Ht as [Ht|[Ht _]]; auto|exact Hc1|].
          pose proof (enter_frame s p r t') as (Fn & _).
          rewrite A. destruct (String.eqb (r_net r) n) eqn:Emn.
          * apply String.eqb_eq in Emn. rewrite Emn in *. rewrite Hq in Hql. injection Hql as <-.
            exists (tl q), [], (match q with [] => [] | _ => [t'] end). split; [exact B|]. split; [rewrite Fn; exact Hn|].
            rewrite Hq. destruct q as [|y q]; cbn in *; [auto|]. destruct Ht as [Ht|[Ht _]]; [|discriminate].
            injection Ht as ->. rewrite app_nil_r. auto.
          * exists q, [], []. apply String.eqb_neq in Emn. rewrite (C Emn), Fn. split; [exact Hq|]. split; [exact Hn|].
            rewrite app_nil_r. split; [reflexivity|]. split; [reflexivity|].
            destruct (queue_of s n) as [[|]|]; reflexivity. }
    destruct K as (q1 & qd & st & K1 & K2 & K3 & K4 & K5).
    destruct (IH _ q1 K1 K2 Hc Hf) as (q' & H1 & H2). exists q'. split; [exact H1|].
    cbn [queued started_from_queue]. rewrite K4, K5, app_assoc, K3, <- app_assoc, H2, app_assoc. reflexivity.
Qed.

(** ** Errors of the loop *)
Lemma finish_error s p n d t : in_task s p n d t -> snd (qstep s (QFinish p)) = QSimErr ->
  sget t (n_classes d) = Some KTerminal \/
  (queue_of s n = Some [] /\ exists l, sget t (n_links d) = Some l /\ l_default l = None).
Proof.
  unfold in_task. intros Hp H. cbn [qstep] in H. rewrite Hp in H. cbn [r_cur r_def r_net] in H.
  destruct (sget t (n_classes d)) as [[]|]; [|auto|];
  (right; unfold next_task_name, get_next in H; fold (queue_of s n) in H;
   destruct (queue_of s n) as [q|] eqn:Eq; [|discriminate H];
   destruct (sget t (n_links d)) as [l|]; [|discriminate H];
   destruct q as [|x q]; cbn [hd_error] in H;
   [destruct (l_default l) as [t'|] eqn:Ed;
     [rewrite (enter_ok s p (mkProc n d (Some t)) t' [] Eq (or_intror eq_refl)) in H; cbn in H; destruct (sget t' (n_classes d)); discriminate H
     |split; [reflexivity|exists l; auto]]
   |rewrite (enter_ok s p (mkProc n d (Some t)) x (x :: q) Eq (or_introl eq_refl)) in H; cbn in H; destruct (sget x (n_classes d)); discriminate H]).
Qed.
Lemma loop_error s n init : snd (qstep s (QLoop n init)) = QSimErr -> queue_of s n = Some [] /\ init = None.
Proof.
  intro H. destruct (sget n (a_nets s)) as [d|] eqn:En.
  2:{ cbn in H. rewrite En in H. discriminate. }
  cbn [qstep] in H. rewrite En in H. unfold get_next in H. fold (queue_of s n) in H.
  destruct (queue_of s n) as [[|x q]|] eqn:E; [| |discriminate H]; cbn [hd_error] in H.
  - destruct init as [t|]; [|auto]. exfalso.
    rewrite (enter_ok (mkAct (a_nets s) (a_queues s) (a_procs s ++ [mkProc n d None])) _ (mkProc n d None) t [] E (or_intror eq_refl)) in H; cbn in H; destruct (sget t (n_classes d)); discriminate H.
  - exfalso. rewrite (enter_ok (mkAct (a_nets s) (a_queues s) (a_procs s ++ [mkProc n d None])) _ (mkProc n d None) x (x :: q) E (or_introl eq_refl)) in H; cbn in H; destruct (sget x (n_classes d)); discriminate H.
Qed.

(** ** One loop among others *)
Definition only (n : string) (p : nat) (s : ast) : Prop :=
  forall p' r, nth_error (a_procs s) p' = Some r -> r_net r = n -> p' = p.

Lemma enter_only s p r t n q : only n q s -> nth_error (a_procs s) p = Some r -> only n q (fst (enter s p r t)).
Proof.
  intros Ho Hp p' r' H Hn. pose proof (enter_frame s p r t) as (_ & _ & F & _).
  destruct (Nat.eq_dec p' p) as [->|E]; [|rewrite F in H by exact E; apply (Ho _ _ H Hn)].
  assert (r_net r' = r_net r).
  { revert H. unfold enter. pose proof (begin_frame s (r_net r) t) as (H1 & _). destruct (begin_next s (r_net r) t) as [s1 o].
    cbn in H1. destruct o; cbn; rewrite ?nth_upd, ?Nat.eqb_refl, ?H1, ?Hp; try (intro X; injection X as <-; reflexivity).
    destruct (sget t (n_classes (r_def r))); cbn; rewrite ?nth_upd, ?Nat.eqb_refl, ?H1, ?Hp; intro X; injection X as <-; reflexivity. }
  apply (Ho _ _ Hp). congruence.
Qed.
Lemma kill_only s p r n q : only n q s -> nth_error (a_procs s) p = Some r -> only n q (kill s p r).
Proof.
  intros Ho Hp p' r' H Hn. cbn in H. rewrite nth_upd in H. destruct (Nat.eqb_spec p p') as [->|E].
  - rewrite Hp in H. injection H as <-. apply (Ho _ _ Hp). exact Hn.
  - apply (Ho _ _ H Hn).
Qed.

Lemma step_frame s o n p : elsewhere n o -> o <> QFinish p -> (p < List.length (a_procs s))%nat -> only n p s ->
  nth_error (a_procs (fst (qstep s o))) p = nth_error (a_procs s) p /\
  queue_of (fst (qstep s o)) n = queue_of s n /\ only n p (fst (qstep s o)) /\ start_by p s o = [] /\
  (p < List.length (a_procs (fst (qstep s o))))%nat.
Proof.
  intros He Hne Hlt Ho.
  destruct o as [m d|m|m|m l|m|m|m|m|m init|p']; cbn [elsewhere] in He.
  - unfold start_by, drives. cbn. destruct (sget m (a_nets s)); cbn; auto 6. split; [reflexivity|]. split; [apply sget_other; exact He|]. auto.
  - unfold start_by, drives. cbn. destruct (sget m (a_nets s)); cbn; auto 6.
  - unfold start_by, drives. cbn. split; [reflexivity|]. split; [apply sget_other; exact He|]. auto.
  - unfold start_by, drives. cbn. unfold set_queue. destruct (sget m (a_queues s)) as [[|]|]; cbn; auto 6.
    split; [reflexivity|]. split; [apply sget_other; exact He|]. auto.
  - unfold start_by, drives. cbn. destruct (sget m (a_queues s)); cbn; auto 6.
  - unfold start_by, drives. cbn. destruct (get_next s m); cbn; auto 6.
  - unfold start_by, drives. cbn. auto 6.
  - unfold start_by, drives. cbn. auto 6.
  - unfold start_by, drives.
    assert (X : (match snd (qstep s (QLoop m init)) with QStarted t => if (List.length (a_procs s) =? p)%nat then [t] else [] | _ => [] end) = []).
    { destruct (snd _); auto. destruct (Nat.eqb_spec (List.length (a_procs s)) p); [lia|reflexivity]. }
    rewrite X. clear X.
    destruct (sget m (a_nets s)) as [d|] eqn:Em; [|cbn; rewrite Em; auto 6].
    set (s1 := mkAct (a_nets s) (a_queues s) (a_procs s ++ [mkProc m d None])).
    assert (Ho1 : only n p s1).
    { intros p' r H Hn. cbn in H. destruct (Nat.lt_ge_cases p' (List.length (a_procs s))) as [L|L].
      - rewrite nth_error_app1 in H by exact L. apply (Ho _ _ H Hn).
      - rewrite nth_error_app2 in H by exact L. destruct (p' - List.length (a_procs s))%nat as [|k]; cbn in H; [|destruct k; discriminate].
        injection H as <-. cbn in Hn. contradiction. }
    assert (Hp1 : nth_error (a_procs s1) p = nth_error (a_procs s) p) by (cbn; rewrite nth_error_app1 by exact Hlt; reflexivity).
    assert (Hl1 : (p < List.length (a_procs s1))%nat) by (cbn; rewrite app_length; cbn; lia).
    destruct (loop_cases s m init d Em) as [(e & E & _)|(q & t & _ & _ & E)]; fold s1 in E; rewrite E; cbn [fst].
    + auto 6.
    + pose proof (enter_frame s1 (List.length (a_procs s)) (mkProc m d None) t) as (F1 & F2 & F3 & F4).
      rewrite F2, (F3 p) by lia. rewrite (F4 n) by (cbn; congruence). split; [exact Hp1|]. split; [reflexivity|].
      split; [|auto]. apply enter_only; [exact Ho1|]. cbn. rewrite nth_error_app2 by lia. rewrite Nat.sub_diag. reflexivity.
  - assert (Hpp : p' <> p) by congruence.
    assert (X : start_by p s (QFinish p') = []).
    { unfold start_by, drives. destruct (net_of s p'); [|reflexivity]. destruct (snd _); auto.
      apply Nat.eqb_neq in Hpp. rewrite Hpp. reflexivity. }
    rewrite X. clear X.
    destruct (nth_error (a_procs s) p') as [r|] eqn:Er; [|cbn; rewrite Er; auto 6].
    destruct (r_cur r) as [t|] eqn:Ec; [|cbn; rewrite Er, Ec; auto 6].
    assert (Hrn : r_net r <> n) by (intro Hn; apply Hpp; apply (Ho _ _ Er Hn)).
    pose proof (kill_frame s p' r) as (G1 & G2 & G3 & G4).
    destruct (finish_cases s p' r t Er Ec) as [E|[E|(q & t' & l & _ & _ & _ & E)]]; rewrite E; cbn [fst].
    + rewrite G2, (G3 p) by congruence. rewrite G4. split; [reflexivity|]. split; [reflexivity|]. split; [apply kill_only; assumption|auto].
    + rewrite G2, (G3 p) by congruence. rewrite G4. split; [reflexivity|]. split; [reflexivity|]. split; [apply kill_only; assumption|auto].
    + pose proof (enter_frame s p' r t') as (F1 & F2 & F3 & F4).
      rewrite F2, (F3 p) by congruence. rewrite (F4 n) by congruence. split; [reflexivity|]. split; [reflexivity|].
      split; [apply enter_only; assumption|auto].
Qed.

(** A loop that has raised starts nothing more. *)
Lemma starts_dead n p : forall os s r, nth_error (a_procs s) p = Some r -> r_cur r = None -> r_net r = n ->
  only n p s -> Forall (elsewhere n) os -> starts p s os = [].
Proof.
  induction os as [|o os IH]; intros s r Hp Hc Hn Ho Hf; [reflexivity|]. apply Forall_cons_iff in Hf as [He Hf].
  cbn [starts].
  assert (D : {o = QFinish p} + {o <> QFinish p}).
  { destruct o; try (right; discriminate). destruct (Nat.eq_dec p0 p) as [->|X]; [left; reflexivity|right; congruence]. }
  destruct D as [->|D].
  - unfold start_by. cbn [qstep]. rewrite Hp, Hc. cbn [fst snd]. destruct (drives s (QFinish p)) as [[? ?]|]; cbn [app]; eapply IH; eauto.
  - assert (Hlt : (p < List.length (a_procs s))%nat) by (apply nth_error_Some; congruence).
    destruct (step_frame s o n p He D Hlt Ho) as (A & B & C & E & _). rewrite E. cbn.
    eapply IH; eauto. congruence.
Qed.

Lemma starts_chain n p d : forall os s t, in_task s p n d t -> queue_of s n = Some [] -> only n p s ->
  Forall (elsewhere n) os -> starts p s os = default_chain d t (finishes p os).
Proof.
  induction os as [|o os IH]; intros s t Hin Hq Ho Hf; [reflexivity|]. apply Forall_cons_iff in Hf as [He Hf].
  unfold in_task in Hin.
  assert (Hlt : (p < List.length (a_procs s))%nat) by (apply nth_error_Some; congruence).
  assert (D : {o = QFinish p} + {o <> QFinish p}).
  { destruct o; try (right; discriminate). destruct (Nat.eq_dec p0 p) as [->|X]; [left; reflexivity|right; congruence]. }
  cbn [starts]. destruct D as [->|D].
  - unfold finishes. cbn [filter]. rewrite Nat.eqb_refl. cbn [List.length default_chain]. fold (finishes p os).
    unfold start_by, drives, net_of. rewrite Hin. cbn [r_net]. rewrite Nat.eqb_refl.
    assert (Hkill : forall e, starts p (kill s p (mkProc n d (Some t))) os = [] /\ (e = e :> qout)).
    { intro e. split; [|reflexivity]. eapply starts_dead; [| | | |exact Hf].
      - cbn. rewrite nth_upd, Nat.eqb_refl, Hin. reflexivity.
      - reflexivity.
      - reflexivity.
      - apply kill_only; assumption. }
    cbn [qstep]. rewrite Hin. cbn [r_cur r_def r_net]. unfold next_task_name, get_next. fold (queue_of s n). rewrite Hq. cbn [hd_error].
    assert (Hent : forall t', enter s p (mkProc n d (Some t)) t' =
       match sget t' (n_classes d) with
       | Some _ => (mkAct (a_nets s) (sset n [] (a_queues s)) (upd_proc p (mkProc n d (Some t')) (a_procs s)), QStarted t')
       | None => (mkAct (a_nets s) (sset n [] (a_queues s)) (upd_proc p (mkProc n d None) (a_procs s)), QKeyErr)
       end).
    { intro t'. apply (enter_ok s p (mkProc n d (Some t)) t' [] Hq). auto. }
    assert (Hent_only : forall t', only n p (fst (enter s p (mkProc n d (Some t)) t'))) by (intro; apply enter_only; assumption).
    assert (Knon : starts p
       (fst (match match sget t (n_links d) with Some l => Some (l_default l) | None => None end with
             | Some (Some t') => enter s p (mkProc n d (Some t)) t'
             | Some None => (kill s p (mkProc n d (Some t)), QSimErr)
             | None => (kill s p (mkProc n d (Some t)), QKeyErr) end)) os
       = match match sget t (n_links d) with Some l => Some (l_default l) | None => None end with
         | Some (Some t') => match sget t' (n_classes d) with Some _ => default_chain d t' (finishes p os) | None => [] end
         | _ => [] end).
    { destruct (sget t (n_links d)) as [l|]; [|apply (Hkill QOk)].
      destruct (l_default l) as [t'|]; [|apply (Hkill QOk)].
      specialize (Hent_only t'). rewrite Hent in *. destruct (sget t' (n_classes d)) eqn:Et'; cbn [fst snd app] in *.
      * apply IH; auto.
        -- unfold in_task. cbn. rewrite nth_upd, Nat.eqb_refl, Hin. reflexivity.
        -- unfold queue_of. cbn. apply sget_same.
      * eapply starts_dead; [| | |exact Hent_only|exact Hf]; [cbn; rewrite nth_upd, Nat.eqb_refl, Hin; reflexivity|reflexivity|reflexivity]. }
    destruct (sget t (n_classes d)) as [[]|]; cbn [fst snd app];
      [|apply (Hkill QOk)|];
    (destruct (sget t (n_links d)) as [l|]; [|exact Knon]; destruct (l_default l) as [t'|]; [|exact Knon];
     rewrite Hent in *; destruct (sget t' (n_classes d)); cbn [fst snd app] in *; rewrite Knon; reflexivity).
  - destruct (step_frame s o n p He D Hlt Ho) as (A & B & C & E & _). rewrite E. cbn [app].
    assert (Hfin : finishes p (o :: os) = finishes p os).
    { unfold finishes. cbn [filter]. destruct o; try reflexivity. destruct (Nat.eqb_spec p0 p); [congruence|reflexivity]. }
    rewrite Hfin. apply IH; auto; [unfold in_task|]; congruence.
Qed.

(** ** Factories *)
Lemma app_str_neq a b : b <> ""%string -> (a ++ b)%string <> a.
Proof.
  intro Hb. induction a as [|c a IH]; cbn; [exact Hb|]. intro H. injection H as H. exact (IH H).
Qed.
Lemma app_str_inj a b c : (a ++ b)%string = (a ++ c)%string -> b = c.
Proof. induction a as [|x a IH]; cbn; intro H; [exact H|]. injection H as H. exact (IH H). Qed.

Section Ordered.
Variables (fin : option string) (first : string).
Lemma ordered_links_out k : forall ts acc, ~ In k ts -> sget k (n_links (ordered fin first ts acc)) = sget k (n_links acc).
Proof.
  induction ts as [|t ts IH]; intros acc H; [reflexivity|]. cbn [ordered].
  destruct (match ts with t' :: _ => (t', sset t KTask (n_classes acc)) | [] => _ end) as [nxt cls] eqn:E.
  rewrite IH by (intro X; apply H; right; exact X). cbn. apply sget_other. intro; subst; apply H; left; reflexivity.
Qed.
Lemma ordered_classes_out k : forall ts acc, ~ In k ts -> fin <> Some k ->
  sget k (n_classes (ordered fin first ts acc)) = sget k (n_classes acc).
Proof.
  induction ts as [|t ts IH]; intros acc H Hf; [reflexivity|]. cbn [ordered].
  assert (t <> k) by (intro; subst; apply H; left; reflexivity).
  destruct ts as [|t' ts].
  - destruct fin as [e|]; cbn; rewrite ?sget_other by congruence; reflexivity.
  - rewrite IH; [|intro X; apply H; right; exact X|exact Hf]. cbn. apply sget_other. assumption.
Qed.
Lemma ordered_classes_fin e : forall ts acc, ts <> [] -> fin = Some e ->
  ~ In e ts -> sget e (n_classes (ordered fin first ts acc)) = Some KTerminal.
Proof.
  induction ts as [|t ts IH]; intros acc Hn Hf Hni; [contradiction|]. cbn [ordered]. destruct ts as [|t' ts].
  - rewrite Hf. cbn. apply sget_same.
  - apply IH; [discriminate|exact Hf|]. intro X. apply Hni. right. exact X.
Qed.
Definition nxt_of (post : list string) : string :=
  match post with t' :: _ => t' | [] => match fin with Some e => e | None => first end end.
Lemma ordered_at : forall pre t post acc, NoDup (pre ++ t :: post) -> fin <> Some t ->
  sget t (n_links (ordered fin first (pre ++ t :: post) acc)) = Some (mkLinks (Some (nxt_of post)) [nxt_of post]) /\
  sget t (n_classes (ordered fin first (pre ++ t :: post) acc)) = Some KTask.
Proof.
  induction pre as [|x pre IH]; intros t post acc Hnd Hf.
  - cbn [app] in *. inversion Hnd as [|? ? Hni Hnd']; subst. cbn [ordered]. destruct post as [|t' post].
    + unfold nxt_of. destruct fin as [e|] eqn:Ef; cbn.
      * rewrite sget_same. split; [reflexivity|]. rewrite sget_other by congruence. apply sget_same.
      * rewrite !sget_same. auto.
    + rewrite ordered_links_out, ordered_classes_out by assumption. cbn. rewrite !sget_same. auto.
  - cbn [app] in *. inversion Hnd as [|? ? Hni Hnd']; subst. cbn [ordered].
    destruct (match pre ++ t :: post with t' :: _ => (t', sset x KTask (n_classes acc)) | [] => _ end) as [nx cls].
    apply IH; assumption.
Qed.
End Ordered.

Lemma chain_terminating name ts pre t post k : ts = pre ++ t :: post -> NoDup ts ->
  ~ In (name ++ "_TERMINATING")%string ts ->
  default_chain (ordered_terminating name ts) t k = firstn k (post ++ [(name ++ "_TERMINATING")%string]).
Proof.
  intros Ets Hnd Hni. set (e := (name ++ "_TERMINATING")%string) in *.
  assert (Hend : sget e (n_classes (ordered_terminating name ts)) = Some KTerminal).
  { apply (ordered_classes_fin (Some e)); [subst; destruct pre; discriminate|reflexivity|exact Hni]. }
  revert pre t post Ets. induction k as [|k IH]; intros pre t post Ets; [reflexivity|].
  destruct (ordered_at (Some e) (hd ""%string ts) pre t post (mkNet [] [])) as [HL HC].
  { rewrite <- Ets. exact Hnd. }
  { intro X. injection X as X. apply Hni. rewrite X, Ets. apply in_or_app. right. left. reflexivity. }
  rewrite <- Ets in HL, HC. fold (ordered_terminating name ts) in HL, HC.
  change (ordered (Some e) (hd ""%string ts) ts (mkNet [] [])) with (ordered_terminating name ts) in HL, HC.
  cbn [default_chain]. rewrite HC, HL. cbn [l_default]. destruct post as [|t' post].
  - cbn [nxt_of app]. rewrite Hend. cbn [firstn]. f_equal. destruct k; [reflexivity|]. cbn [default_chain]. rewrite Hend. reflexivity.
  - cbn [nxt_of app firstn].
    assert (Ets' : ts = (pre ++ [t]) ++ t' :: post) by (rewrite <- app_assoc; exact Ets).
    destruct (ordered_at (Some e) (hd ""%string ts) (pre ++ [t]) t' post (mkNet [] [])) as [_ HC'].
    { rewrite <- Ets'. exact Hnd. }
    { intro X. injection X as X. apply Hni. rewrite X, Ets'. apply in_or_app. right. left. reflexivity. }
    rewrite <- Ets' in HC'. change (ordered (Some e) (hd ""%string ts) ts (mkNet [] [])) with (ordered_terminating name ts) in HC'.
    rewrite HC'. f_equal. apply (IH (pre ++ [t])). exact Ets'.
Qed.

Lemma nth_pre {A} (pre post : list A) x dflt : nth (List.length pre) (pre ++ x :: post) dflt = x.
Proof. rewrite app_nth2 by lia. rewrite Nat.sub_diag. reflexivity. Qed.

Lemma chain_loop ts : NoDup ts -> forall k pre t post, ts = pre ++ t :: post ->
  default_chain (ordered_loop ts) t k
    = map (fun i => nth (Nat.modulo i (List.length ts)) ts ""%string) (seq (S (List.length pre)) k).
Proof.
  intro Hnd. induction k as [|k IH]; intros pre t post Ets; [reflexivity|].
  destruct (ordered_at None (hd ""%string ts) pre t post (mkNet [] [])) as [HL HC]; [rewrite <- Ets; exact Hnd|discriminate|].
  rewrite <- Ets in HL, HC. change (ordered None (hd ""%string ts) ts (mkNet [] [])) with (ordered_loop ts) in HL, HC.
  cbn [default_chain seq map]. rewrite HC, HL. cbn [l_default].
  assert (Hlen : List.length ts = S (List.length pre + List.length post)).
  { rewrite Ets, app_length. cbn. lia. }
  destruct post as [|t' post].
  - cbn [nxt_of]. cbn in Hlen.
    destruct ts as [|t0 ts0] eqn:E; [destruct pre; discriminate|]. cbn [hd] in *.
    destruct (ordered_at None t0 [] t0 ts0 (mkNet [] [])) as [_ HC0]; [exact Hnd|discriminate|].
    cbn [app] in HC0. change (ordered None t0 (t0 :: ts0) (mkNet [] [])) with (ordered_loop (t0 :: ts0)) in HC0. rewrite HC0.
    assert (E1 : S (List.length pre) = List.length (t0 :: ts0)) by lia.
    rewrite E1, Nat.mod_same by (cbn; lia). cbn [nth]. f_equal.
    rewrite (IH [] t0 ts0 eq_refl). cbn [List.length].
    rewrite <- (map_map (fun i => i) (fun i => nth (i mod S (List.length ts0)) (t0 :: ts0) ""%string)), map_id.
    (* shifting by the length does not change the remainder *)
    assert (G : forall m b, map (fun i => nth (i mod S (List.length ts0)) (t0 :: ts0) ""%string) (seq b m)
              = map (fun i => nth (i mod S (List.length ts0)) (t0 :: ts0) ""%string) (seq (S (List.length ts0) + b) m)).
    { clear. induction m as [|m IHm]; intro b; [reflexivity|]. cbn [seq map]. f_equal.
      - f_equal. replace (S (List.length ts0) + b)%nat with (b + 1 * S (List.length ts0))%nat by lia. rewrite Nat.mod_add by lia. reflexivity.
      - replace (S (S (List.length ts0) + b))%nat with (S (List.length ts0) + S b)%nat by lia. apply IHm. }
    rewrite G. f_equal. f_equal. lia.
  - cbn [nxt_of].
    assert (Ets' : ts = (pre ++ [t]) ++ t' :: post) by (rewrite <- app_assoc; exact Ets).
    destruct (ordered_at None (hd ""%string ts) (pre ++ [t]) t' post (mkNet [] [])) as [_ HC']; [rewrite <- Ets'; exact Hnd|discriminate|].
    rewrite <- Ets' in HC'. change (ordered None (hd ""%string ts) ts (mkNet [] [])) with (ordered_loop ts) in HC'. rewrite HC'.
    assert (El : List.length (pre ++ [t]) = S (List.length pre)) by (rewrite app_length; cbn; lia).
    f_equal.
    + rewrite Nat.mod_small by (rewrite Hlen; cbn; lia). rewrite <- El, Ets' at 1. rewrite nth_pre. reflexivity.
    + rewrite (IH (pre ++ [t]) t' post Ets'), El. reflexivity.
Qed.

(** *** Starting the network *)
Lemma loop_start s n d t os : sget n (a_nets s) = Some d -> queue_of s n = Some [] ->
  (forall p r, nth_error (a_procs s) p = Some r -> r_net r <> n) ->
  sget t (n_classes d) <> None -> Forall (elsewhere n) os ->
  let p := List.length (a_procs s) in
  starts p s (QLoop n (Some t) :: os) = t :: default_chain d t (finishes p os).
Proof.
  intros Hn Hq Hno Ht Hf p. cbn [starts].
  set (s1 := mkAct (a_nets s) (a_queues s) (a_procs s ++ [mkProc n d None])).
  assert (E : qstep s (QLoop n (Some t)) = enter s1 p (mkProc n d None) t).
  { cbn [qstep]. rewrite Hn. unfold get_next. fold (queue_of s n). rewrite Hq. reflexivity. }
  unfold start_by, drives. rewrite E. fold p. rewrite Nat.eqb_refl.
  assert (Hp : nth_error (a_procs s1) p = Some (mkProc n d None)).
  { cbn. unfold p. rewrite nth_error_app2 by lia. rewrite Nat.sub_diag. reflexivity. }
  assert (Ho : only n p (fst (enter s1 p (mkProc n d None) t))).
  { apply enter_only; [|exact Hp]. intros p' r H Hr. cbn in H.
    destruct (Nat.lt_ge_cases p' (List.length (a_procs s))) as [L|L].
    - rewrite nth_error_app1 in H by exact L. exfalso. exact (Hno _ _ H Hr).
    - assert (p' < List.length (a_procs s ++ [mkProc n d None]))%nat by (apply nth_error_Some; congruence).
      rewrite app_length in H0. cbn in H0. unfold p. lia. }
  rewrite (enter_ok s1 p (mkProc n d None) t [] Hq (or_intror eq_refl)) in *. cbn [r_def r_net tl] in *.
  destruct (sget t (n_classes d)) eqn:Et; [|congruence]. cbn [fst snd app] in *. f_equal.
  apply (starts_chain n p d); auto.
  - unfold in_task. cbn [a_procs]. rewrite nth_upd, Nat.eqb_refl, Hp. reflexivity.
  - unfold queue_of. cbn. apply sget_same.
Qed.

(** ** Names *)
Lemma numbered_inj n i j : numbered n i = numbered n j -> i = j.
Proof.
  unfold numbered. intro H. apply app_str_inj in H. apply app_str_inj in H.
  assert (X : Some (Nat.to_uint i) = Some (Nat.to_uint j)) by (rewrite <- !NilEmpty.usu, H; reflexivity).
  injection X as X. apply Unsigned.to_uint_inj in X. exact X.
Qed.
Lemma sget_keys {V} n (d : list (string * V)) : sget n d <> None -> In n (map fst d).
Proof.
  induction d as [|[k v] d IH]; cbn; [congruence|]. destruct (String.eqb k n) eqn:E; [apply String.eqb_eq in E; auto|auto].
Qed.
Lemma suggest_from_none nets base : forall f cand i, suggest_from f nets base cand i = None ->
  forall j, (i < j <= i + f)%nat -> sget (numbered base j) nets <> None.
Proof.
  induction f as [|f IH]; intros cand i H j Hj; [lia|]. cbn in H. destruct (sget cand nets); [|discriminate].
  destruct (Nat.eq_dec j (S i)) as [->|Hne].
  - destruct f as [|f]; cbn in H; destruct (sget (numbered base (S i)) nets); congruence.
  - apply (IH _ _ H). lia.
Qed.
Lemma suggest_from_some nets base : forall f cand i x, suggest_from f nets base cand i = Some x ->
  sget x nets = None /\ (x = cand \/ exists j, (i < j)%nat /\ x = numbered base j) /\
  (sget cand nets = None -> x = cand).
Proof.
  induction f as [|f IH]; intros cand i x H; cbn in H.
  - destruct (sget cand nets) eqn:E; [discriminate|]. injection H as <-. auto.
  - destruct (sget cand nets) eqn:E; [|injection H as <-; auto].
    apply IH in H. destruct H as (H1 & H2 & _). split; [exact H1|]. split; [|discriminate].
    right. destruct H2 as [->|(j & Hj & ->)]; [exists (S i)|exists j]; split; auto; lia.
Qed.
Lemma suggest_fresh nets base : exists x, suggest nets base = Some x /\ sget x nets = None /\
  (x = base \/ exists j, (0 < j)%nat /\ x = numbered base j) /\ (sget base nets = None -> x = base).
Proof.
  unfold suggest. destruct (suggest_from (S (List.length nets)) nets base base 0) as [x|] eqn:E.
  - exists x. apply suggest_from_some in E. destruct E as (A & B & C). auto.
  - exfalso. pose proof (suggest_from_none _ _ _ _ _ E) as H.
    set (l := map (numbered base) (seq 1 (S (List.length nets)))).
    assert (Hnd : NoDup l).
    { unfold l. assert (forall m b, NoDup (map (numbered base) (seq b m))).
      { induction m as [|m IH]; intro b; cbn; [constructor|]. constructor; [|apply IH].
        intro X. apply in_map_iff in X as (j & Ej & Hj). apply numbered_inj in Ej. subst j. apply in_seq in Hj. lia. }
      apply H0. }
    assert (Hincl : incl l (map fst nets)).
    { intros x Hx. unfold l in Hx. apply in_map_iff in Hx as (j & <- & Hj). apply in_seq in Hj. apply sget_keys. apply H. lia. }
    pose proof (NoDup_incl_length Hnd Hincl) as X. unfold l in X. rewrite map_length, map_length, seq_length in X. lia.
Qed.

Lemma chain_single t k : default_chain (single_looping t) t k = repeat t k.
Proof.
  induction k as [|k IH]; [reflexivity|]. cbn [default_chain repeat].
  unfold single_looping at 1 2 3. cbn [n_classes n_links sget]. rewrite String.eqb_refl. cbn [l_default]. rewrite String.eqb_refl, IH. reflexivity.
Qed.
Lemma chain_single_term t k : default_chain (single_terminating t) t k = firstn k [(t ++ "_FINAL")%string].
Proof.
  set (e := (t ++ "_FINAL")%string).
  assert (He : e <> t) by (apply app_str_neq; discriminate).
  assert (HC : sget t (n_classes (single_terminating t)) = Some KTask).
  { unfold single_terminating. cbn [n_classes]. rewrite sget_other by exact He. cbn. rewrite String.eqb_refl. reflexivity. }
  assert (HE : sget e (n_classes (single_terminating t)) = Some KTerminal) by apply sget_same.
  destruct k as [|k]; [reflexivity|]. cbn [default_chain]. rewrite HC.
  unfold single_terminating at 1. cbn [n_links sget]. rewrite String.eqb_refl. cbn [l_default]. fold e. rewrite HE.
  cbn [firstn]. f_equal. destruct k; [reflexivity|]. cbn [default_chain]. rewrite HE. reflexivity.
Qed.

Section Started.
Variables (s : ast) (n : string) (os : list qop).
Hypothesis Hq : queue_of s n = Some [].
Hypothesis Hno : forall p r, nth_error (a_procs s) p = Some r -> r_net r <> n.
Hypothesis Hf : Forall (elsewhere n) os.
Let p := List.length (a_procs s).

Lemma run_single_looping t : sget n (a_nets s) = Some (single_looping t) ->
  starts p s (QLoop n (Some t) :: os) = repeat t (S (finishes p os)).
Proof.
  intro Hn. unfold p. rewrite (loop_start s n _ t os Hn Hq Hno); [|cbn; rewrite String.eqb_refl; discriminate|exact Hf].
  rewrite chain_single. reflexivity.
Qed.
Lemma run_single_terminating t : sget n (a_nets s) = Some (single_terminating t) ->
  starts p s (QLoop n (Some t) :: os) = firstn (S (finishes p os)) [t; (t ++ "_FINAL")%string].
Proof.
  intro Hn. unfold p. rewrite (loop_start s n _ t os Hn Hq Hno); [rewrite chain_single_term; reflexivity| |exact Hf].
  unfold single_terminating. cbn [n_classes]. rewrite sget_sset. destruct (String.eqb _ t); [discriminate|].
  cbn. rewrite String.eqb_refl. discriminate.
Qed.
Lemma run_ordered_terminating name t ts : sget n (a_nets s) = Some (ordered_terminating name (t :: ts)) ->
  NoDup (t :: ts) -> ~ In (name ++ "_TERMINATING")%string (t :: ts) ->
  starts p s (QLoop n (Some t) :: os)
    = firstn (S (finishes p os)) ((t :: ts) ++ [(name ++ "_TERMINATING")%string]).
Proof.
  intros Hn Hnd Hni. unfold p. rewrite (loop_start s n _ t os Hn Hq Hno); [| |exact Hf].
  - rewrite (chain_terminating name (t :: ts) [] t ts); [reflexivity|reflexivity|exact Hnd|exact Hni].
  - destruct (ordered_at (Some (name ++ "_TERMINATING")%string) t [] t ts (mkNet [] [])) as [_ HC].
    + exact Hnd.
    + intro X. injection X as X. apply Hni. left. symmetry. exact X.
    + cbn [app] in HC. change (ordered (Some (name ++ "_TERMINATING")%string) t (t :: ts) (mkNet [] [])) with (ordered_terminating name (t :: ts)) in HC.
      rewrite HC. discriminate.
Qed.
Lemma run_ordered_loop t ts : sget n (a_nets s) = Some (ordered_loop (t :: ts)) -> NoDup (t :: ts) ->
  starts p s (QLoop n (Some t) :: os) = cycled (t :: ts) (S (finishes p os)).
Proof.
  intros Hn Hnd. unfold p. rewrite (loop_start s n _ t os Hn Hq Hno); [| |exact Hf].
  - rewrite (chain_loop (t :: ts) Hnd _ [] t ts eq_refl). unfold cycled. cbn [seq map].
    rewrite Nat.mod_0_l by (cbn; lia). reflexivity.
  - destruct (ordered_at None t [] t ts (mkNet [] [])) as [_ HC]; [exact Hnd|discriminate|].
    cbn [app] in HC. change (ordered None t (t :: ts) (mkNet [] [])) with (ordered_loop (t :: ts)) in HC. rewrite HC. discriminate.
Qed.
End Started.

(** A terminal task cannot end without raising. *)
Lemma terminal_never_ends s p n d t : in_task s p n d t -> sget t (n_classes d) = Some KTerminal ->
  snd (qstep s (QFinish p)) = QSimErr.
Proof. unfold in_task. intros H Ht. cbn. rewrite H. cbn. rewrite Ht. reflexivity. Qed.

Lemma suggestion_can_be_added s base d : exists x,
  snd (qstep s (QSuggest base)) = QName (Some x) /\
  snd (qstep s (QHas x)) = QBool false /\ snd (qstep s (QAdd x d)) = QOk /\
  (snd (qstep s (QHas base)) = QBool false -> x = base) /\
  (x = base \/ exists j, (0 < j)%nat /\ x = numbered base j).
Proof.
  destruct (suggest_fresh (a_nets s) base) as (x & A & B & C & D). exists x. cbn [qstep snd]. rewrite A, B. cbn [snd fst].
  repeat split; auto. intro H. apply D. destruct (sget base (a_nets s)); [discriminate|reflexivity].
Qed.

(** Following defaults that are among the allowed tasks stays within the links. *)
Lemma default_is_feasible s p n d t :
  (forall k l x, sget k (n_links d) = Some l -> l_default l = Some x -> In x (l_allowed l)) ->
  in_task s p n d t -> queue_of s n = Some [] ->
  forall t', snd (qstep s (QFinish p)) = QStarted t' -> is_feasible d t t' = Some true.
Proof.
  intros Hd Hin Hq t' H. unfold in_task in Hin.
  destruct (finish_cases s p _ t Hin eq_refl) as [E|[E|(q & t2 & l & Hq2 & Hl & Ht & E)]]; rewrite E in H; try discriminate.
  cbn [r_net r_def] in *. rewrite Hq in Hq2. injection Hq2 as <-. destruct Ht as [Ht|[_ Ht]]; [discriminate|].
  rewrite (enter_ok s p (mkProc n d (Some t)) t2 [] Hq (or_intror eq_refl)) in H. cbn in H.
  destruct (sget t2 (n_classes d)); [|discriminate]. injection H as <-.
  unfold is_feasible. rewrite Hl. f_equal. unfold smem. apply existsb_exists. exists t2. split; [|apply String.eqb_refl].
  apply (Hd t l t2 Hl Ht).
Qed.
