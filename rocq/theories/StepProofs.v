(** Proofs about the stepped motion manager. *)
From Verif Require Import Common StepModel StepSpec.

Lemma last_any : forall {A} (l : list A) a d d', last (a :: l) d = last (a :: l) d'.
Proof.
  intros A. induction l as [|b l IH]; intros a d d'; [reflexivity|].
  change (last (b :: l) d = last (b :: l) d'). apply IH.
Qed.
Lemma alternates_app : forall l1 l2 n,
  alternates n (l1 ++ l2) <-> alternates n l1 /\ alternates (negb (last l1 (negb n))) l2.
Proof.
  induction l1 as [|a l1 IH]; intros l2 n.
  - cbn [app alternates last]. rewrite negb_involutive. tauto.
  - change ((a :: l1) ++ l2) with (a :: (l1 ++ l2)). cbn [alternates].
    rewrite IH. destruct l1 as [|b l1].
    + cbn [last alternates]. split.
      * intros [-> [_ H]]. rewrite negb_involutive in H. auto.
      * intros [[-> _] H]. rewrite negb_involutive. auto.
    + assert (E : forall q1 q2, last (a :: b :: l1) q1 = last (b :: l1) q2).
      { intros q1 q2. apply (last_any l1 b q1 q2). }
      rewrite (E (negb n) (negb (negb n))). tauto.
Qed.
Lemma last_app' : forall {A} (l1 l2 : list A) d, last (l1 ++ l2) d = last l2 (last l1 d).
Proof.
  intros A l1. induction l1 as [|a l1 IH]; intros l2 d; [reflexivity|].
  destruct l1 as [|b l1].
  - cbn [app last]. destruct l2 as [|c l2]; [reflexivity|].
    change (last (a :: c :: l2) d) with (last (c :: l2) d).
    apply last_any.
  - change (last ((b :: l1) ++ l2) d = last l2 (last (b :: l1) d)). apply IH.
Qed.
Lemma told_app : forall s d l1 l2, told s d (l1 ++ l2) = told s d l1 ++ told s d l2.
Proof.
  intros s d. induction l1 as [|o l1 IH]; intro l2; [reflexivity|].
  destruct o; cbn [app told]; try (destruct (_ && _)); cbn [app]; rewrite IH; reflexivity.
Qed.
Lemma pair_eqb_eq : forall a b, pair_eqb a b = true <-> a = b.
Proof.
  intros [a1 a2] [b1 b2]. unfold pair_eqb. cbn [fst snd].
  rewrite andb_true_iff, !Nat.eqb_eq. split; [intros [-> ->]; reflexivity|intro H; inversion H; auto].
Qed.
Lemma seen_in : forall v s d, seen v s d = true <-> In (s, d) v.
Proof.
  intros v s d. unfold seen. rewrite existsb_exists. split.
  - intros [x [Hx E]]. apply pair_eqb_eq in E. subst. exact Hx.
  - intro H. exists (s, d). split; [exact H|]. apply pair_eqb_eq. reflexivity.
Qed.
Lemma seen_out : forall v s d, seen v s d = false <-> ~ In (s, d) v.
Proof. intros. rewrite <- seen_in. destruct (seen v s d); split; congruence. Qed.
Lemma seen_app : forall v w s d, seen (v ++ w) s d = seen v s d || seen w s d.
Proof. intros. unfold seen. apply existsb_app. Qed.
Lemma seen_filter : forall f v s d, seen (filter f v) s d = seen v s d && f (s, d).
Proof.
  intros f v s d. destruct (seen (filter f v) s d) eqn:E.
  - apply seen_in, filter_In in E. destruct E as [E F]. apply seen_in in E. rewrite E, F. reflexivity.
  - apply seen_out in E. destruct (seen v s d) eqn:F; [|reflexivity]. cbn [andb].
    destruct (f (s, d)) eqn:G; [|reflexivity]. exfalso. apply E, filter_In. split; [apply seen_in; exact F|exact G].
Qed.
Lemma memn_in : forall k l, memn k l = true <-> In k l.
Proof.
  intros k l. unfold memn. rewrite existsb_exists. split.
  - intros [x [Hx E]]. apply Nat.eqb_eq in E. subst. exact Hx.
  - intro H. exists k. split; [exact H|apply Nat.eqb_refl].
Qed.

(** What was told leads from one view to another. *)
Definition leads (v : list (nat * nat)) (l : list out) (v' : list (nat * nat)) : Prop :=
  forall s d, alternates (negb (seen v s d)) (told s d l) /\ last (told s d l) (seen v s d) = seen v' s d.
Lemma leads_nil : forall v, leads v [] v.
Proof. intros v s d. split; exact I || reflexivity. Qed.
Lemma leads_app : forall v l v1 l' v2, leads v l v1 -> leads v1 l' v2 -> leads v (l ++ l') v2.
Proof.
  intros v l v1 l' v2 H1 H2 s d. destruct (H1 s d) as [A1 L1]. destruct (H2 s d) as [A2 L2].
  rewrite told_app. split.
  - apply alternates_app. split; [exact A1|]. rewrite negb_involutive, L1. exact A2.
  - rewrite last_app', L1. exact L2.
Qed.
Lemma update_leads : forall v s d b, leads v (snd (update v s d b)) (fst (update v s d b)).
Proof.
  intros v s d b s' d'. unfold update.
  destruct b; destruct (seen v s d) eqn:E; cbn [fst snd told]; try (split; exact I || reflexivity);
    destruct (Nat.eqb s' s && Nat.eqb d' d) eqn:Q;
    [apply andb_true_iff in Q; destruct Q as [Q1 Q2]; apply Nat.eqb_eq in Q1, Q2; subst s' d' | |
     apply andb_true_iff in Q; destruct Q as [Q1 Q2]; apply Nat.eqb_eq in Q1, Q2; subst s' d' | ].
  - rewrite E. split; [split; [reflexivity|exact I]|]. rewrite seen_app. unfold seen at 2. cbn [existsb].
    rewrite (proj2 (pair_eqb_eq (s, d) (s, d)) eq_refl), orb_true_r. reflexivity.
  - split; [exact I|]. cbn [last]. rewrite seen_app. unfold seen at 3. cbn [existsb]. unfold pair_eqb. cbn [fst snd].
    rewrite Q. rewrite !orb_false_r. reflexivity.
  - rewrite E. split; [split; [reflexivity|exact I]|]. unfold forget. rewrite seen_filter.
    rewrite (proj2 (pair_eqb_eq (s, d) (s, d)) eq_refl). rewrite andb_false_r. reflexivity.
  - split; [exact I|]. cbn [last]. unfold forget. rewrite seen_filter. unfold pair_eqb. cbn [fst snd].
    rewrite (Nat.eqb_sym s s'), (Nat.eqb_sym d d'), Q. rewrite andb_true_r. reflexivity.
Qed.
Lemma update_nodup : forall v s d b, NoDup v -> NoDup (fst (update v s d b)).
Proof.
  intros v s d b H. unfold update. destruct b; destruct (seen v s d) eqn:E; cbn [fst]; auto.
  - apply seen_out in E. apply NoDup_remove_1 with (a := (s, d)) (l' := []) || idtac.
    clear - H E. induction v as [|a v IH]; cbn [app].
    + constructor; [intros []|constructor].
    + inversion H as [|? ? Ha Hv]; subst. constructor.
      * intro X. apply in_app_iff in X. destruct X as [X|[X|[]]]; [auto|]. apply E. left. auto.
      * apply IH; auto. intro X. apply E. right. exact X.
  - apply NoDup_filter. exact H.
Qed.
Lemma update_seen : forall v s d b s' d',
  seen (fst (update v s d b)) s' d' = if Nat.eqb s' s && Nat.eqb d' d then b else seen v s' d'.
Proof.
  intros v s d b s' d'. pose proof (update_leads v s d b s' d') as [_ H]. rewrite <- H. clear H.
  unfold update.
  destruct b; destruct (seen v s d) eqn:E; cbn [snd told last];
    destruct (Nat.eqb s' s && Nat.eqb d' d) eqn:Q; try reflexivity;
    apply andb_true_iff in Q; destruct Q as [Q1 Q2]; apply Nat.eqb_eq in Q1, Q2; subst s' d'; exact E.
Qed.

Section P.
Variable L : Type.
Variable dist : L -> L -> Q.
Variable check : nat -> option (L -> bool).
Notation st := (st L).
Notation detect_dist := (detect_dist L dist check).
Notation look_targets := (look_targets L dist check).
Notation look := (look L dist check).
Notation run_detectable := (run_detectable L dist check).

Lemma look_targets_props : forall (x : st) s ds v, NoDup v ->
  let r := look_targets x s ds v in
  leads v (snd r) (fst r) /\ NoDup (fst r) /\
  (forall s' d', seen (fst r) s' d' =
     if Nat.eqb s' s && (memn d' ds && negb (Nat.eqb d' s)) then detect_dist x s d' else seen v s' d').
Proof.
  intros x s. induction ds as [|d ds IH]; intros v N; cbn [StepModel.look_targets].
  - split; [apply leads_nil|]. split; [exact N|]. intros s' d'. cbn [fst memn existsb andb]. rewrite andb_false_r. reflexivity.
  - destruct (Nat.eqb d s) eqn:E.
    + destruct (IH v N) as [A [B C]]. split; [exact A|]. split; [exact B|]. intros s' d'. rewrite C.
      unfold memn. cbn [existsb]. destruct (Nat.eqb d' d) eqn:F; [|reflexivity].
      apply Nat.eqb_eq in F, E. subst d' d. rewrite Nat.eqb_refl. cbn [negb]. rewrite !andb_false_r. reflexivity.
    + pose proof (update_leads v s d (detect_dist x s d)) as U1.
      pose proof (update_nodup v s d (detect_dist x s d) N) as U2.
      pose proof (update_seen v s d (detect_dist x s d)) as U3.
      destruct (update v s d (detect_dist x s d)) as [v1 o1]. cbn [fst snd] in *.
      destruct (IH v1 U2) as [A [B C]]. destruct (look_targets x s ds v1) as [v2 o2]. cbn [fst snd] in *.
      split; [eapply leads_app; eassumption|]. split; [exact B|]. intros s' d'. rewrite C, U3.
      unfold memn. cbn [existsb]. destruct (Nat.eqb s' s) eqn:G; cbn [andb]; [|reflexivity].
      destruct (Nat.eqb d' d) eqn:F; cbn [orb andb].
      * apply Nat.eqb_eq in F. subst d'. rewrite E. cbn [negb]. rewrite andb_true_r.
        destruct (existsb (Nat.eqb d) ds); reflexivity.
      * reflexivity.
Qed.
Lemma look_props : forall (x : st) ds ss v, NoDup v ->
  let r := look x ss ds v in
  leads v (snd r) (fst r) /\ NoDup (fst r) /\
  (forall s' d', seen (fst r) s' d' =
     if memn s' ss && (memn d' ds && negb (Nat.eqb d' s')) then detect_dist x s' d' else seen v s' d').
Proof.
  intros x ds. induction ss as [|s ss IH]; intros v N; cbn [StepModel.look].
  - split; [apply leads_nil|]. split; [exact N|]. reflexivity.
  - pose proof (look_targets_props x s ds v N) as [A1 [B1 C1]].
    destruct (look_targets x s ds v) as [v1 o1]. cbn [fst snd] in *.
    destruct (IH v1 B1) as [A2 [B2 C2]]. destruct (look x ss ds v1) as [v2 o2]. cbn [fst snd] in *.
    split; [eapply leads_app; eassumption|]. split; [exact B2|]. intros s' d'. rewrite C2, C1.
    change (memn s' (s :: ss)) with (Nat.eqb s' s || memn s' ss).
    destruct (Nat.eqb s' s) eqn:G; cbn [andb orb].
    + apply Nat.eqb_eq in G. subst s'.
      destruct (memn d' ds && negb (Nat.eqb d' s)); rewrite ?andb_true_r, ?andb_false_r; [|reflexivity].
      destruct (memn s ss); reflexivity.
    + reflexivity.
Qed.

(** The invariant: no pair is held twice, and what is in view can be detected. *)
Definition inv (x : st) : Prop :=
  NoDup (in_view L x) /\ forall s d, seen (in_view L x) s d = true -> test_detect L x d = true.
Definition asked (x : st) (req : option nat) : list nat :=
  filter (test_detect L x) (match req with Some d => [d] | None => detectables L x end).
Lemma run_detectable_known : forall x req,
  (forall d, In d (asked x req) -> In d (detectables L x)) ->
  run_detectable x req = (with_view L x (fst (look x (sensors L x) (asked x req) (in_view L x))),
                          snd (look x (sensors L x) (asked x req) (in_view L x))).
Proof.
  intros x req H. unfold StepModel.run_detectable. fold (asked x req).
  replace (forallb (fun d => memn d (detectables L x)) (asked x req)) with true.
  - destruct (look _ _ _ _) as [v o]. reflexivity.
  - symmetry. apply forallb_forall. intros d Hd. apply memn_in. auto.
Qed.
Lemma run_detectable_unknown : forall x req d,
  In d (asked x req) -> ~ In d (detectables L x) -> run_detectable x req = (x, [KeyError]).
Proof.
  intros x req d H N. unfold StepModel.run_detectable. fold (asked x req).
  replace (forallb (fun d => memn d (detectables L x)) (asked x req)) with false; [reflexivity|].
  symmetry. apply not_true_iff_false. intro F. rewrite forallb_forall in F. apply N, memn_in, F, H.
Qed.
Lemma with_view_inv : forall x v, NoDup v ->
  (forall s d, seen v s d = true -> test_detect L x d = true) -> inv (with_view L x v).
Proof. intros x v N H. split; [exact N|exact H]. Qed.
Lemma run_detectable_props : forall x req, inv x ->
  let r := run_detectable x req in
  leads (in_view L x) (snd r) (in_view L (fst r)) /\ inv (fst r) /\
  pos L (fst r) = pos L x /\ radius L (fst r) = radius L x /\ detect L (fst r) = detect L x /\
  sensors L (fst r) = sensors L x /\ detectables L (fst r) = detectables L x /\ now L (fst r) = now L x /\
  is_running L (fst r) = is_running L x /\ loop L (fst r) = loop L x /\ pending L (fst r) = pending L x.
Proof.
  intros x req I. cbv zeta.
  destruct (forallb (fun d => memn d (detectables L x)) (asked x req)) eqn:F.
  - rewrite run_detectable_known; [|intros d Hd; rewrite forallb_forall in F; apply memn_in, F, Hd].
    destruct I as [N T].
    pose proof (look_props x (asked x req) (sensors L x) (in_view L x) N) as [A [B C]].
    cbv zeta in A, B, C. cbn [fst snd]. split; [exact A|]. split; [|repeat split].
    apply with_view_inv; [exact B|]. intros s d. rewrite C.
    destruct (memn s (sensors L x) && (memn d (asked x req) && negb (Nat.eqb d s))) eqn:G; [|apply T].
    intros _. apply andb_true_iff in G. destruct G as [_ G]. apply andb_true_iff in G. destruct G as [G _].
    apply memn_in, filter_In in G. apply G.
  - assert (E : run_detectable x req = (x, [KeyError])).
    { unfold StepModel.run_detectable. fold (asked x req). rewrite F. reflexivity. }
    rewrite E. cbn [fst snd]. split; [|split; [exact I|repeat split]].
    intros s d. split; exact Logic.I || reflexivity.
Qed.
Lemma gone_leads : forall d v, NoDup v ->
  leads v (map (fun sd => Exited (fst sd) (snd sd)) (filter (fun sd => Nat.eqb (snd sd) d) v))
        (filter (fun sd => negb (Nat.eqb (snd sd) d)) v).
Proof.
  intros d v N s e. rewrite seen_filter. cbn [snd].
  assert (T : told s e (map (fun sd => Exited (fst sd) (snd sd)) (filter (fun sd => Nat.eqb (snd sd) d) v))
              = if seen v s e && Nat.eqb e d then [false] else []).
  { induction v as [|[s1 d1] v IH]; [reflexivity|].
    inversion N as [|? ? Ha Nv]; subst. specialize (IH Nv).
    cbn [filter snd]. unfold seen. cbn [existsb]. fold (seen v s e). unfold pair_eqb. cbn [fst snd].
    destruct (Nat.eqb d1 d) eqn:D.
    - cbn [map told fst snd]. destruct (Nat.eqb s s1 && Nat.eqb e d1) eqn:G.
      + apply andb_true_iff in G. destruct G as [G1 G2]. apply Nat.eqb_eq in G1, G2. subst s1 d1.
        rewrite IH. apply seen_out in Ha. rewrite Ha, D. reflexivity.
      + exact IH.
    - rewrite IH. destruct (Nat.eqb s s1 && Nat.eqb e d1) eqn:G; [|reflexivity].
      apply andb_true_iff in G. destruct G as [G1 G2]. apply Nat.eqb_eq in G1, G2. subst s1 d1.
      rewrite D, !andb_false_r. reflexivity. }
  rewrite T. destruct (seen v s e) eqn:S; destruct (Nat.eqb e d) eqn:D; cbn [andb negb alternates last]; auto.
Qed.

Variable timestep : Q.
Variable max_empty : nat.
Notation step := (step L dist check timestep max_empty).
Notation run := (run L dist check timestep max_empty).

Lemma step_leads : forall x o, inv x -> leads (in_view L x) (snd (step x o)) (in_view L (fst (step x o))) /\ inv (fst (step x o)).
Proof.
  intros x o I. destruct o as [k p|k r|k b|k|k|k|k| | |e|k|t]; cbn [StepModel.step fst snd];
    try (split; [apply leads_nil|exact I]).
  - destruct (detect L x k) as [b0|] eqn:D; [|split; [apply leads_nil|exact I]].
    set (x' := mkSt L _ _ _ _ _ _ _ _ _ _).
    destruct b.
    + assert (I' : inv x').
      { destruct I as [N T]. split; [exact N|]. intros s d H. specialize (T s d H).
        unfold test_detect in *. cbn [detect x']. unfold upd. destruct (Nat.eqb d k); [reflexivity|exact T]. }
      pose proof (run_detectable_props x' (Some k) I') as H. cbv zeta in H. destruct H as [A [B _]].
      split; [exact A|exact B].
    + unfold not_detectable. cbn [fst snd]. split; [apply gone_leads; apply I|].
      destruct I as [N T]. apply with_view_inv; [apply NoDup_filter; exact N|].
      intros s d. rewrite seen_filter. cbn [snd]. intro H. apply andb_true_iff in H. destruct H as [H1 H2].
      specialize (T s d H1). unfold test_detect in *. cbn [detect x']. unfold upd.
      destruct (Nat.eqb d k); [discriminate|exact T].
  - destruct (pending L x) as [|p]; [split; [apply leads_nil|exact I]|].
    destruct (is_running L x); split; try apply leads_nil; exact I.
  - destruct (loop L x) as [[n due]|]; [|split; [apply leads_nil|exact I]].
    destruct (Qeqb due (now L x)); [|split; [apply leads_nil|exact I]].
    pose proof (run_detectable_props x None I) as H. cbv zeta in H. destruct H as [A [B _]].
    destruct (run_detectable x None) as [x' o']. cbn [fst snd in_view] in *. split; [exact A|exact B].
  - pose proof (run_detectable_props x (Some k) I) as H. cbv zeta in H. destruct H as [A [B _]]. split; [exact A|exact B].
Qed.
Lemma run_cons : forall x o ops, run x (o :: ops) =
  (fst (run (fst (step x o)) ops), snd (step x o) ++ snd (run (fst (step x o)) ops)).
Proof.
  intros. cbn [StepModel.run]. destruct (step x o) as [x1 o1]. cbn [fst snd]. destruct (run x1 ops). reflexivity.
Qed.
Lemma run_leads : forall ops x, inv x -> leads (in_view L x) (snd (run x ops)) (in_view L (fst (run x ops))) /\ inv (fst (run x ops)).
Proof.
  induction ops as [|o ops IH]; intros x I; [split; [apply leads_nil|exact I]|].
  rewrite run_cons. cbn [fst snd]. destruct (step_leads x o I) as [A B]. destruct (IH _ B) as [C D].
  split; [eapply leads_app; eassumption|exact D].
Qed.
Lemma run_app : forall a b x, run x (a ++ b) =
  (fst (run (fst (run x a)) b), snd (run x a) ++ snd (run (fst (run x a)) b)).
Proof.
  induction a as [|o a IH]; intros b x; [change (run x b = (fst (run x b), [] ++ snd (run x b))); destruct (run x b); reflexivity|].
  change ((o :: a) ++ b) with (o :: (a ++ b)). rewrite !run_cons. rewrite IH. cbn [fst snd]. rewrite app_assoc. reflexivity.
Qed.
Lemma init_inv : forall p r d, inv (init L p r d).
Proof. intros. split; [constructor|]. intros s e H. discriminate H. Qed.
Lemma test_detect_spec : forall x d, test_detect L x d = true <-> can_be_detected L x d.
Proof. intros x d. unfold test_detect, can_be_detected. destruct (detect L x d) as [[|]|]; split; congruence. Qed.
Lemma detect_dist_spec : forall x s d, detect_dist x s d = true <-> in_range L dist check x s d.
Proof.
  intros x s d. unfold StepModel.detect_dist, in_range. destruct (check s); [reflexivity|]. apply Qleb_le.
Qed.
Lemma considered_seen : forall p r d ops s e,
  considered s e (snd (run (init L p r d) ops)) <-> seen (in_view L (fst (run (init L p r d) ops))) s e = true.
Proof.
  intros. destruct (run_leads ops _ (init_inv p r d)) as [A _]. destruct (A s e) as [_ E].
  unfold considered. cbn [in_view init] in E. change (seen [] s e) with false in E. rewrite E. tauto.
Qed.

(** What one check of [req] does. *)
Lemma check_seen : forall x req s e, inv x -> In s (sensors L x) -> s <> e ->
  (forall d, In d (asked x req) -> In d (detectables L x)) ->
  (match req with Some d => e = d | None => In e (detectables L x) end) ->
  seen (in_view L (fst (run_detectable x req))) s e = true <->
  can_be_detected L x e /\ in_range L dist check x s e.
Proof.
  intros x req s e I Hs Hne Hk He. rewrite run_detectable_known by exact Hk. cbn [fst in_view with_view].
  destruct I as [N T]. pose proof (look_props x (asked x req) (sensors L x) (in_view L x) N) as [_ [_ C]]. cbv zeta in C.
  rewrite C. rewrite (proj2 (memn_in _ _) Hs). rewrite (proj2 (Nat.eqb_neq e s)) by auto. cbn [negb andb].
  rewrite andb_true_r. rewrite <- test_detect_spec, <- detect_dist_spec.
  destruct (test_detect L x e) eqn:D.
  - assert (M : memn e (asked x req) = true).
    { apply memn_in, filter_In. split; [|exact D]. destruct req; [subst; left; reflexivity|exact He]. }
    rewrite M. tauto.
  - assert (M : memn e (asked x req) = false).
    { apply not_true_iff_false. intro M. apply memn_in, filter_In in M. destruct M; congruence. }
    rewrite M. split; [|intros [? _]; discriminate]. intro S. rewrite (T s e S) in D. discriminate.
Qed.
Lemma asked_all : forall x d, In d (asked x None) -> In d (detectables L x).
Proof. intros x d H. apply filter_In in H. apply H. Qed.

(** Whatever is told is right at that moment. *)
Lemma told_in : forall s e l, In true (told s e l) <-> In (Entered s e) l.
Proof.
  intros s e. induction l as [|o l IH]; [tauto|]. destruct o as [s' d'|s' d'|]; cbn [told].
  - destruct (Nat.eqb s s' && Nat.eqb e d') eqn:G.
    + apply andb_true_iff in G. destruct G as [G1 G2]. apply Nat.eqb_eq in G1, G2. subst. cbn [In]. tauto.
    + rewrite IH. cbn [In]. split; [tauto|]. intros [E|H]; [|exact H]. inversion E; subst. rewrite !Nat.eqb_refl in G. discriminate.
  - destruct (Nat.eqb s s' && Nat.eqb e d'); cbn [In]; rewrite IH; split; [intros [H|H]; [discriminate|tauto]|intros [H|H]; [discriminate|tauto]|tauto|intros [H|H]; [discriminate|tauto]].
  - rewrite IH. cbn [In]. split; [tauto|]. intros [H|H]; [discriminate|exact H].
Qed.
Lemma told_out : forall s e l, In false (told s e l) <-> In (Exited s e) l.
Proof.
  intros s e. induction l as [|o l IH]; [tauto|]. destruct o as [s' d'|s' d'|]; cbn [told].
  - destruct (Nat.eqb s s' && Nat.eqb e d'); cbn [In]; rewrite IH; split; [intros [H|H]; [discriminate|tauto]|intros [H|H]; [discriminate|tauto]|tauto|intros [H|H]; [discriminate|tauto]].
  - destruct (Nat.eqb s s' && Nat.eqb e d') eqn:G.
    + apply andb_true_iff in G. destruct G as [G1 G2]. apply Nat.eqb_eq in G1, G2. subst. cbn [In]. tauto.
    + rewrite IH. cbn [In]. split; [tauto|]. intros [E|H]; [|exact H]. inversion E; subst. rewrite !Nat.eqb_refl in G. discriminate.
  - rewrite IH. cbn [In]. split; [tauto|]. intros [H|H]; [discriminate|exact H].
Qed.
Lemma look_targets_told : forall x s ds v s' e,
  (In (Entered s' e) (snd (look_targets x s ds v)) -> s' = s /\ In e ds /\ e <> s /\ detect_dist x s e = true) /\
  (In (Exited s' e) (snd (look_targets x s ds v)) -> s' = s /\ In e ds /\ e <> s /\ detect_dist x s e = false).
Proof.
  intros x s. induction ds as [|d ds IH]; intros v s' e; cbn [StepModel.look_targets]; [split; intros []|].
  destruct (Nat.eqb d s) eqn:E.
  - destruct (IH v s' e) as [A B]. split; intro H; [apply A in H|apply B in H]; destruct H as [? [? ?]]; repeat split; try tauto; right; assumption.
  - apply Nat.eqb_neq in E. unfold update.
    destruct (detect_dist x s d) eqn:D; destruct (seen v s d) eqn:S;
      match goal with |- context [look_targets x s ds ?w] => destruct (IH w s' e) as [A B]; destruct (look_targets x s ds w) as [v2 o2] end;
      cbn [fst snd app In] in *;
      (split; intro H;
       [first [destruct H as [H|H]; [inversion H; subst; auto 6|apply A in H]|apply A in H]
       |first [destruct H as [H|H]; [inversion H; subst; auto 6|apply B in H]|apply B in H]]);
      try (destruct H as [? [? [? ?]]]; repeat split; auto; fail).
Qed.
Lemma look_told : forall x ds ss v s' e,
  (In (Entered s' e) (snd (look x ss ds v)) -> In s' ss /\ In e ds /\ e <> s' /\ detect_dist x s' e = true) /\
  (In (Exited s' e) (snd (look x ss ds v)) -> In s' ss /\ In e ds /\ e <> s' /\ detect_dist x s' e = false).
Proof.
  intros x ds. induction ss as [|s ss IH]; intros v s' e; cbn [StepModel.look]; [split; intros []|].
  destruct (look_targets_told x s ds v s' e) as [A1 B1]. destruct (look_targets x s ds v) as [v1 o1]. cbn [fst snd] in *.
  destruct (IH v1 s' e) as [A2 B2]. destruct (look x ss ds v1) as [v2 o2]. cbn [fst snd] in *.
  split; intro H; apply in_app_iff in H; destruct H as [H|H].
  - destruct (A1 H) as [? [? [? ?]]]. subst. repeat split; auto. left. reflexivity.
  - destruct (A2 H) as [? [? [? ?]]]. repeat split; auto. right. assumption.
  - destruct (B1 H) as [? [? [? ?]]]. subst. repeat split; auto. left. reflexivity.
  - destruct (B2 H) as [? [? [? ?]]]. repeat split; auto. right. assumption.
Qed.
Lemma run_detectable_told : forall x req s e,
  (In (Entered s e) (snd (run_detectable x req)) ->
     In s (sensors L x) /\ In e (detectables L x) /\ e <> s /\ can_be_detected L x e /\ in_range L dist check x s e) /\
  (In (Exited s e) (snd (run_detectable x req)) -> can_be_detected L x e /\ ~ in_range L dist check x s e).
Proof.
  intros x req s e.
  destruct (forallb (fun d => memn d (detectables L x)) (asked x req)) eqn:F.
  - assert (K : forall d, In d (asked x req) -> In d (detectables L x)).
    { intros d Hd; rewrite forallb_forall in F; apply memn_in, F, Hd. }
    rewrite run_detectable_known by exact K. cbn [snd].
    destruct (look_told x (asked x req) (sensors L x) (in_view L x) s e) as [A B].
    split; intro H; [destruct (A H) as [? [M [? D]]]|destruct (B H) as [? [M [? D]]]].
    + repeat split; auto; [apply test_detect_spec; apply filter_In in M; apply M|apply detect_dist_spec; exact D].
    + split; [apply test_detect_spec; apply filter_In in M; apply M|].
      rewrite <- detect_dist_spec. congruence.
  - assert (E : run_detectable x req = (x, [KeyError])).
    { unfold StepModel.run_detectable. fold (asked x req). rewrite F. reflexivity. }
    rewrite E. cbn [snd]. split; intros [H|[]]; discriminate.
Qed.
Lemma step_told : forall x o s e,
  (In (Entered s e) (snd (step x o)) ->
     let x' := fst (step x o) in
     In s (sensors L x') /\ In e (detectables L x') /\ e <> s /\ can_be_detected L x' e /\ in_range L dist check x' s e) /\
  (In (Exited s e) (snd (step x o)) ->
     let x' := fst (step x o) in ~ can_be_detected L x' e \/ ~ in_range L dist check x' s e).
Proof.
  assert (K : forall x req s e, inv x \/ True ->
    (In (Entered s e) (snd (run_detectable x req)) -> let x' := fst (run_detectable x req) in
       In s (sensors L x') /\ In e (detectables L x') /\ e <> s /\ can_be_detected L x' e /\ in_range L dist check x' s e) /\
    (In (Exited s e) (snd (run_detectable x req)) -> let x' := fst (run_detectable x req) in
       ~ can_be_detected L x' e \/ ~ in_range L dist check x' s e)).
  { intros x req s e _. destruct (run_detectable_told x req s e) as [A B].
    assert (W : exists v, fst (run_detectable x req) = with_view L x v).
    { unfold StepModel.run_detectable. destruct (forallb _ _).
      - destruct (look _ _ _ _) as [v o]. exists v. reflexivity.
      - exists (in_view L x). destruct x. reflexivity. }
    destruct W as [v W]. rewrite W. cbv zeta. split; intro H; [exact (A H)|right; apply (B H)]. }
  intros x o s e. destruct o as [k p|k r|k b|k|k|k|k| | |em|k|t]; cbn [StepModel.step fst snd]; try (split; intros []; fail).
  - destruct (detect L x k) as [b0|] eqn:D; [|split; intros []].
    set (x' := mkSt L _ _ _ _ _ _ _ _ _ _). destruct b; [apply K; right; exact I|].
    unfold not_detectable. cbn [fst snd]. split; intro H; apply in_map_iff in H; destruct H as [sd [E H]]; [discriminate|].
    inversion E; subst. apply filter_In in H. destruct H as [_ H]. left.
    unfold can_be_detected. cbn [detect with_view x']. unfold upd. rewrite H. intro X. apply X. reflexivity.
  - destruct (pending L x) as [|p]; [split; intros []|]. destruct (is_running L x); split; intros [].
  - destruct (loop L x) as [[n due]|]; [|split; intros []].
    destruct (Qeqb due (now L x)); [|split; intros []].
    pose proof (K x None s e (or_intror I)) as H. destruct (run_detectable x None) as [x' o']. cbn [fst snd] in *. exact H.
  - apply K. right. exact I.
Qed.

(** Times. *)
Definition tinv (x : st) : Prop :=
  (is_running L x = false -> loop L x = None) /\
  (forall n due, loop L x = Some (n, due) -> now L x <= due).
Hypothesis timestep_ok : 0 <= timestep.
Definition same_loop (x x' : st) : Prop :=
  is_running L x' = is_running L x /\ loop L x' = loop L x.
Lemma run_detectable_view : forall x req, exists v, fst (run_detectable x req) = with_view L x v.
Proof.
  intros. unfold StepModel.run_detectable. destruct (forallb _ _).
  - destruct (look _ _ _ _) as [v o]. exists v. reflexivity.
  - exists (in_view L x). destruct x. reflexivity.
Qed.
Lemma step_loop : forall x o,
  let x' := fst (step x o) in
  match checks_now L x o with
  | Some e => exists n due, loop L x = Some (n, due) /\ due == now L x /\ now L x' = now L x /\ is_running L x' = is_running L x /\
      loop L x' = (let n' := if e then S n else 0%nat in if e && (max_empty <=? n')%nat then None else Some (n', now L x + timestep))
  | None => if begins_now L x o
            then is_running L x = false /\ is_running L x' = true /\ now L x' = now L x /\ loop L x' = Some (0%nat, now L x + timestep)
            else same_loop x x' /\ now L x <= now L x' /\ (forall n due, loop L x = Some (n, due) -> now L x <= due -> now L x' <= due)
  end.
Proof.
  intros x o. cbv zeta.
  assert (S : forall v, same_loop x (with_view L x v) /\ now L x <= now L (with_view L x v) /\
    (forall n due, loop L x = Some (n, due) -> now L x <= due -> now L (with_view L x v) <= due)).
  { intro v. split; [split; reflexivity|]. split; [apply Qle_refl|]. intros n due _ H. exact H. }
  destruct o as [k p|k r|k b|k|k|k|k| | |em|k|t]; cbn [StepModel.step checks_now begins_now fst snd];
    try (split; [split; reflexivity|]; split; [apply Qle_refl|]; intros ? ? _ H; exact H).
  - destruct (detect L x k) as [b0|] eqn:D; [|exact (S (in_view L x))].
    set (x' := mkSt L _ _ _ _ _ _ _ _ _ _). destruct b.
    + destruct (run_detectable_view x' (Some k)) as [v W]. rewrite W. exact (S v).
    + exact (S []).
  - destruct (pending L x) as [|p]; [exact (S (in_view L x))|]. cbn [Nat.ltb Nat.leb andb].
    destruct (is_running L x) eqn:R; cbn [negb fst snd].
    + split; [split; [cbn [is_running]; rewrite R; reflexivity|reflexivity]|]. split; [apply Qle_refl|]. intros ? ? _ H; exact H.
    + repeat split; reflexivity.
  - destruct (loop L x) as [[n due]|] eqn:E; [|split; [split; reflexivity|]; split; [apply Qle_refl|]; intros; discriminate].
    destruct (Qeqb due (now L x)) eqn:D.
    + destruct (run_detectable_view x None) as [v W]. destruct (run_detectable x None) as [x' o']. cbn [fst snd] in W |- *. subst x'.
      apply Qeqb_eq in D. exists n, due. split; [reflexivity|]. split; [exact D|]. split; [reflexivity|]. split; [reflexivity|]. reflexivity.
    + split; [split; reflexivity|]. split; [apply Qle_refl|]. intros ? ? _ H; exact H.
  - destruct (run_detectable_view x (Some k)) as [v W]. rewrite W. exact (S v).
  - cbn [now loop is_running]. split; [split; reflexivity|]. destruct (loop L x) as [[n due]|] eqn:E.
    + destruct (Qltb due t) eqn:A; [split; [apply Qle_refl|]; intros; congruence|].
      destruct (Qltb (now L x) t) eqn:B; qbool.
      * split; [lra|]. intros n0 due0 X _. inversion X; subst. lra.
      * split; [lra|]. intros n0 due0 X Y. inversion X; subst. exact Y.
    + destruct (Qltb (now L x) t) eqn:B; qbool; (split; [lra|]; intros; discriminate).
Qed.
Lemma step_tinv : forall x o, tinv x -> tinv (fst (step x o)).
Proof.
  intros x o [T1 T2]. pose proof (step_loop x o) as S. cbv zeta in S.
  destruct (checks_now L x o) as [e|].
  - destruct S as [n [due [E [D [N [R P]]]]]]. split.
    + intro F. rewrite R in F. rewrite T1 in E by exact F. discriminate.
    + intros n' due' X. rewrite P in X. rewrite N. cbv zeta in X.
      destruct (e && _); [discriminate|]. inversion X; subst. lra.
  - destruct (begins_now L x o).
    + destruct S as [_ [R [N P]]]. split; [congruence|]. intros n due X. rewrite P in X. inversion X; subst. rewrite N. lra.
    + destruct S as [[R P] [N Q]]. split; [rewrite R, P; exact T1|]. intros n due X. rewrite P in X. eapply Q; eauto.
Qed.
Notation spaced := (spaced timestep).
Lemma spaced_ext : forall l t t', t == t' -> spaced t l -> spaced t' l.
Proof.
  induction l as [|c l IH]; intros t t' E H; [exact I|]. destruct H as [H1 H2]. split; [lra|].
  apply IH with (t := t + timestep); [lra|exact H2].
Qed.
Notation checks := (checks L dist check timestep max_empty).
Notation begins := (begins L dist check timestep max_empty).
Lemma running_run : forall ops x, tinv x -> is_running L x = true ->
  begins x ops = [] /\
  match loop L x with
  | None => checks x ops = [] /\ loop L (fst (run x ops)) = None
  | Some (n, due) => spaced due (checks x ops) /\
      (loop L (fst (run x ops)) = None -> (max_empty <= idle_run (map snd (checks x ops)) n)%nat /\ (1 <= idle_run (map snd (checks x ops)) n)%nat) /\
      (forall n' due', loop L (fst (run x ops)) = Some (n', due') ->
          n' = idle_run (map snd (checks x ops)) n /\ due' == due + inject_Z (Z.of_nat (List.length (checks x ops))) * timestep /\
          ((n < max_empty)%nat \/ n = 0%nat -> (n' < max_empty)%nat \/ n' = 0%nat))
  end.
Proof.
  induction ops as [|o ops IH]; intros x T R.
  - split; [reflexivity|]. destruct (loop L x) as [[n due]|] eqn:E; [|split; [reflexivity|exact E]].
    cbn [StepSpec.checks map idle_run List.length StepModel.run fst]. split; [exact I|]. split; [congruence|].
    intros n' due' X. rewrite E in X. inversion X; subst. split; [reflexivity|]. split; [|tauto].
    change (inject_Z (Z.of_nat 0)) with 0. lra.
  - pose proof (step_loop x o) as S. pose proof (step_tinv x o T) as T'. cbv zeta in S.
    rewrite run_cons. cbn [fst]. cbn [StepSpec.checks StepSpec.begins].
    destruct (checks_now L x o) as [e|] eqn:C.
    + destruct S as [n [due [E [D [N [R' P]]]]]]. rewrite R in R'. destruct (IH _ T' R') as [B K].
      assert (BN : begins_now L x o = false).
      { unfold begins_now. destruct o; try reflexivity. rewrite R. apply andb_false_r. }
      rewrite BN. split; [exact B|]. rewrite E. rewrite P in K. cbv zeta in K. cbn [map snd idle_run].
      destruct e; cbn [andb] in K.
      * destruct (max_empty <=? S n)%nat eqn:M.
        -- destruct K as [K1 K2]. apply Nat.leb_le in M. rewrite K1. cbn [map idle_run List.length].
           split; [split; [cbn [fst]; lra|exact I]|]. split; [intros _; lia|]. intros; congruence.
        -- apply Nat.leb_gt in M. destruct K as [K1 [K2 K3]]. split; [split; [cbn [fst]; lra|]|].
           ++ eapply spaced_ext; [|exact K1]. lra.
           ++ split; [exact K2|]. intros n' due' X. destruct (K3 n' due' X) as [X1 [X2 X3]].
              split; [exact X1|]. split; [|intros _; apply X3; left; exact M].
              rewrite X2. cbn [List.length]. rewrite Nat2Z.inj_succ. unfold Z.succ. rewrite inject_Z_plus. change (inject_Z 1) with 1. lra.
      * destruct K as [K1 [K2 K3]]. split; [split; [cbn [fst]; lra|]|].
        ++ eapply spaced_ext; [|exact K1]. lra.
        ++ split; [exact K2|]. intros n' due' X. destruct (K3 n' due' X) as [X1 [X2 X3]].
           split; [exact X1|]. split; [|intros _; apply X3; right; reflexivity].
           rewrite X2. cbn [List.length]. rewrite Nat2Z.inj_succ. unfold Z.succ. rewrite inject_Z_plus. change (inject_Z 1) with 1. lra.
    + assert (BN : begins_now L x o = false).
      { unfold begins_now. destruct o; try reflexivity. rewrite R. apply andb_false_r. }
      rewrite BN in S |- *. destruct S as [[R' P] _]. rewrite R in R'. destruct (IH _ T' R') as [B K].
      rewrite P in K. split; [exact B|exact K].
Qed.
Lemma begins_run : forall ops x, tinv x -> is_running L x = false ->
  (begins x ops = [] /\ checks x ops = [] /\ is_running L (fst (run x ops)) = false) \/
  (exists t, begins x ops = [t] /\ spaced (t + timestep) (checks x ops) /\
     (loop L (fst (run x ops)) = None <-> (Nat.max 1 max_empty <= idle_run (map snd (checks x ops)) 0)%nat)).
Proof.
  induction ops as [|o ops IH]; intros x T R; [left; repeat split; exact R|].
  pose proof (step_loop x o) as S. pose proof (step_tinv x o T) as T'. cbv zeta in S.
  rewrite run_cons. cbn [fst]. cbn [StepSpec.checks StepSpec.begins].
  destruct (checks_now L x o) as [e|] eqn:C.
  - destruct S as [n [due [E _]]]. rewrite (proj1 T R) in E. discriminate.
  - destruct (begins_now L x o) eqn:BN.
    + destruct S as [_ [R' [N P]]]. right. exists (now L x). destruct (running_run ops _ T' R') as [B K].
      rewrite P in K. destruct K as [K1 [K2 K3]]. rewrite B. split; [reflexivity|]. split; [exact K1|].
      destruct (loop L (fst (run (fst (step x o)) ops))) as [[n' due']|] eqn:E.
      * split; [discriminate|]. destruct (K3 n' due' eq_refl) as [X1 [_ X3]]. rewrite <- X1. intro M.
        assert (n' < max_empty \/ n' = 0)%nat by (apply X3; right; reflexivity). lia.
      * split; [|reflexivity]. intros _. destruct (K2 eq_refl). lia.
    + destruct S as [[R' P] _]. rewrite R in R'. apply (IH _ T' R').
Qed.
Lemma init_tinv : forall p r d, tinv (init L p r d).
Proof. intros. split; [reflexivity|]. intros n due H. discriminate H. Qed.

(** Nothing but registering it, or setting its detectability, ends the view of an entity
    that is not registered. *)
Lemma kept : forall o x s e, inv x -> seen (in_view L x) s e = true -> ~ In e (detectables L x) ->
  o <> AddDetectable L e -> o <> StartMover L e -> (forall b, o <> SetDetect L e b) ->
  seen (in_view L (fst (step x o))) s e = true /\ ~ In e (detectables L (fst (step x o))).
Proof.
  assert (K : forall x req s e, inv x -> seen (in_view L x) s e = true -> ~ In e (detectables L x) ->
     seen (in_view L (fst (run_detectable x req))) s e = true /\ ~ In e (detectables L (fst (run_detectable x req)))).
  { intros x req s e I S N. destruct (run_detectable_view x req) as [v W].
    destruct (forallb (fun d => memn d (detectables L x)) (asked x req)) eqn:F.
    - rewrite run_detectable_known; [|intros d Hd; rewrite forallb_forall in F; apply memn_in, F, Hd].
      cbn [fst in_view detectables with_view]. split; [|exact N].
      destruct (look_props x (asked x req) (sensors L x) (in_view L x) (proj1 I)) as [_ [_ C]]. rewrite C.
      replace (memn e (asked x req)) with false; [cbn [andb]; rewrite andb_false_r; exact S|].
      symmetry. apply not_true_iff_false. intro M. rewrite forallb_forall in F. apply N, memn_in, F, memn_in, M.
    - assert (E : run_detectable x req = (x, [KeyError])).
      { unfold StepModel.run_detectable. fold (asked x req). rewrite F. reflexivity. }
      rewrite E. auto. }
  intros o x s e I S N H1 H2 H3. destruct o as [k p|k r|k b|k|k|k|k| | |em|k|t]; cbn [StepModel.step fst snd in_view detectables]; auto.
  - assert (Hk : e <> k) by (intro; subst; apply (H3 b); reflexivity).
    destruct (detect L x k) as [b0|] eqn:D; [|auto].
    set (x' := mkSt L _ _ _ _ _ _ _ _ _ _). destruct b.
    + apply K; auto. destruct I as [N0 T]. split; [exact N0|]. intros s0 d H. specialize (T s0 d H).
      unfold test_detect in *. cbn [detect x']. unfold upd. destruct (Nat.eqb d k); [reflexivity|exact T].
    + unfold not_detectable. cbn [fst in_view with_view detectables x']. split; [|exact N].
      rewrite seen_filter, S. cbn [snd]. rewrite (proj2 (Nat.eqb_neq e k) Hk). reflexivity.
  - split; [exact S|]. unfold add. destruct (memn k (detectables L x)); [exact N|].
    intro X. apply in_app_iff in X. destruct X as [X|[X|[]]]; [auto|]. subst. apply H1. reflexivity.
  - split; [exact S|]. unfold add. destruct (memn k (detectables L x)); [exact N|].
    intro X. apply in_app_iff in X. destruct X as [X|[X|[]]]; [auto|]. subst. apply H2. reflexivity.
  - split; [exact S|]. unfold del. intro X. apply filter_In in X. apply N, X.
  - destruct (pending L x) as [|p]; [auto|]. destruct (is_running L x); auto.
  - destruct (loop L x) as [[n due]|]; [|auto]. destruct (Qeqb due (now L x)); [|auto].
    pose proof (K x None s e I S N) as X. destruct (run_detectable x None) as [x' o']. exact X.
Qed.
Lemma kept_run : forall ops x s e, inv x -> seen (in_view L x) s e = true -> ~ In e (detectables L x) ->
  ~ In (AddDetectable L e) ops -> ~ In (StartMover L e) ops -> (forall b, ~ In (SetDetect L e b) ops) ->
  seen (in_view L (fst (run x ops))) s e = true.
Proof.
  induction ops as [|o ops IH]; intros x s e I S N H1 H2 H3; [exact S|].
  rewrite run_cons. cbn [fst].
  destruct (kept o x s e I S N) as [S' N'].
  - intro X. apply H1. left. exact X.
  - intro X. apply H2. left. exact X.
  - intros b X. apply (H3 b). left. exact X.
  - apply IH; auto; [apply step_leads; exact I| | |].
    + intro X. apply H1. right. exact X.
    + intro X. apply H2. right. exact X.
    + intros b X. apply (H3 b). right. exact X.
Qed.
End P.
