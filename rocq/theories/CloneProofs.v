(** Proofs about clones and rehearsals on them. *)
From Verif Require Import Common StateModel KnowledgeModel ActiveModel EvProofs NetModel NetProofs CloneModel CloneSpec.

Lemma In_kset {X} k (x : X) l j y : In (j, y) (kset k x l) -> y = x \/ In (j, y) l.
Proof.
  induction l as [|[i z] l IH]; cbn [kset]; [intros [H|[]]; inversion H; auto|].
  destruct (Z.eqb _ _).
  - intros [H|H]; [inversion H; auto|right; right; exact H].
  - intros [H|H]; [right; left; exact H|]. destruct (IH H); auto. right. right. assumption.
Qed.
Lemma In_kdel {X} k (l : list (key * X)) p : In p (kdel k l) -> In p l.
Proof. unfold kdel. intro H. apply filter_In in H. apply H. Qed.
Lemma kget_In' {X} k (l : list (key * X)) v : kget k l = Some v -> exists j, In (j, v) l.
Proof.
  induction l as [|[i z] l IH]; cbn [kget]; [discriminate|]. destruct (Z.eqb _ _).
  - intro H. inversion H; subst. exists i. left. reflexivity.
  - intro H. destruct (IH H) as [j Hj]. exists j. right. exact Hj.
Qed.

Section Frame.
Variable w0 : cworld.
Variable extra : list (key * cval).
Definition okl (l : nat) : Prop := (List.length (w_heap w0) <= l)%nat \/ inside w0 extra l.
Definition okv (v : cval) : Prop := match v with CAtom _ => True | CRef l => okl l end.
Definition okd (d : cobj) : Prop := forall k v, In (k, v) d -> okv v.

Lemma inside_step l o k m : inside w0 extra l -> nth_error (w_heap w0) l = Some o -> In (k, CRef m) o -> inside w0 extra m.
Proof.
  intros (r & o0 & k0 & m0 & H1 & H2 & H3 & H4) E I. exists r, o0, k0, m0. do 3 (split; [assumption|]).
  eapply reach_step; eauto.
Qed.
Definition grown (h : list cobj) : Prop := exists ext, h = w_heap w0 ++ ext /\ Forall okd ext.
Lemma okd_root l o : held w0 extra l -> nth_error (w_heap w0) l = Some o -> okd o.
Proof.
  intros H E k [z|m] I; [exact Logic.I|]. right. exists l, o, k, m. do 3 (split; [assumption|]). constructor.
Qed.
Lemma copy1_ok h k v : grown h -> In (k, v) (ac_st (w_real w0) ++ ac_kn (w_real w0) ++ extra) ->
  let '(h1, v1) := copy1 h v in grown h1 /\ okv v1.
Proof.
  intros (ext & -> & F) I. destruct v as [z|l]; cbn [copy1]; [split; [exists ext; auto|exact Logic.I]|].
  destruct (nth_error (w_heap w0 ++ ext) l) as [o|] eqn:E.
  - split.
    + exists (ext ++ [o]). split; [rewrite app_assoc; reflexivity|]. apply Forall_app. split; [exact F|].
      constructor; [|constructor]. destruct (Nat.lt_ge_cases l (List.length (w_heap w0))) as [L|L].
      * rewrite nth_error_app1 in E by exact L. eapply okd_root; [exists k; exact I|exact E].
      * rewrite nth_error_app2 in E by exact L. apply nth_error_In in E. rewrite Forall_forall in F. apply F. exact E.
    + left. rewrite app_length. lia.
  - split; [exists ext; auto|]. left. apply nth_error_None in E. rewrite app_length in E. lia.
Qed.
Lemma copy_all_ok d : forall h acc, grown h -> okd acc ->
  (forall p, In p d -> In p (ac_st (w_real w0) ++ ac_kn (w_real w0) ++ extra)) ->
  let '(h1, acc1) := copy_all h d acc in grown h1 /\ okd acc1.
Proof.
  induction d as [|[k v] d IH]; intros h acc G A I; cbn [copy_all]; [auto|].
  pose proof (copy1_ok h k v G (I _ (or_introl eq_refl))) as C. destruct (copy1 h v) as [h1 v1]. destruct C as [G1 V1].
  apply IH; [exact G1| |intros p Hp; apply I; right; exact Hp].
  intros j y Hj. apply In_kset in Hj. destruct Hj as [->|Hj]; [exact V1|eapply A; exact Hj].
Qed.

Definition frame (w : cworld) : Prop :=
  (forall l, ~ okl l -> nth_error (w_heap w) l = nth_error (w_heap w0) l) /\
  okd (ac_st (w_und w)) /\ okd (ac_kn (w_und w)) /\
  (forall l (o : cobj), okl l -> nth_error (w_heap w) l = Some o -> okd o) /\
  (List.length (w_heap w0) <= List.length (w_heap w))%nat /\
  ac_st (w_real w) = ac_st (w_real w0) /\ ac_kn (w_real w) = ac_kn (w_real w0) /\
  ac_q (w_real w) = ac_q (w_real w0) /\ ac_clock (w_real w) = ac_clock (w_real w0).
Lemma clone_frame : frame (clone extra w0).
Proof.
  unfold clone.
  assert (G0 : grown (w_heap w0)) by (exists []; rewrite app_nil_r; split; [reflexivity|constructor]).
  assert (N0 : okd []) by (intros k v []).
  pose proof (copy_all_ok (ac_st (w_real w0)) (w_heap w0) [] G0 N0) as C1.
  destruct (copy_all (w_heap w0) (ac_st (w_real w0)) []) as [h1 st].
  assert (C1' := C1 ltac:(intros p Hp; apply in_or_app; left; exact Hp)). destruct C1' as [G1 A1]. clear C1.
  pose proof (copy_all_ok (ac_kn (w_real w0)) h1 [] G1 N0) as C2.
  destruct (copy_all h1 (ac_kn (w_real w0)) []) as [h2 kn0].
  assert (C2' := C2 ltac:(intros p Hp; apply in_or_app; right; apply in_or_app; left; exact Hp)). destruct C2' as [G2 A2]. clear C2.
  pose proof (copy_all_ok extra h2 kn0 G2 A2) as C3. destruct (copy_all h2 extra kn0) as [h3 kn].
  assert (C3' := C3 ltac:(intros p Hp; apply in_or_app; right; apply in_or_app; right; exact Hp)). destruct C3' as [G3 A3]. clear C3.
  destruct G3 as (ext & -> & F). unfold frame. cbn [w_heap w_und w_real ac_st ac_kn ac_q ac_clock].
  split; [|split; [exact A1|split; [exact A3|split; [|split; [rewrite app_length; lia|auto]]]]].
  - intros l Hl. apply nth_error_app1. destruct (Nat.lt_ge_cases l (List.length (w_heap w0))); [assumption|].
    exfalso. apply Hl. left. assumption.
  - intros l o Hl E. destruct (Nat.lt_ge_cases l (List.length (w_heap w0))) as [L|L].
    + rewrite nth_error_app1 in E by exact L. destruct Hl as [Hl|Hl]; [lia|].
      intros k [z|m] I; [exact Logic.I|]. right. eapply inside_step; eauto.
    + rewrite nth_error_app2 in E by exact L. apply nth_error_In in E. rewrite Forall_forall in F. apply F. exact E.
Qed.

Lemma look_ok (h : list cobj) a p v : okd (ac_st a) -> okd (ac_kn a) ->
  (forall l (o : cobj), okl l -> nth_error h l = Some o -> okd o) -> look h a p = Some v -> okv v.
Proof.
  intros S K C. revert v. induction p as [k|k|p IH f]; intros v; cbn [look].
  - intro H. apply kget_In' in H. destruct H as [j H]. eapply S; exact H.
  - intro H. apply kget_In' in H. destruct H as [j H]. eapply K; exact H.
  - intro H. destruct (look h a p) as [[z|l]|]; try discriminate H. destruct (nth_error h l) as [o|] eqn:E; [|discriminate H].
    apply kget_In' in H. destruct H as [j H]. specialize (IH _ eq_refl). cbn in IH. eapply C; eauto.
Qed.
Definition goodh (h : list cobj) : Prop :=
  (forall l, ~ okl l -> nth_error h l = nth_error (w_heap w0) l) /\
  (forall l (o : cobj), okl l -> nth_error h l = Some o -> okd o) /\
  (List.length (w_heap w0) <= List.length h)%nat.
Lemma eval_ok h a e h1 v : goodh h -> okd (ac_st a) -> okd (ac_kn a) -> eval h a e = Some (h1, v) -> goodh h1 /\ okv v.
Proof.
  intros (U & C & L) S K. destruct e as [z|p|]; cbn [eval].
  - intro H. inversion H; subst. split; [split; auto|exact Logic.I].
  - destruct (look h a p) as [v'|] eqn:E; [|discriminate]. intro H. inversion H; subst. split; [split; auto|].
    eapply look_ok; eauto.
  - intro H. inversion H; subst. split; [|left; exact L]. split; [|split].
    + intros l Hl. rewrite nth_error_app1; [apply U; exact Hl|]. destruct (Nat.lt_ge_cases l (List.length h)); [assumption|].
      exfalso. apply Hl. left. lia.
    + intros l o Hl E. destruct (Nat.lt_ge_cases l (List.length h)) as [G|G].
      * rewrite nth_error_app1 in E by exact G. eapply C; eauto.
      * rewrite nth_error_app2 in E by exact G. apply nth_error_In in E. destruct E as [<-|[]]. intros k v [].
    + rewrite app_length. lia.
Qed.
Lemma upd_good h l o : goodh h -> okl l -> okd o -> goodh (upd l o h).
Proof.
  intros (U & C & L) Hl Ho. split; [|split].
  - intros m Hm. rewrite EvProofs.nth_upd. destruct (Nat.eqb l m) eqn:E; [|apply U; exact Hm].
    apply Nat.eqb_eq in E. subst. contradiction.
  - intros m o' Hm. rewrite EvProofs.nth_upd. destruct (Nat.eqb l m) eqn:E; [|apply C; exact Hm].
    destruct (nth_error h m); [|discriminate]. intro H. inversion H; subst. exact Ho.
  - rewrite EvProofs.upd_length. exact L.
Qed.
Lemma step_frame w o : frame w -> frame (fst (cstep w o)).
Proof.
  intros (U & S & K & C & L & R). assert (G : goodh (w_heap w)) by (split; auto).
  assert (FR : forall h u, goodh h -> okd (ac_st u) -> okd (ac_kn u) -> frame (with_und w h u)).
  { intros h u (U' & C' & L') S' K'. unfold frame, with_und. cbn. split; [exact U'|]. split; [exact S'|]. split; [exact K'|]. split; [exact C'|]. split; [exact L'|exact R]. }
  assert (FW : frame w) by (repeat (split; auto)).
  assert (FL : forall ls q, frame (with_lists w ls q)) by (intros; unfold frame, with_lists; cbn; repeat (split; auto)).
  assert (KS : forall k v d, okd d -> okv v -> okd (kset k v d)).
  { intros k v d Hd Hv j y Hj. apply In_kset in Hj. destruct Hj as [->|Hj]; [exact Hv|eapply Hd; exact Hj]. }
  assert (KD : forall k d, okd d -> okd (kdel k d)).
  { intros k d Hd j y Hj. apply In_kdel in Hj. eapply Hd; exact Hj. }
  destruct o as [k e|k e|k|p f e|p f|n|n l|n|n t|t]; cbn [cstep].
  - destruct (eval (w_heap w) (w_und w) e) as [[h1 v]|] eqn:E; [|exact FW]. destruct (eval_ok _ _ _ _ _ G S K E). apply FR; cbn; auto.
  - destruct (eval (w_heap w) (w_und w) e) as [[h1 v]|] eqn:E; [|exact FW]. destruct (eval_ok _ _ _ _ _ G S K E). apply FR; cbn; auto.
  - destruct (kmem k (ac_kn (w_und w))); [|exact FW]. apply FR; cbn; auto.
  - destruct (eval (w_heap w) (w_und w) e) as [[h1 v]|] eqn:E; [|exact FW]. destruct (eval_ok _ _ _ _ _ G S K E) as [G1 V1].
    destruct (look h1 (w_und w) p) as [[z|l]|] eqn:El; try exact FW. destruct (nth_error h1 l) as [ob|] eqn:Eo; [|exact FW].
    assert (Hl : okl l). { change (okv (CRef l)). eapply look_ok; [exact S|exact K|apply G1|exact El]. }
    apply FR; auto. apply upd_good; auto. apply KS; [|exact V1]. eapply (proj1 (proj2 G1)); eauto.
  - destruct (look (w_heap w) (w_und w) p) as [[z|l]|] eqn:El; try exact FW. destruct (nth_error (w_heap w) l) as [ob|] eqn:Eo; [|exact FW].
    assert (Hl : okl l). { change (okv (CRef l)). eapply look_ok; [exact S|exact K|exact C|exact El]. }
    apply FR; auto. apply upd_good; auto. apply KD. eapply C; eauto.
  - apply FL.
  - destruct (queue_at w (w_und w) n) as [[i [|x q]]|]; first [exact FW|apply FL].
  - destruct (queue_at w (w_und w) n) as [[i [|x q]]|]; first [exact FW|apply FL].
  - destruct (queue_at w (w_und w) n) as [[i q]|]; first [exact FW|apply FL].
  - apply FR; cbn; auto.
Qed.
Lemma run_frame os : forall w, frame w -> frame (crun w os).
Proof. induction os as [|o os IH]; intros w F; cbn [crun]; [exact F|]. apply IH, step_frame, F. Qed.

Lemma frame_seen w : frame w ->
  (forall l, (l < List.length (w_heap w0))%nat -> ~ inside w0 extra l -> nth_error (w_heap w) l = nth_error (w_heap w0) l).
Proof. intros F l L NI. apply F. intros [H|H]; [lia|contradiction]. Qed.
Lemma flat_inside : flat w0 extra -> forall l, ~ inside w0 extra l.
Proof. intros F l (r & o & k & m & H1 & H2 & H3 & _). destruct (F r o k (CRef m) H1 H2 H3) as [z Hz]. discriminate. Qed.
Lemma frame_look w p : frame w -> (forall l, ~ inside w0 extra l) ->
  (forall l o k m, nth_error (w_heap w0) l = Some o -> In (k, CRef m) o -> (m < List.length (w_heap w0))%nat) ->
  (forall l, held w0 extra l -> (l < List.length (w_heap w0))%nat) ->
  look (w_heap w) (w_real w) p = look (w_heap w0) (w_real w0) p.
Proof.
  intros F NI NB NH. pose proof (frame_seen w F) as U. destruct F as (_ & _ & _ & _ & _ & R1 & R2 & _).
  assert (B : forall l p, look (w_heap w0) (w_real w0) p = Some (CRef l) -> (l < List.length (w_heap w0))%nat).
  { intros l p0. destruct p0 as [k|k|p0 f]; cbn [look].
    - intro H. apply kget_In' in H. destruct H as [j H]. apply NH. exists j. apply in_or_app. left. exact H.
    - intro H. apply kget_In' in H. destruct H as [j H]. apply NH. exists j. apply in_or_app. right. apply in_or_app. left. exact H.
    - destruct (look (w_heap w0) (w_real w0) p0) as [[z|m]|]; try discriminate.
      destruct (nth_error (w_heap w0) m) as [o|] eqn:E; [|discriminate]. intro H. apply kget_In' in H. destruct H as [j H].
      eapply NB; eauto. }
  induction p as [k|k|p IH f]; cbn [look]; [rewrite R1; reflexivity|rewrite R2; reflexivity|].
  rewrite IH. destruct (look (w_heap w0) (w_real w0) p) as [[z|l]|] eqn:E; try reflexivity.
  rewrite U; [reflexivity| |apply NI]. eapply B; eauto.
Qed.
Lemma frame_one_deep w p f l : frame w -> (p = PState f \/ p = PKnow f) -> seen w0 p = Some (CRef l) ->
  (l < List.length (w_heap w0))%nat -> ~ inside w0 extra l ->
  seen w p = seen w0 p /\ forall g, seen w (PField p g) = seen w0 (PField p g).
Proof.
  intros F Hp E L NI. pose proof (frame_seen w F) as U. destruct F as (_ & _ & _ & _ & _ & R1 & R2 & _).
  assert (A : seen w p = seen w0 p).
  { unfold seen in *. destruct Hp as [-> | ->]; cbn [look]; [rewrite R1|rewrite R2]; reflexivity. }
  split; [exact A|]. intro g. unfold seen in *. cbn [look]. rewrite A, E. rewrite U by assumption. reflexivity.
Qed.
End Frame.

(** ** Queues *)
Lemma crun_app os os' : forall w, crun w (os ++ os') = crun (crun w os) os'.
Proof. induction os as [|o os IH]; intro w; cbn [crun app]; [reflexivity|apply IH]. Qed.

Definition kept (w0 w : cworld) : Prop :=
  (forall l, (l < List.length (w_lists w0))%nat -> nth_error (w_lists w) l = nth_error (w_lists w0) l) /\
  (List.length (w_lists w0) <= List.length (w_lists w))%nat.
Definition fresh_queue (w0 w : cworld) (n : string) : Prop :=
  forall l, sget n (ac_q (w_und w)) = Some l -> (List.length (w_lists w0) <= l)%nat.
Lemma kept_grow w0 w q ls : kept w0 w -> kept w0 (with_lists w (w_lists w ++ ls) q).
Proof.
  intros [K L]. split; cbn [with_lists w_lists].
  - intros l Hl. rewrite nth_error_app1 by lia. apply K. exact Hl.
  - rewrite app_length. lia.
Qed.
Lemma kept_upd w0 w q i x : kept w0 w -> (List.length (w_lists w0) <= i)%nat -> kept w0 (with_lists w (upd i x (w_lists w)) q).
Proof.
  intros [K L] Hi. split; cbn [with_lists w_lists].
  - intros l Hl. rewrite EvProofs.nth_upd. destruct (Nat.eqb i l) eqn:E; [|apply K; exact Hl]. apply Nat.eqb_eq in E. lia.
  - rewrite EvProofs.upd_length. exact L.
Qed.
Lemma step_kept w0 w o : kept w0 w -> (forall n, in_place o = Some n -> fresh_queue w0 w n) -> kept w0 (fst (cstep w o)).
Proof.
  intros K FQ. destruct o as [k e|k e|k|p f e|p f|n|n l|n|n t|t]; cbn [cstep].
  - destruct (eval (w_heap w) (w_und w) e) as [[h1 v]|]; exact K.
  - destruct (eval (w_heap w) (w_und w) e) as [[h1 v]|]; exact K.
  - destruct (kmem k (ac_kn (w_und w))); exact K.
  - destruct (eval (w_heap w) (w_und w) e) as [[h1 v]|]; [|exact K]. destruct (look h1 (w_und w) p) as [[z|l]|]; try exact K.
    destruct (nth_error h1 l); exact K.
  - destruct (look (w_heap w) (w_und w) p) as [[z|l]|]; try exact K. destruct (nth_error (w_heap w) l); exact K.
  - apply kept_grow, K.
  - destruct (queue_at w (w_und w) n) as [[i [|x q]]|]; try exact K. apply kept_grow, K.
  - specialize (FQ n eq_refl). unfold queue_at. unfold fresh_queue in FQ. destruct (sget n (ac_q (w_und w))) as [i|]; [|exact K].
    destruct (nth i (w_lists w) []); [exact K|]. apply kept_upd; auto.
  - specialize (FQ n eq_refl). unfold queue_at. unfold fresh_queue in FQ. destruct (sget n (ac_q (w_und w))) as [i|]; [|exact K].
    apply kept_upd; auto.
  - exact K.
Qed.
Lemma step_und_q w o : ac_q (w_und (fst (cstep w o))) = ac_q (w_und w) \/
  exists n, ac_q (w_und (fst (cstep w o))) = sset n (List.length (w_lists w)) (ac_q (w_und w)).
Proof.
  destruct o as [k e|k e|k|p f e|p f|n|n l|n|n t|t]; cbn [cstep].
  - destruct (eval (w_heap w) (w_und w) e) as [[h1 v]|]; auto.
  - destruct (eval (w_heap w) (w_und w) e) as [[h1 v]|]; auto.
  - destruct (kmem k (ac_kn (w_und w))); auto.
  - destruct (eval (w_heap w) (w_und w) e) as [[h1 v]|]; auto. destruct (look h1 (w_und w) p) as [[z|l]|]; auto.
    destruct (nth_error h1 l); auto.
  - destruct (look (w_heap w) (w_und w) p) as [[z|l]|]; auto. destruct (nth_error (w_heap w) l); auto.
  - right. exists n. reflexivity.
  - destruct (queue_at w (w_und w) n) as [[i [|x q]]|]; auto. right. exists n. reflexivity.
  - destruct (queue_at w (w_und w) n) as [[i [|x q]]|]; auto.
  - destruct (queue_at w (w_und w) n) as [[i q]|]; auto.
  - auto.
Qed.
Lemma step_fresh w0 w o n : kept w0 w -> fresh_queue w0 w n -> fresh_queue w0 (fst (cstep w o)) n.
Proof.
  intros [_ L] F l. destruct (step_und_q w o) as [-> |[m ->]]; [apply F|]. rewrite sget_sset.
  destruct (String.eqb m n); [intro H; inversion H; subst; exact L|apply F].
Qed.
Lemma run_kept w0 os : forall w mine, kept w0 w -> (forall n, In n mine -> fresh_queue w0 w n) ->
  cleared_first mine os -> kept w0 (crun w os).
Proof.
  induction os as [|o os IH]; intros w mine K F; cbn [crun cleared_first]; [auto|]. intros [H1 H2].
  assert (K1 : kept w0 (fst (cstep w o))).
  { apply step_kept; [exact K|]. intros n E. rewrite E in H1. apply F. exact H1. }
  eapply IH; [exact K1| |exact H2].
  assert (F1 : forall n, In n mine -> fresh_queue w0 (fst (cstep w o)) n) by (intros n Hn; apply step_fresh; auto).
  destruct o; try exact F1. intros m [<-|Hm]; [|apply F1; exact Hm].
  intros l. cbn [cstep fst with_lists w_und ac_q]. rewrite sget_same. intro H. inversion H; subst. apply K.
Qed.
Lemma kept_refl extra w : kept w (clone extra w).
Proof.
  unfold clone. destruct (copy_all (w_heap w) (ac_st (w_real w)) []) as [h1 st].
  destruct (copy_all h1 (ac_kn (w_real w)) []) as [h2 kn0]. destruct (copy_all h2 extra kn0) as [h3 kn].
  split; cbn [w_lists]; auto.
Qed.
Lemma real_kept w o : w_real (fst (cstep w o)) = w_real w.
Proof.
  destruct o as [k e|k e|k|p f e|p f|n|n l|n|n t|t]; cbn [cstep].
  - destruct (eval (w_heap w) (w_und w) e) as [[h1 v]|]; auto.
  - destruct (eval (w_heap w) (w_und w) e) as [[h1 v]|]; auto.
  - destruct (kmem k (ac_kn (w_und w))); auto.
  - destruct (eval (w_heap w) (w_und w) e) as [[h1 v]|]; auto. destruct (look h1 (w_und w) p) as [[z|l]|]; auto.
    destruct (nth_error h1 l); auto.
  - destruct (look (w_heap w) (w_und w) p) as [[z|l]|]; auto. destruct (nth_error (w_heap w) l); auto.
  - auto.
  - destruct (queue_at w (w_und w) n) as [[i [|x q]]|]; auto.
  - destruct (queue_at w (w_und w) n) as [[i [|x q]]|]; auto.
  - destruct (queue_at w (w_und w) n) as [[i q]|]; auto.
  - auto.
Qed.
Lemma run_real os : forall w, w_real (crun w os) = w_real w.
Proof. induction os as [|o os IH]; intro w; cbn [crun]; [reflexivity|]. rewrite IH. apply real_kept. Qed.
Lemma sget_in {V} n (d : list (string * V)) v : sget n d = Some v -> In (n, v) d.
Proof.
  induction d as [|[m x] d IH]; cbn [sget]; [discriminate|]. destruct (String.eqb m n) eqn:E.
  - apply String.eqb_eq in E. subst. intro H. inversion H. left. reflexivity.
  - intro H. right. apply IH. exact H.
Qed.
Lemma kept_queues w0 w m : sound w0 -> ac_q (w_real w) = ac_q (w_real w0) -> kept w0 w -> queues w m = queues w0 m.
Proof.
  intros S R [K L]. unfold queues, queue_at. rewrite R. destruct (sget m (ac_q (w_real w0))) as [l|] eqn:E; [|reflexivity].
  apply sget_in in E. specialize (S _ _ E). f_equal. specialize (K l S).
  rewrite <- !nth_default_eq. unfold nth_default. rewrite K. reflexivity.
Qed.
Lemma clone_real extra w : ac_st (w_real (clone extra w)) = ac_st (w_real w) /\ ac_kn (w_real (clone extra w)) = ac_kn (w_real w) /\
  ac_q (w_real (clone extra w)) = ac_q (w_real w) /\ ac_clock (w_real (clone extra w)) = ac_clock (w_real w).
Proof.
  unfold clone. destruct (copy_all (w_heap w) (ac_st (w_real w)) []) as [h1 st].
  destruct (copy_all h1 (ac_kn (w_real w)) []) as [h2 kn0]. destruct (copy_all h2 extra kn0) as [h3 kn]. auto.
Qed.
Lemma clone_und_q extra w : ac_q (w_und (clone extra w)) = ac_q (w_real w).
Proof.
  unfold clone. destruct (copy_all (w_heap w) (ac_st (w_real w)) []) as [h1 st].
  destruct (copy_all h1 (ac_kn (w_real w)) []) as [h2 kn0]. destruct (copy_all h2 extra kn0) as [h3 kn]. reflexivity.
Qed.

(** ** Networks *)
Section NetP.
Variable d : netdef.
Variable n : string.
Variable plan : string -> cworld -> list cop * bool.
Variable names : list string.
Variable endt : option string.
Variable P : cworld -> Prop.
Hypothesis Prun : forall w t, P w -> P (crun w (fst (plan t w))).
Hypothesis Pcur : forall w c i, P w -> P (with_cur w c i).
Hypothesis Pnext : endt <> None -> forall w t w1 t1, P w -> next_clearing d n t w = Some (w1, t1) -> P w1.
Lemma nturn_pres idx last w : P w -> P (fst (fst (nturn d n plan names endt idx last w))).
Proof.
  intro H.
  assert (GO : forall w t, P w -> P (fst (fst (
    if match endt with Some e => String.eqb e t | None => false end then (w, NDone, Some t)
    else match sget t (n_classes d) with
      | None => (with_cur w (Some t) (w_inst w), NRaised, None)
      | Some _ =>
          let w1 := with_cur w (Some t) (Some idx) in
          let '(os, ok) := plan t w1 in
          let w2 := crun w1 os in
          if ok then
            match nth_error names (S idx) with
            | Some f => match is_feasible d t f with Some true => (w2, NMore, Some t) | _ => (w2, NRaised, None) end
            | None => (w2, NMore, Some t)
            end
          else (w2, NRaised, None)
      end)))).
  { clear w H. intros w t H. destruct (match endt with Some e => String.eqb e t | None => false end); [exact H|].
    destruct (sget t (n_classes d)); [|apply Pcur; exact H]. cbv zeta.
    pose proof (Prun (with_cur w (Some t) (Some idx)) t (Pcur _ _ _ H)) as PR.
    destruct (plan t (with_cur w (Some t) (Some idx))) as [os [|]]; cbn [fst] in PR; [|exact PR].
    destruct (nth_error names (S idx)) as [f|]; [|exact PR]. destruct (is_feasible d t f) as [[|]|]; exact PR. }
  unfold nturn. destruct (nth_error names idx) as [t|]; [apply GO; exact H|].
  destruct endt as [e|] eqn:Ee; [|exact H]. destruct last as [t0|]; [|exact H].
  destruct (next_clearing d n t0 w) as [[w1 t]|] eqn:E; [|exact H]. apply GO. eapply Pnext; eauto. discriminate.
Qed.
Lemma nloop_pres fuel : forall idx last w, P w -> P (fst (nloop d n plan names endt fuel idx last w)).
Proof.
  induction fuel as [|f IH]; intros idx last w H; cbn [nloop]; [exact H|].
  pose proof (nturn_pres idx last w H) as T. destruct (nturn d n plan names endt idx last w) as [[w1 r] t]. cbn [fst] in T.
  destruct r; try exact T. apply IH. exact T.
Qed.
End NetP.
Lemma next_cases d n t w w1 t1 : next_clearing d n t w = Some (w1, t1) ->
  w1 = w \/ (w1 = fst (cstep w (CQPop n)) /\ exists i q, queue_at w (w_und w) n = Some (i, t1 :: q)).
Proof.
  unfold next_clearing. destruct (queue_at w (w_und w) n) as [[i q]|] eqn:E; [|discriminate].
  destruct (sget t (n_links d)) as [lk|]; [|discriminate]. destruct q as [|x q].
  - destruct (l_default lk); [|discriminate]. intro H. inversion H. auto.
  - intro H. inversion H; subst. right. split; [reflexivity|eauto].
Qed.
Lemma frame_same w0 extra w : frame w0 extra w -> same_actor (w_real w) (w_real w0).
Proof. intros (_ & _ & _ & _ & _ & R). exact R. Qed.
Lemma net_frame d n plan names endt fuel extra w : frame w extra (fst (rehearse_network d n plan names endt fuel extra w)).
Proof.
  assert (F : frame w extra (fst (nloop d n plan names endt fuel 0 None (clone extra w)))).
  { apply nloop_pres.
    - intros w1 t H. apply run_frame, H.
    - intros w1 c i H. exact H.
    - intros _ w1 t w2 t2 H E. apply next_cases in E. destruct E as [-> |[-> _]]; [exact H|apply step_frame; exact H].
    - apply clone_frame. }
  unfold rehearse_network. destruct (nloop d n plan names endt fuel 0 None (clone extra w)) as [w1 r]. cbn [fst] in F.
  destruct r; exact F.
Qed.
Lemma plain_kept w0 os : forall w, kept w0 w -> Forall (fun o => in_place o = None) os -> kept w0 (crun w os).
Proof.
  induction os as [|o os IH]; intros w K F; cbn [crun]; [exact K|]. inversion F; subst. apply IH; [|assumption].
  apply step_kept; [exact K|]. intros n E. congruence.
Qed.
Lemma net_kept d n plan names endt fuel extra w :
  (forall t w, Forall (fun o => in_place o = None) (fst (plan t w))) ->
  endt = None \/ queues w n = Some [] ->
  sound w -> kept w (fst (rehearse_network d n plan names endt fuel extra w)).
Proof.
  intros PL EQ SO.
  set (P := fun w1 => kept w w1 /\ (endt <> None -> forall l, sget n (ac_q (w_und w1)) = Some l ->
    (List.length (w_lists w) <= l)%nat \/ nth_error (w_lists w) l = Some [])).
  assert (F : P (fst (nloop d n plan names endt fuel 0 None (clone extra w)))).
  { apply nloop_pres.
    - intros w1 t. specialize (PL t w1). generalize dependent w1. intros w1. generalize (fst (plan t w1)). intros os PL.
      revert w1. induction os as [|o os IH]; intros w1 H; cbn [crun]; [exact H|]. inversion PL; subst. apply IH; [assumption|].
      destruct H as [K Q]. split; [apply step_kept; [exact K|intros m E; congruence]|].
      intros E l. destruct (step_und_q w1 o) as [-> |[m ->]]; [apply Q; exact E|]. rewrite sget_sset.
      destruct (String.eqb m n); [|apply Q; exact E]. intro H. inversion H; subst. left. apply K.
    - intros w1 c i H. exact H.
    - intros NE w1 t w2 t2 [K Q] E. apply next_cases in E. destruct E as [-> |[-> (i & q & E)]]; [split; auto|].
      unfold queue_at in E. destruct (sget n (ac_q (w_und w1))) as [l|] eqn:El; [|discriminate].
      inversion E as [[E1 E2]]; subst i.
      assert (L : (List.length (w_lists w) <= l)%nat).
      { destruct (Q NE l eq_refl) as [L|L]; [exact L|]. exfalso.
        assert (Hl : (l < List.length (w_lists w))%nat) by (apply nth_error_Some; congruence).
        pose proof (proj1 K l Hl) as N. rewrite L in N. rewrite <- nth_default_eq in E2. unfold nth_default in E2. rewrite N in E2. discriminate. }
      split.
      + apply step_kept; [exact K|]. intros m Em. inversion Em; subst. intros l' Hl'. congruence.
      + intros _ l'. destruct (step_und_q w1 (CQPop n)) as [-> |[m ->]]; [rewrite El; apply Q; exact NE|]. rewrite sget_sset.
        destruct (String.eqb m n); [|rewrite El; apply Q; exact NE]. intro H. inversion H; subst. left. apply K.
    - split; [apply kept_refl|]. intros NE l. rewrite clone_und_q. intro El. destruct EQ as [EQ|EQ]; [congruence|].
      unfold queues, queue_at in EQ. rewrite El in EQ. inversion EQ as [EN]. right.
      assert (Hl : (l < List.length (w_lists w))%nat) by (apply (SO n); apply sget_in; exact El).
      apply nth_error_Some in Hl. destruct (nth_error (w_lists w) l) as [x|] eqn:Ex; [|congruence].
      apply (nth_error_nth _ _ []) in Ex. congruence. }
  destruct F as [F _]. unfold rehearse_network. destruct (nloop d n plan names endt fuel 0 None (clone extra w)) as [w1 r]. cbn [fst] in F.
  destruct r; exact F.
Qed.
Lemma net_position d n plan names endt fuel extra w :
  snd (rehearse_network d n plan names endt fuel extra w) = NDone ->
  position (fst (rehearse_network d n plan names endt fuel extra w)) = position w.
Proof.
  unfold rehearse_network. destruct (nloop d n plan names endt fuel 0 None (clone extra w)) as [w1 r].
  destruct r; cbn [fst snd]; [reflexivity|discriminate|discriminate].
Qed.
