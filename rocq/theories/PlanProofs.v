(** Proofs about what rehearsing a network rehearses. *)
From Verif Require Import Common StateModel StateProofs KnowledgeModel KnowledgeProofs ActiveModel ActiveProofs NetModel NetProofs CloneModel CloneSpec CloneProofs PlanSpec.

Lemma kget_kdel' {X} k n (d : list (key * X)) : kget k (kdel n d) = if Z.eqb k n then None else kget k d.
Proof.
  induction d as [|[j x] d IH]; cbn [kdel filter kget fst]; [destruct (Z.eqb k n); reflexivity|].
  destruct (Z.eqb j n) eqn:E1; cbn [negb].
  - unfold kdel in IH. rewrite IH. destruct (Z.eqb k n) eqn:E2; [reflexivity|].
    destruct (Z.eqb j k) eqn:E3; [|reflexivity]. apply Z.eqb_eq in E1, E3. apply Z.eqb_neq in E2. congruence.
  - cbn [kget]. unfold kdel in IH. rewrite IH. destruct (Z.eqb j k) eqn:E2; [|reflexivity].
    destruct (Z.eqb k n) eqn:E3; [|reflexivity]. apply Z.eqb_eq in E2, E3. apply Z.eqb_neq in E1. congruence.
Qed.
Lemma queue_at_u w n : queue_at w (w_und w) n = match sget n (ac_q (w_und w)) with Some l => Some (l, nth l (w_lists w) []) | None => None end.
Proof. reflexivity. Qed.
Lemma nth_upd_list {X} i (x : X) l j dflt : nth j (upd i x l) dflt = if Nat.eqb i j && Nat.ltb j (List.length l) then x else nth j l dflt.
Proof.
  rewrite <- !nth_default_eq. unfold nth_default. rewrite upd_nth. destruct (Nat.eqb i j) eqn:E; cbn [andb].
  - destruct (nth_error l j) eqn:E2.
    + assert (L : (j < List.length l)%nat) by (apply nth_error_Some; congruence). apply Nat.ltb_lt in L. rewrite L. reflexivity.
    + apply nth_error_None in E2. destruct (Nat.ltb_spec j (List.length l)); [lia|reflexivity].
  - reflexivity.
Qed.

(** ** Single statements *)
Lemma queue_new w n l : own_lists w -> queue_becomes n l w (with_lists w (w_lists w ++ [l]) (sset n (List.length (w_lists w)) (ac_q (w_und w)))).
Proof.
  intros [O _]. split; unfold u_queue; cbn [w_und ac_q with_lists w_lists].
  - rewrite sget_same, app_nth2, Nat.sub_diag by lia. reflexivity.
  - intros m N. rewrite sget_other by congruence. destruct (sget m (ac_q (w_und w))) as [k|] eqn:E; [|reflexivity]. rewrite app_nth1 by (eapply O; exact E). reflexivity.
Qed.
Lemma queue_upd w n i q : own_lists w -> sget n (ac_q (w_und w)) = Some i -> queue_becomes n q w (with_lists w (upd i q (w_lists w)) (ac_q (w_und w))).
Proof.
  intros [O1 O2] E. split; unfold u_queue; cbn [w_und ac_q with_lists w_lists].
  - rewrite E, nth_upd_list, Nat.eqb_refl. pose proof (O1 _ _ E) as L. apply Nat.ltb_lt in L. rewrite L. reflexivity.
  - intros m N. destruct (sget m (ac_q (w_und w))) as [k|] eqn:E2; [|reflexivity]. rewrite nth_upd_list. destruct (Nat.eqb_spec i k) as [->|]; [|reflexivity].
    elim N. eapply O2; eassumption.
Qed.
Lemma field_upd w l f v o u : nth_error (w_heap w) l = Some o -> field_becomes l f (Some v) w (with_und w (upd l (kset f v o) (w_heap w)) u).
Proof.
  intro E. assert (LEN : forall X (x : X) h i, List.length (upd i x h) = List.length h) by (intros X x; induction h as [|y h IH]; intros [|i]; cbn; auto).
  split; [|split; [apply LEN|]]; cbn [w_heap with_und].
  - exists o, (kset f v o). rewrite upd_nth, Nat.eqb_refl, E. do 2 (split; [reflexivity|]). split; [rewrite kget_kset, Z.eqb_refl; reflexivity|].
    intros g N. rewrite kget_kset. destruct (Z.eqb_spec f g); congruence.
  - intros m N. rewrite upd_nth. destruct (Nat.eqb_spec l m); congruence.
Qed.
Lemma field_del w l f o u : nth_error (w_heap w) l = Some o -> field_becomes l f None w (with_und w (upd l (kdel f o) (w_heap w)) u).
Proof.
  intro E. assert (LEN : forall X (x : X) h i, List.length (upd i x h) = List.length h) by (intros X x; induction h as [|y h IH]; intros [|i]; cbn; auto).
  split; [|split; [apply LEN|]]; cbn [w_heap with_und].
  - exists o, (kdel f o). rewrite upd_nth, Nat.eqb_refl, E. do 2 (split; [reflexivity|]). split; [rewrite kget_kdel', Z.eqb_refl; reflexivity|].
    intros g N. rewrite kget_kdel'. destruct (Z.eqb_spec g f); congruence.
  - intros m N. rewrite upd_nth. destruct (Nat.eqb_spec l m); congruence.
Qed.
Lemma eval_means w e h1 v u : eval (w_heap w) (w_und w) e = Some (h1, v) -> means w (with_und w h1 u) e v.
Proof.
  destruct e; cbn; unfold u_at; [intro H; injection H as <- <-; auto| |intro H; injection H as <- <-; auto].
  destruct (look (w_heap w) (w_und w) p); [|discriminate]. intro H. injection H as <- <-. auto.
Qed.
Lemma look_new h a p v : look h a p = Some v -> (match v with CRef l => (l < List.length h)%nat -> look (h ++ [[]]) a p = Some v | _ => True end) .
Proof.
  revert v. induction p as [k|k|p IH f]; intros v H; destruct v; try exact I; intro L; cbn in *; try exact H.
  destruct (look h a p) as [[z|m]|] eqn:E; try discriminate. destruct (nth_error h m) as [o|] eqn:EO; [|discriminate].
  assert (M : (m < List.length h)%nat) by (apply nth_error_Some; congruence). pose proof (IH _ eq_refl M) as E2. cbn in E2. rewrite E2, nth_error_app1, EO by exact M. exact H.
Qed.
Lemma look_old h a p l o : look (h ++ [[]]) a p = Some (CRef l) -> nth_error h l = Some o -> look h a p = Some (CRef l).
Proof.
  revert l o. induction p as [k|k|p IH f]; intros l o H N; cbn in *; try exact H.
  destruct (look (h ++ [[]]) a p) as [[z|m]|] eqn:E; try discriminate. match type of H with match ?x with _ => _ end = _ => destruct x as [o'|] eqn:EO end; [|discriminate].
  destruct (nth_error h m) as [om|] eqn:EM.
  - rewrite nth_error_app1 in EO by (apply nth_error_Some; congruence). rewrite (IH m om eq_refl EM). assert (OO : Some o' = Some om) by (etransitivity; [symmetry; exact EO|exact EM]). injection OO as ->. transitivity (kget f om); [|exact H]. clear -EM. match goal with |- match ?x with _ => _ end = _ => replace x with (Some om) by (symmetry; exact EM) end. reflexivity.
  - apply nth_error_None in EM. rewrite nth_error_app2 in EO by exact EM. destruct (m - List.length h)%nat as [|[|x]]; cbn in EO; try discriminate. injection EO as <-. discriminate.
Qed.
Lemma look_grown w p l : exist_all w -> look (w_heap w ++ [[]]) (w_und w) p = Some (CRef l) -> exists o, u_at w p = Some (CRef l) /\ nth_error (w_heap w) l = Some o.
Proof.
  intros X E. assert (L : (l < List.length (w_heap w))%nat).
  { destruct p as [k|k|p f]; [exact (X (PState k) l E)|exact (X (PKnow k) l E)|]. cbn in E. destruct (look (w_heap w ++ [[]]) (w_und w) p) as [[z|m]|] eqn:E2; try discriminate.
    match type of E with match ?x with _ => _ end = _ => destruct x as [o|] eqn:EO end; [|discriminate]. destruct (nth_error (w_heap w) m) as [om|] eqn:EM.
    - rewrite nth_error_app1 in EO by (apply nth_error_Some; congruence). apply (X (PField p f)). unfold u_at. cbn. rewrite (look_old _ _ _ _ _ E2 EM). assert (OO : Some o = Some om) by (etransitivity; [symmetry; exact EO|exact EM]). injection OO as ->. transitivity (kget f om); [|exact E]. clear -EM. match goal with |- match ?x with _ => _ end = _ => replace x with (Some om) by (symmetry; exact EM) end. reflexivity.
    - apply nth_error_None in EM. rewrite nth_error_app2 in EO by exact EM. destruct (m - List.length (w_heap w))%nat as [|[|x]]; cbn in EO; try discriminate. injection EO as <-. discriminate. }
  destruct (nth_error (w_heap w) l) as [o|] eqn:EO; [|apply nth_error_None in EO; lia]. exists o. split; [exact (look_old _ _ _ _ _ E EO)|reflexivity].
Qed.
Ltac same := repeat match goal with |- _ /\ _ => split end; try (intro; reflexivity); try reflexivity.
Lemma step_done w o w' : own_lists w -> exist_all w -> cstep w o = (w', true) -> done_to o w w'.
Proof.
  intros O XA H. destruct o as [k e|k e|k|p f e|p f|n|n l|n|n t|t]; cbn [cstep done_to] in *.
  - destruct (eval (w_heap w) (w_und w) e) as [[h1 v]|] eqn:E; [|discriminate]. injection H as <-. split; [|same].
    + exists v. split; [eapply eval_means; exact E|]. unfold u_state. cbn. rewrite kget_kset, Z.eqb_refl. reflexivity.
    + intros j N. unfold u_state. cbn. rewrite kget_kset. destruct (Z.eqb_spec k j); congruence.
  - destruct (eval (w_heap w) (w_und w) e) as [[h1 v]|] eqn:E; [|discriminate]. injection H as <-. split; [|same].
    + exists v. split; [eapply eval_means; exact E|]. unfold u_know. cbn. rewrite kget_kset, Z.eqb_refl. reflexivity.
    + intros j N. unfold u_know. cbn. rewrite kget_kset. destruct (Z.eqb_spec k j); congruence.
  - destruct (kmem k (ac_kn (w_und w))) eqn:E; [|discriminate]. injection H as <-. unfold kmem in E. split; [unfold u_know; destruct (kget k (ac_kn (w_und w))); [discriminate|discriminate]|]. split; [|same].
    + unfold u_know. cbn. rewrite kget_kdel', Z.eqb_refl. reflexivity.
    + intros j N. unfold u_know. cbn. rewrite kget_kdel'. destruct (Z.eqb_spec j k); congruence.
  - destruct (eval (w_heap w) (w_und w) e) as [[h1 v]|] eqn:E; [|discriminate]. destruct (look h1 (w_und w) p) as [[z|l]|] eqn:EL; try discriminate.
    destruct (nth_error h1 l) as [ob|] eqn:EO; [|discriminate]. injection H as <-. destruct e as [z|p'|]; cbn in E.
    + injection E as <- <-. split; [|same]. exists l. split; [exact EL|apply field_upd; exact EO].
    + destruct (look (w_heap w) (w_und w) p') as [v'|] eqn:EP; [|discriminate]. injection E as <- <-. split; [|same]. exists l, v'. split; [exact EL|]. split; [exact EP|apply field_upd; exact EO].
    + injection E as <- <-. destruct (look_grown w p l XA EL) as (o & A1 & A2). split; [|same]. exists l, o. split; [exact A1|]. split; [exact A2|].
      assert (LL : (l < List.length (w_heap w))%nat) by (apply nth_error_Some; congruence). rewrite nth_error_app1 in EO by exact LL. assert (OO : Some ob = Some o) by (etransitivity; [symmetry; exact EO|exact A2]). injection OO as ->.
      cbn [w_heap with_und]. split; [exists (kset f (CRef (List.length (w_heap w))) o); rewrite upd_nth, Nat.eqb_refl, nth_error_app1 by exact LL; split; [match goal with |- match ?x with _ => _ end = _ => replace x with (Some o) by (symmetry; exact A2) end; reflexivity|]; split; [rewrite kget_kset, Z.eqb_refl; reflexivity|intros g N; rewrite kget_kset; destruct (Z.eqb_spec f g); congruence]|].
      split; [rewrite upd_nth; destruct (Nat.eqb_spec l (List.length (w_heap w))); [lia|]; rewrite nth_error_app2, Nat.sub_diag by lia; reflexivity|].
      split; [assert (LEN : forall X (x : X) h i, List.length (upd i x h) = List.length h) by (intros X x; induction h as [|y h IH]; intros [|i]; cbn; auto); rewrite LEN, app_length; cbn; lia|].
      intros m N LM. rewrite upd_nth. destruct (Nat.eqb_spec l m); [congruence|]. apply nth_error_app1. exact LM.
  - destruct (look (w_heap w) (w_und w) p) as [[z|l]|] eqn:EL; try discriminate. destruct (nth_error (w_heap w) l) as [ob|] eqn:EO; [|discriminate]. injection H as <-.
    split; [|same]. exists l. split; [exact EL|apply field_del; exact EO].
  - injection H as <-. split; [apply queue_new; exact O|same].
  - rewrite queue_at_u in H. unfold u_queue. destruct (sget n (ac_q (w_und w))) as [i|] eqn:E; [|discriminate]. destruct (nth i (w_lists w) []) as [|x q]; [|discriminate]. injection H as <-.
    split; [reflexivity|]. split; [apply queue_new; exact O|same].
  - rewrite queue_at_u in H. unfold u_queue at 1. destruct (sget n (ac_q (w_und w))) as [i|] eqn:E; [|discriminate]. destruct (nth i (w_lists w) []) as [|x q] eqn:EN; [discriminate|]. injection H as <-.
    split; [|same]. exists x, q. split; [reflexivity|apply queue_upd; assumption].
  - rewrite queue_at_u in H. unfold u_queue at 1. destruct (sget n (ac_q (w_und w))) as [i|] eqn:E; [|discriminate]. injection H as <-.
    split; [|same]. eexists. split; [reflexivity|apply queue_upd; assumption].
  - injection H as <-. same.
Qed.
Lemma step_refused w o w' : cstep w o = (w', false) -> w' = w.
Proof.
  intro H. destruct o as [k e|k e|k|p f e|p f|n|n l|n|n t|t]; cbn [cstep] in H;
    repeat match type of H with context [match ?x with _ => _ end] => destruct x end; congruence.
Qed.
Lemma step_needs w o : exist_all w -> snd (cstep w o) = true <-> needs o w.
Proof.
  intro X. destruct o as [k e|k e|k|p f e|p f|n|n l|n|n t|t]; cbn [cstep needs].
  - destruct e as [z|p|]; cbn; try tauto. unfold u_at. destruct (look (w_heap w) (w_und w) p); cbn; split; congruence.
  - destruct e as [z|p|]; cbn; try tauto. unfold u_at. destruct (look (w_heap w) (w_und w) p); cbn; split; congruence.
  - unfold u_know, kmem. destruct (kget k (ac_kn (w_und w))); cbn; split; congruence.
  - assert (A : forall v, snd (match look (w_heap w) (w_und w) p with Some (CRef l) => match nth_error (w_heap w) l with Some ob => (with_und w (upd l (kset f v ob) (w_heap w)) (w_und w), true) | None => (w, false) end | _ => (w, false) end) = true <-> an_object w p).
    { intro v. unfold an_object, u_at. destruct (look (w_heap w) (w_und w) p) as [[z|l]|]; cbn.
      - split; [discriminate|intros (l & o & E & _); congruence].
      - destruct (nth_error (w_heap w) l) as [ob|] eqn:EO; cbn; [split; eauto|split; [discriminate|intros (l' & o & E & E'); congruence]].
      - split; [discriminate|intros (l & o & E & _); congruence]. }
    destruct e as [z|p'|]; cbn [eval there].
    + rewrite A. tauto.
    + assert (U : u_at w p' = look (w_heap w) (w_und w) p') by reflexivity. destruct (look (w_heap w) (w_und w) p') as [v|]; [|cbn; split; [discriminate|intros [Y _]; congruence]]. rewrite A. split; [intro; split; [congruence|assumption]|intros [_ Y]; exact Y].
    + split.
      * intro H. split; [exact I|]. destruct (look (w_heap w ++ [[]]) (w_und w) p) as [[z|l]|] eqn:E; try discriminate.
        destruct (look_grown w p l X E) as (o & A1 & A2). exists l, o. auto.
      * intros (_ & l & o & E & EO). unfold u_at in E. assert (L : (l < List.length (w_heap w))%nat) by (apply nth_error_Some; congruence).
        pose proof (look_new _ _ _ _ E L) as E2. cbn in E2. rewrite E2, nth_error_app1, EO by exact L. reflexivity.
  - unfold an_object, u_at. destruct (look (w_heap w) (w_und w) p) as [[z|l]|]; cbn.
    + split; [discriminate|intros (l & o & E & _); congruence].
    + destruct (nth_error (w_heap w) l) as [ob|] eqn:EO; cbn; [split; eauto|split; [discriminate|intros (l' & o & E & E'); congruence]].
    + split; [discriminate|intros (l & o & E & _); congruence].
  - cbn. tauto.
  - rewrite queue_at_u. unfold u_queue. destruct (sget n (ac_q (w_und w))) as [i|]; [|cbn; split; congruence]. destruct (nth i (w_lists w) []); cbn; split; congruence.
  - rewrite queue_at_u. unfold u_queue. destruct (sget n (ac_q (w_und w))) as [i|]; [|cbn; split; [discriminate|intros (? & ? & ?); discriminate]]. destruct (nth i (w_lists w) []); cbn; split; try discriminate; try (intros (? & ? & ?); discriminate); eauto.
  - rewrite queue_at_u. unfold u_queue. destruct (sget n (ac_q (w_und w))) as [i|]; cbn; split; congruence.
  - cbn. tauto.
Qed.
Lemma own_step w o : own_lists w -> own_lists (fst (cstep w o)).
Proof.
  intros [O1 O2]. assert (LEN : forall X (x : X) h i, List.length (upd i x h) = List.length h) by (intros X x; induction h as [|y h IH]; intros [|i]; cbn; auto).
  assert (NEW : forall n l, own_lists (with_lists w (w_lists w ++ [l]) (sset n (List.length (w_lists w)) (ac_q (w_und w))))).
  { intros n l. split; cbn [w_und ac_q with_lists w_lists].
    - intros m i. rewrite sget_sset, app_length. cbn. destruct (String.eqb n m); [intro H; injection H as <-; lia|]. intro H. apply O1 in H. lia.
    - intros m m' i. rewrite !sget_sset. destruct (String.eqb_spec n m), (String.eqb_spec n m'); try congruence.
      + intros H H'. injection H as <-. apply O1 in H'. lia.
      + intros H H'. injection H' as <-. apply O1 in H. lia.
      + apply O2. }
  assert (UPD : forall i q, own_lists (with_lists w (upd i q (w_lists w)) (ac_q (w_und w)))).
  { intros i q. split; cbn [w_und ac_q with_lists w_lists]; [intros m l H; rewrite LEN; eapply O1; exact H|exact O2]. }
  destruct o as [k e|k e|k|p f e|p f|n|n l|n|n t|t]; cbn [cstep];
    repeat match goal with |- context [match ?x with _ => _ end] => destruct x end; cbn [fst]; auto; split; cbn; assumption.
Qed.
Lemma own_run os : forall w, own_lists w -> own_lists (crun w os).
Proof. induction os as [|o os IH]; intros w O; cbn [crun]; [exact O|apply IH, own_step, O]. Qed.
Lemma step_clock w o : u_clock (fst (cstep w o)) == u_clock w + match o with CAdvance t => t | _ => 0 end.
Proof.
  unfold u_clock. destruct o as [k e|k e|k|p f e|p f|n|n l|n|n t|t]; cbn [cstep];
    repeat match goal with |- context [match ?x with _ => _ end] => destruct x end; cbn; lra.
Qed.
Lemma run_clock os : forall w, u_clock (crun w os) == u_clock w + takes os.
Proof.
  induction os as [|o os IH]; intro w; cbn [crun]; [unfold takes; cbn; lra|]. rewrite IH, step_clock. unfold takes. cbn [map fold_right]. lra.
Qed.

(** ** The beginning *)
Lemma copy1_spec h v h' v' : copy1 h v = (h', v') -> (exists t, h' = h ++ t) /\
  match v with CAtom _ => v' = v | CRef l => forall o, nth_error h l = Some o -> v' = CRef (List.length h) /\ nth_error h' (List.length h) = Some o end.
Proof.
  destruct v as [z|l]; cbn; [intro H; injection H as <- <-; split; [exists []; rewrite app_nil_r|]; reflexivity|].
  destruct (nth_error h l) as [o|] eqn:E; intro H; injection H as <- <-; split; try (eexists; reflexivity); try (exists []; rewrite app_nil_r; reflexivity).
  - intros o' E'. injection E' as <-. split; [reflexivity|]. rewrite nth_error_app2, Nat.sub_diag by lia. reflexivity.
  - discriminate.
Qed.
Definition copied_in (h h' : list cobj) (v v' : option cval) : Prop :=
  match v with
  | Some (CRef l) => exists o l', nth_error h l = Some o /\ v' = Some (CRef l') /\ (List.length h <= l')%nat /\ nth_error h' l' = Some o
  | _ => v' = v
  end.
Lemma copy_all_spec d : forall h acc h' d', NoDup (map fst d) -> (forall k l, In (k, CRef l) d -> (l < List.length h)%nat) -> copy_all h d acc = (h', d') ->
  (exists t, h' = h ++ t) /\ forall k, (kget k d = None -> kget k d' = kget k acc) /\ (kget k d <> None -> copied_in h h' (kget k d) (kget k d')).
Proof.
  induction d as [|[j v] d IH]; intros h acc h' d' ND C E; cbn [copy_all] in E.
  - injection E as <- <-. split; [exists []; rewrite app_nil_r; reflexivity|]. intro k. cbn. split; [reflexivity|congruence].
  - destruct (copy1 h v) as [h1 v1] eqn:E1. apply copy1_spec in E1 as [(t1 & X1) V]. inversion ND as [|? ? N1 N2]; subst.
    destruct (IH (h ++ t1) (kset j v1 acc) h' d') as [(t2 & ->) K]; [assumption| |exact E|].
    { intros k l I. rewrite app_length. pose proof (C k l (or_intror I)). lia. }
    split; [exists (t1 ++ t2); rewrite app_assoc; reflexivity|]. intro k. cbn [kget]. destruct (K k) as [K1 K2]. destruct (Z.eqb_spec j k) as [->|NE].
    + split; [discriminate|]. intros _. rewrite K1 by (apply kget_notin; exact N1). rewrite kget_kset, Z.eqb_refl. destruct v as [z|l]; cbn; [congruence|].
      assert (L : (l < List.length h)%nat) by (apply (C k); left; reflexivity). apply nth_error_Some in L. destruct (nth_error h l) as [o|] eqn:EO; [|congruence].
      destruct (V o eq_refl) as [-> V2]. exists o, (List.length h). do 2 (split; [reflexivity|]). split; [lia|]. assert (L2 : (List.length h < List.length (h ++ t1))%nat) by (apply nth_error_Some; congruence). rewrite nth_error_app1; assumption.
    + split; [intro H; rewrite (K1 H), kget_kset; destruct (Z.eqb_spec j k); [congruence|reflexivity]|]. intro H. specialize (K2 H). destruct (kget k d) as [[z|l]|] eqn:EK; cbn in *; try exact K2.
      destruct K2 as (o & l' & O1 & O2 & O3 & O4). rewrite app_length in O3. exists o, l'. split; [|split; [exact O2|split; [lia|exact O4]]].
      assert (L : (l < List.length h)%nat) by (apply kget_In' in EK as (k' & I); apply (C k'); right; exact I). rewrite nth_error_app1 in O1 by exact L. exact O1.
Qed.
Lemma copied_later h t h' v v' : (forall l, v = Some (CRef l) -> (l < List.length h)%nat) -> copied_in (h ++ t) h' v v' -> copied_in h h' v v'.
Proof.
  intros C. destruct v as [[z|l]|]; cbn; auto. intros (o & l' & O1 & O2 & O3 & O4). rewrite app_length in O3. exists o, l'. rewrite nth_error_app1 in O1 by (apply C; reflexivity). repeat split; try assumption. lia.
Qed.
Lemma copied_more h h' t v v' : copied_in h h' v v' -> copied_in h (h' ++ t) v v'.
Proof.
  destruct v as [[z|l]|]; cbn; auto. intros (o & l' & O1 & O2 & O3 & O4). exists o, l'. rewrite nth_error_app1 by (apply nth_error_Some; congruence). auto.
Qed.
Definition held_exist (w : cworld) (d : list (key * cval)) : Prop := forall k l, In (k, CRef l) d -> (l < List.length (w_heap w))%nat.
Lemma clone_start extra w : NoDup (map fst (ac_st (w_real w))) -> NoDup (map fst (ac_kn (w_real w))) -> NoDup (map fst extra) ->
  held_exist w (ac_st (w_real w)) -> held_exist w (ac_kn (w_real w)) -> held_exist w extra ->
  let w' := clone extra w in
  (forall k, copied w w' (kget k (ac_st (w_real w))) (u_state w' k)) /\
  (forall k, copied w w' (match kget k extra with Some v => Some v | None => kget k (ac_kn (w_real w)) end) (u_know w' k)) /\
  u_clock w' = ac_clock (w_real w) /\ ac_q (w_und w') = ac_q (w_real w) /\ w_lists w' = w_lists w.
Proof.
  intros N1 N2 N3 H1 H2 H3. unfold clone. destruct (copy_all (w_heap w) (ac_st (w_real w)) []) as [h1 st] eqn:E1.
  destruct (copy_all h1 (ac_kn (w_real w)) []) as [h2 kn0] eqn:E2. destruct (copy_all h2 extra kn0) as [h3 kn] eqn:E3.
  apply copy_all_spec in E1 as [(t1 & X1) S]; [|assumption|exact H1]. rewrite X1 in E2. apply copy_all_spec in E2 as [(t2 & X2) K]; [|assumption|intros k l I; rewrite app_length; pose proof (H2 k l I); lia].
  rewrite X2 in E3. apply copy_all_spec in E3 as [(t3 & X3) X]; [|assumption|intros k l I; rewrite !app_length; pose proof (H3 k l I); lia]. cbn zeta.
  split; [|split; [|split; [|split]]]; try reflexivity; intro k; unfold u_state, u_know, copied; cbn [w_und ac_st ac_kn w_heap].
  - change (copied_in (w_heap w) h3 (kget k (ac_st (w_real w))) (kget k st)). destruct (S k) as [S1 S2]. destruct (kget k (ac_st (w_real w))) as [v|] eqn:E.
    + rewrite X3. apply copied_more. apply copied_more. rewrite <- X1. apply S2. discriminate.
    + cbn. exact (S1 eq_refl).
  - change (copied_in (w_heap w) h3 (match kget k extra with Some v => Some v | None => kget k (ac_kn (w_real w)) end) (kget k kn)). destruct (X k) as [X4 X5]. destruct (kget k extra) as [v|] eqn:E.
    + eapply (copied_later _ t1). { intros l EL. injection EL as ->. apply kget_In' in E as (j & I). eapply H3. exact I. }
      eapply (copied_later _ t2). { intros l EL. injection EL as ->. apply kget_In' in E as (j & I). rewrite app_length. pose proof (H3 _ _ I). lia. }
      apply X5. discriminate.
    + rewrite (X4 eq_refl). destruct (K k) as [K1 K2]. destruct (kget k (ac_kn (w_real w))) as [v|] eqn:EK.
      * rewrite X3. apply copied_more. rewrite <- X2. eapply (copied_later _ t1). { intros l EL. injection EL as ->. apply kget_In' in EK as (j & I). eapply H2. exact I. } apply K2. discriminate.
      * cbn. exact (K1 eq_refl).
Qed.

(** ** Networks *)
Section Net.
Variable d : netdef.
Variable n : string.
Variable plan : string -> cworld -> list cop * bool.
Variable names : list string.
Variable endt : option string.
Notation turn := (nturn d n plan names endt).
Notation loop := (nloop d n plan names endt).

Lemma smem_In x l : smem x l = true <-> In x l.
Proof. unfold smem. rewrite existsb_exists. split; [intros (y & I & E); apply String.eqb_eq in E; congruence|intro I; exists x; split; [exact I|apply String.eqb_refl]]. Qed.
Lemma feasible_allowed t f : is_feasible d t f = Some true <-> allowed d t f.
Proof.
  unfold is_feasible, allowed. destruct (sget t (n_links d)) as [lk|].
  - split; [intro H; injection H as H; exists lk; split; [reflexivity|apply smem_In; exact H]|intros (lk' & E & I); injection E as <-; apply smem_In in I; rewrite I; reflexivity].
  - split; [discriminate|intros (lk & E & _); discriminate].
Qed.
Lemma eqb_end t : endt <> Some t -> (match endt with Some e => String.eqb e t | None => false end) = false.
Proof. destruct endt as [e|]; [|reflexivity]. intro N. apply String.eqb_neq. congruence. Qed.
Definition may_follow (idx : nat) (t : string) : Prop := forall f, nth_error names (S idx) = Some f -> allowed d t f.
Lemma turn_listed idx last w t : nth_error names idx = Some t -> endt <> Some t ->
  (exists w2, did_one d plan idx t w w2 /\ may_follow idx t /\ turn idx last w = (w2, NMore, Some t)) \/
  (~ (exists w2, did_one d plan idx t w w2 /\ may_follow idx t) /\ snd (fst (turn idx last w)) = NRaised).
Proof.
  intros E NE. unfold nturn. rewrite E, (eqb_end t NE). destruct (sget t (n_classes d)) as [c|] eqn:EC.
  2:{ right. split; [intros (w2 & (X & _) & _); congruence|reflexivity]. }
  cbv zeta. destruct (plan t (with_cur w (Some t) (Some idx))) as [os [|]] eqn:EP.
  2:{ right. split; [intros (w2 & (_ & os' & X & _) & _); congruence|reflexivity]. }
  assert (D : did_one d plan idx t w (crun (with_cur w (Some t) (Some idx)) os)) by (split; [congruence|exists os; auto]).
  destruct (nth_error names (S idx)) as [f|] eqn:EF.
  - destruct (is_feasible d t f) as [[|]|] eqn:FE.
    + left. eexists. split; [exact D|]. split; [|reflexivity]. intros f' EF'. rewrite EF in EF'. injection EF' as <-. apply feasible_allowed. exact FE.
    + right. split; [|reflexivity]. intros (w2 & _ & M). specialize (M f EF). apply feasible_allowed in M. congruence.
    + right. split; [|reflexivity]. intros (w2 & _ & M). specialize (M f EF). apply feasible_allowed in M. congruence.
  - left. eexists. split; [exact D|]. split; [|reflexivity]. intros f' EF'. congruence.
Qed.
Lemma did_one_det i t w w1 w2 : did_one d plan i t w w1 -> did_one d plan i t w w2 -> w1 = w2.
Proof. intros (_ & os & E & ->) (_ & os' & E' & ->). congruence. Qed.
Fixpoint last_of (l : option string) (ts : list string) : option string := match ts with [] => l | t :: ts' => last_of (Some t) ts' end.
Lemma last_of_app ts : forall l t, last_of l (ts ++ [t]) = Some t.
Proof. induction ts as [|a ts IH]; intros l t; cbn; [reflexivity|apply IH]. Qed.
Lemma skipn_cons {X} idx (l : list X) a r : skipn idx l = a :: r -> nth_error l idx = Some a /\ skipn (S idx) l = r.
Proof. revert l. induction idx as [|i IH]; intros [|y l] H; cbn in *; try discriminate; [injection H as -> ->; auto|apply IH; exact H]. Qed.
Lemma nth_skipn {X} idx (l : list X) : nth_error l idx = hd_error (skipn idx l).
Proof. revert l. induction idx as [|i IH]; intros [|y l]; cbn; auto. Qed.
Lemma loop_suffix : forall ts rest idx last w fuel, skipn idx names = ts ++ rest -> (forall t, In t ts -> endt <> Some t) -> (List.length ts <= fuel)%nat ->
  (exists w1, did d plan idx w ts w1 /\ linked d (ts ++ firstn 1 rest) /\ loop fuel idx last w = loop (fuel - List.length ts) (idx + List.length ts) (last_of last ts) w1) \/
  (~ (exists w1, did d plan idx w ts w1 /\ linked d (ts ++ firstn 1 rest)) /\ snd (loop fuel idx last w) = NRaised).
Proof.
  induction ts as [|t ts IH]; intros rest idx last w fuel S NE F.
  - left. exists w. split; [constructor|]. split; [destruct rest; cbn; exact I|]. cbn [List.length last_of]. rewrite Nat.sub_0_r, Nat.add_0_r. reflexivity.
  - destruct fuel as [|fuel]; [cbn in F; lia|]. cbn [app] in S. destruct (skipn_cons _ _ _ _ S) as [E S'].
    assert (MF : may_follow idx t <-> match ts ++ firstn 1 rest with f :: _ => allowed d t f | [] => True end).
    { unfold may_follow. rewrite nth_skipn, S'. destruct ts as [|x ts]; [destruct rest as [|y rest]|]; cbn; split; try congruence; auto. }
    assert (LK : linked d ((t :: ts) ++ firstn 1 rest) <-> may_follow idx t /\ linked d (ts ++ firstn 1 rest)).
    { rewrite MF. cbn [app linked]. destruct (ts ++ firstn 1 rest); tauto. }
    destruct (turn_listed idx last w t E (NE t (or_introl eq_refl))) as [(w2 & D & M & T)|[N T]].
    + cbn [nloop]. rewrite T. destruct (IH rest (Datatypes.S idx) (Some t) w2 fuel S' (fun x I => NE x (or_intror I))) as [(w1 & D1 & L1 & E1)|[N1 E1]]; [cbn in F; lia| |].
      * left. exists w1. split; [econstructor; eassumption|]. split; [apply LK; split; assumption|]. rewrite E1. cbn [List.length last_of]. replace (idx + Datatypes.S (List.length ts))%nat with (Datatypes.S idx + List.length ts)%nat by lia. reflexivity.
      * right. split; [|exact E1]. intros (w1 & D1 & L1). apply N1. inversion D1 as [|? ? ? w3 ? ? DO DR]; subst. rewrite (did_one_det _ _ _ _ _ DO D) in DR. exists w1. split; [exact DR|]. apply LK in L1. tauto.
    + right. split.
      * intros (w1 & D1 & L1). apply N. inversion D1 as [|? ? ? w3 ? ? DO DR]; subst. exists w3. split; [exact DO|]. apply LK in L1. tauto.
      * cbn [nloop]. destruct (turn idx last w) as [[w3 r] t3]. cbn in T. subst r. reflexivity.
Qed.
Lemma next_follows t w t' w' : next_clearing d n t w = Some (w', t') <-> follows d n t w t' w'.
Proof.
  unfold next_clearing, follows. rewrite queue_at_u. unfold u_queue. destruct (sget n (ac_q (w_und w))) as [i|].
  2:{ split; [discriminate|intros (_ & [(q & E & _)|(E & _)]); discriminate]. }
  destruct (sget t (n_links d)) as [lk|]; [|split; [discriminate|intros (X & _); congruence]].
  destruct (nth i (w_lists w) []) as [|x q].
  - destruct (l_default lk) as [x|] eqn:ED.
    + split; [intro H; injection H as <- <-; split; [discriminate|]; right; do 2 (split; [reflexivity|]); exists lk; auto|].
      intros (_ & [(q & E & _)|(_ & -> & lk' & E & E')]); [discriminate|]. congruence.
    + split; [discriminate|]. intros (_ & [(q & E & _)|(_ & -> & lk' & E & E')]); [discriminate|congruence].
  - split; [intro H; injection H as <- <-; split; [discriminate|]; left; exists q; split; [reflexivity|]; reflexivity|].
    intros (_ & [(q' & E & ->)|(E & _)]); [|discriminate]. injection E as <- <-. reflexivity.
Qed.
Variable e : string.
Hypothesis Ee : endt = Some e.
Lemma turn_after idx t w : (List.length names <= idx)%nat ->
  turn idx (Some t) w = match next_clearing d n t w with
    | None => (w, NRaised, None)
    | Some (w1, t') => if String.eqb e t' then (w1, NDone, Some t') else
        match sget t' (n_classes d) with
        | None => (with_cur w1 (Some t') (w_inst w1), NRaised, None)
        | Some _ => let '(os, ok) := plan t' (with_cur w1 (Some t') (Some idx)) in
                    if ok then (crun (with_cur w1 (Some t') (Some idx)) os, NMore, Some t') else (crun (with_cur w1 (Some t') (Some idx)) os, NRaised, None)
        end
    end.
Proof.
  intro L. unfold nturn. assert (E1 : nth_error names idx = None) by (apply nth_error_None; exact L). assert (E2 : nth_error names (Datatypes.S idx) = None) by (apply nth_error_None; lia).
  rewrite E1, E2, Ee. destruct (next_clearing d n t w) as [[w1 t']|]; reflexivity.
Qed.
Lemma loop_goes_on : forall fuel i t w w', (List.length names <= i)%nat -> loop fuel i (Some t) w = (w', NDone) -> exists ts, goes_on d plan n e i t w ts w'.
Proof.
  induction fuel as [|fuel IH]; intros i t w w' L H; [discriminate|]. cbn [nloop] in H. rewrite turn_after in H by exact L.
  destruct (next_clearing d n t w) as [[w1 t']|] eqn:EN; [|discriminate]. apply next_follows in EN. destruct (String.eqb_spec e t') as [<-|NE].
  - injection H as <-. exists []. constructor. exact EN.
  - destruct (sget t' (n_classes d)) as [c|] eqn:EC; [|discriminate]. destruct (plan t' (with_cur w1 (Some t') (Some i))) as [os [|]] eqn:EP; [|discriminate].
    destruct (IH (Datatypes.S i) t' _ w' ltac:(lia) H) as [ts G]. exists (t' :: ts). econstructor; [exact EN|congruence| |exact G]. split; [congruence|]. exists os. auto.
Qed.
Lemma goes_on_loop : forall ts i t w w' fuel, (List.length names <= i)%nat -> goes_on d plan n e i t w ts w' -> (List.length ts < fuel)%nat -> loop fuel i (Some t) w = (w', NDone).
Proof.
  induction ts as [|x ts IH]; intros i t w w' fuel L G F; (destruct fuel as [|fuel]; [cbn in F; lia|]); cbn [nloop]; rewrite turn_after by exact L.
  - inversion G as [? ? ? ? FO|]; subst. apply next_follows in FO. rewrite FO, String.eqb_refl. reflexivity.
  - inversion G as [|? ? ? ? w1 w2 ? ? FO NE DO G']; subst. apply next_follows in FO. rewrite FO. destruct (String.eqb_spec e x); [congruence|]. destruct DO as (C & os & EP & ->).
    destruct (sget x (n_classes d)); [|congruence]. rewrite EP. apply (IH (Datatypes.S i)); [lia|exact G'|cbn in F; lia].
Qed.
End Net.
Lemma loop_more d n plan names endt : forall fuel i last w w', nloop d n plan names endt fuel i last w = (w', NDone) -> forall fuel', (fuel <= fuel')%nat -> nloop d n plan names endt fuel' i last w = (w', NDone).
Proof.
  induction fuel as [|fuel IH]; intros i last w w' H fuel' F; [discriminate|]. destruct fuel' as [|fuel']; [lia|]. cbn [nloop] in *. destruct (nturn d n plan names endt i last w) as [[w1 r] t]. destruct r; try exact H. apply IH; [exact H|lia].
Qed.
Lemma listed d n plan names extra w fuel : (List.length names < fuel)%nat ->
  (exists w1, did d plan 0 (clone extra w) names w1 /\ linked d names /\ rehearse_network d n plan names None fuel extra w = (back_to w w1, NDone)) \/
  (~ (exists w1, did d plan 0 (clone extra w) names w1 /\ linked d names) /\ snd (rehearse_network d n plan names None fuel extra w) = NRaised).
Proof.
  intro F. pose proof (loop_suffix d n plan names None names [] 0 None (clone extra w) fuel (eq_sym (app_nil_r _)) ltac:(discriminate) ltac:(lia)) as H. cbn [firstn] in H. rewrite app_nil_r in H. unfold rehearse_network.
  destruct H as [(w1 & D & L & E)|[N E]].
  - left. exists w1. split; [exact D|]. split; [exact L|]. rewrite E. destruct (fuel - List.length names)%nat as [|f] eqn:EF; [lia|]. cbn [nloop Nat.add].
    assert (T : nturn d n plan names None (List.length names) (last_of None names) w1 = (w1, NDone, last_of None names)) by (unfold nturn; rewrite (proj2 (nth_error_None names (List.length names)) (le_n _)); reflexivity). rewrite T. reflexivity.
  - right. split; [exact N|]. destruct (nloop d n plan names None fuel 0 None (clone extra w)) as [w1 r]. cbn in E. subst r. reflexivity.
Qed.
Lemma until d n plan pre e post extra w fuel : ~ In e pre -> (List.length pre < fuel)%nat ->
  (exists w1, did d plan 0 (clone extra w) pre w1 /\ linked d (pre ++ [e]) /\ rehearse_network d n plan (pre ++ e :: post) (Some e) fuel extra w = (back_to w w1, NDone)) \/
  (~ (exists w1, did d plan 0 (clone extra w) pre w1 /\ linked d (pre ++ [e])) /\ snd (rehearse_network d n plan (pre ++ e :: post) (Some e) fuel extra w) = NRaised).
Proof.
  intros NI F. set (names := pre ++ e :: post). pose proof (loop_suffix d n plan names (Some e) pre (e :: post) 0 None (clone extra w) fuel eq_refl ltac:(intros t I X; injection X as <-; exact (NI I)) ltac:(lia)) as H. cbn [firstn] in H. unfold rehearse_network.
  destruct H as [(w1 & D & L & E)|[N E]].
  - left. exists w1. split; [exact D|]. split; [exact L|]. rewrite E. destruct (fuel - List.length pre)%nat as [|f] eqn:EF; [lia|]. cbn [nloop Nat.add].
    assert (T : nturn d n plan names (Some e) (List.length pre) (last_of None pre) w1 = (w1, NDone, Some e)).
    { unfold nturn, names. rewrite nth_error_app2, Nat.sub_diag by lia. cbn. rewrite String.eqb_refl. reflexivity. }
    rewrite T. reflexivity.
  - right. split; [exact N|]. destruct (nloop d n plan names (Some e) fuel 0 None (clone extra w)) as [w1 r]. cbn in E. subst r. reflexivity.
Qed.
Lemma beyond d n plan init t e extra w w' : ~ In e (init ++ [t]) ->
  (exists fuel, rehearse_network d n plan (init ++ [t]) (Some e) fuel extra w = (w', NDone)) <->
  exists w1 ts w2, did d plan 0 (clone extra w) (init ++ [t]) w1 /\ linked d (init ++ [t]) /\
    goes_on d plan n e (List.length (init ++ [t])) t w1 ts w2 /\ w' = back_to w w2.
Proof.
  intro NI. set (names := init ++ [t]) in *. unfold rehearse_network.
  assert (LS : forall fuel, (List.length names <= fuel)%nat -> _) by (intros fuel F; exact (loop_suffix d n plan names (Some e) names [] 0 None (clone extra w) fuel (eq_sym (app_nil_r _)) ltac:(intros x I X; injection X as <-; exact (NI I)) F)).
  cbn [firstn] in LS. rewrite app_nil_r in LS. assert (LO : last_of None names = Some t) by apply last_of_app. rewrite LO in LS. split.
  - intros (fuel0 & H0). destruct (nloop d n plan names (Some e) fuel0 0 None (clone extra w)) as [w2 r] eqn:E0. destruct r; try discriminate. injection H0 as <-.
    pose proof (loop_more _ _ _ _ _ _ _ _ _ _ E0 (fuel0 + List.length names)%nat ltac:(lia)) as E1.
    destruct (LS (fuel0 + List.length names)%nat ltac:(lia)) as [(w1 & D & L & E)|[_ E]]; [|rewrite E1 in E; discriminate].
    rewrite E1 in E. replace (fuel0 + List.length names - List.length names)%nat with fuel0 in E by lia. symmetry in E. cbn [Nat.add] in E.
    destruct (loop_goes_on d n plan names (Some e) e eq_refl _ _ _ _ _ (le_n _) E) as [ts G]. exists w1, ts, w2. auto.
  - intros (w1 & ts & w2 & D & L & G & ->). exists (List.length names + Datatypes.S (List.length ts))%nat.
    destruct (LS (List.length names + Datatypes.S (List.length ts))%nat ltac:(lia)) as [(w1' & D' & _ & E)|[N _]]; [|elim N; exists w1; auto].
    assert (X : forall ts i wa wb wc, did d plan i wa ts wb -> did d plan i wa ts wc -> wb = wc).
    { clear. induction ts as [|x ts IH]; intros i wa wb wc A B; inversion A; inversion B; subst; [reflexivity|]. eapply IH; [eassumption|]. match goal with H1 : did_one _ _ _ _ _ ?a, H2 : did_one _ _ _ _ _ ?b |- _ => rewrite (did_one_det _ _ _ _ _ _ _ H1 H2) end. assumption. }
    rewrite <- (X _ _ _ _ _ D D') in E. replace (List.length names + Datatypes.S (List.length ts) - List.length names)%nat with (Datatypes.S (List.length ts)) in E by lia. cbn [Nat.add] in E.
    rewrite (goes_on_loop d n plan names (Some e) e eq_refl ts _ _ _ _ _ (le_n _) G (Nat.lt_succ_diag_r _)) in E. rewrite E. reflexivity.
Qed.
(** Without queues *)
Lemma step_quiet w o m : no_queues o -> u_queue (fst (cstep w o)) m = u_queue w m.
Proof.
  intro H. destruct o as [k e|k e|k|p f e|p f|n|n l|n|n t|t]; cbn in H; try contradiction; cbn [cstep];
    repeat match goal with |- context [match ?x with _ => _ end] => destruct x end; reflexivity.
Qed.
Lemma run_quiet os : forall w m, Forall no_queues os -> u_queue (crun w os) m = u_queue w m.
Proof. induction os as [|o os IH]; intros w m F; cbn [crun]; [reflexivity|]. inversion F; subst. rewrite IH by assumption. apply step_quiet. assumption. Qed.
Lemma did_quiet d plan m : (forall t w, Forall no_queues (fst (plan t w))) -> forall i t w w', did_one d plan i t w w' -> u_queue w' m = u_queue w m.
Proof. intros Q i t w w' (_ & os & E & ->). rewrite run_quiet; [reflexivity|]. specialize (Q t (with_cur w (Some t) (Some i))). rewrite E in Q. exact Q. Qed.
Lemma goes_defaults d plan n e : (forall t w, Forall no_queues (fst (plan t w))) -> forall ts i t w w', u_queue w n = Some [] ->
  goes_on d plan n e i t w ts w' <-> defaults d t (ts ++ [e]) /\ ~ In e ts /\ did d plan i w ts w'.
Proof.
  intro Q. induction ts as [|x ts IH]; intros i t w w' E.
  - split.
    + intro G. inversion G as [? ? ? ? (_ & [(q & X & _)|(_ & -> & lk & L & D)])|]; subst; [congruence|]. split; [cbn; split; [exists lk; auto|exact I]|]. split; [intros []|constructor].
    + intros (((lk & L1 & L2) & _) & _ & DD). inversion DD; subst. constructor. split; [congruence|]. right. split; [exact E|]. split; [reflexivity|]. exists lk. auto.
  - split.
    + intro G. inversion G as [|? ? ? ? w1 w2 ? ? FO NE DO G']; subst. destruct FO as (_ & [(q & X & _)|(_ & -> & lk & L & D)]); [congruence|].
      apply IH in G' as (A & B & C); [|rewrite (did_quiet d plan n Q _ _ _ _ DO); exact E]. split; [cbn; split; [exists lk; auto|exact A]|]. split; [intros [X|X]; [congruence|exact (B X)]|econstructor; eassumption].
    + intros (((lk & L1 & L2) & D) & N & DD). inversion DD as [|? ? ? w1 ? ? DO DR]; subst. econstructor; [|intro X; apply N; left; exact X|exact DO|].
      * split; [congruence|]. right. split; [exact E|]. split; [reflexivity|]. exists lk. auto.
      * apply IH; [rewrite (did_quiet d plan n Q _ _ _ _ DO); exact E|]. split; [exact D|]. split; [intro X; apply N; right; exact X|exact DR].
Qed.
Lemma did_clock d plan (T : string -> Q) : (forall t w, takes (fst (plan t w)) == T t) -> forall ts i w w', did d plan i w ts w' -> u_clock w' == u_clock w + fold_right Qplus 0 (map T ts).
Proof.
  intros H. induction ts as [|t ts IH]; intros i w w' D; inversion D as [|? ? ? w1 ? ? (C & os & E & W) DR]; subst; cbn [map fold_right]; [lra|].
  rewrite (IH _ _ _ DR), run_clock. pose proof (H t (with_cur w (Some t) (Some i))) as X. rewrite E in X. cbn [fst] in X. rewrite X. unfold u_clock. cbn. lra.
Qed.

(** ** Nothing refers to what does not exist *)
Lemma there_exist w : all_there w -> exist_all w.
Proof.
  intros (S & K & C) p. induction p as [k|k|p IH f]; intros l H; unfold u_at in *; cbn in H; [exact (S _ _ H)|exact (K _ _ H)|].
  destruct (look (w_heap w) (w_und w) p) as [[z|m]|]; try discriminate.
  match type of H with match ?x with _ => _ end = _ => destruct x as [o|] eqn:EO end; [|discriminate]. exact (C _ _ EO _ _ H).
Qed.
Definition val_in (h : list cobj) (v : cval) : Prop := match v with CRef l => (l < List.length h)%nat | _ => True end.
Definition all_in (h : list cobj) (d : list (key * cval)) : Prop := forall k l, kget k d = Some (CRef l) -> (l < List.length h)%nat.
Lemma all_in_set h d k v : all_in h d -> val_in h v -> all_in h (kset k v d).
Proof. intros A V j l. rewrite kget_kset. destruct (Z.eqb k j); [intro H; injection H as ->; exact V|apply A]. Qed.
Lemma all_in_del h d k : all_in h d -> all_in h (kdel k d).
Proof. intros A j l. rewrite kget_kdel'. destruct (Z.eqb j k); [discriminate|apply A]. Qed.
Lemma all_in_more h h' d : (List.length h <= List.length h')%nat -> all_in h d -> all_in h' d.
Proof. intros L A k l H. specialize (A k l H). lia. Qed.
Lemma length_upd {X} (x : X) : forall h i, List.length (upd i x h) = List.length h.
Proof. induction h as [|y h IH]; intros [|i]; cbn; auto. Qed.
Lemma eval_there w e h v : all_there w -> eval (w_heap w) (w_und w) e = Some (h, v) ->
  (List.length (w_heap w) <= List.length h)%nat /\ val_in h v /\ (forall i o, nth_error h i = Some o -> all_in h o).
Proof.
  intros T. pose proof (there_exist w T) as X. destruct T as (S & K & C). destruct e as [z|p|]; cbn; intro H.
  - injection H as <- <-. split; [lia|]. split; [exact I|exact C].
  - destruct (look (w_heap w) (w_und w) p) as [u|] eqn:E; [|discriminate]. injection H as <- <-. split; [lia|]. split; [destruct u; cbn; [exact I|exact (X p _ E)]|exact C].
  - injection H as <- <-. rewrite app_length. cbn. split; [lia|]. split; [rewrite app_length; cbn; lia|]. intros i o E. destruct (Nat.lt_ge_cases i (List.length (w_heap w))) as [L|L].
    + rewrite nth_error_app1 in E by exact L. apply (all_in_more (w_heap w)); [rewrite app_length; cbn; lia|exact (C _ _ E)].
    + rewrite nth_error_app2 in E by exact L. destruct (i - List.length (w_heap w))%nat as [|[|x]]; cbn in E; try discriminate. injection E as <-. intros k l Y. discriminate.
Qed.
Lemma there_upd h l o o' : nth_error h l = Some o -> all_in h o' -> (forall i x, nth_error h i = Some x -> all_in h x) ->
  forall i x, nth_error (upd l o' h) i = Some x -> all_in (upd l o' h) x.
Proof.
  intros E A C i x. rewrite upd_nth. intro H.
  apply (all_in_more h); [rewrite length_upd; lia|].
  destruct (Nat.eqb l i); [|exact (C _ _ H)]. match type of H with match ?x with _ => _ end = _ => destruct x end; [|discriminate]. injection H as <-. exact A.
Qed.
Lemma there_step w o : all_there w -> all_there (fst (cstep w o)).
Proof.
  intros T. pose proof T as (S & K & C). destruct o as [k e|k e|k|p f e|p f|n|n l|n|n t|t]; cbn [cstep].
  - destruct (eval (w_heap w) (w_und w) e) as [[h v]|] eqn:E; [|exact T]. destruct (eval_there w e h v T E) as (L & V & C'). split; [|split]; cbn.
    + apply all_in_set; [apply (all_in_more (w_heap w)); assumption|exact V].
    + apply (all_in_more (w_heap w)); assumption.
    + exact C'.
  - destruct (eval (w_heap w) (w_und w) e) as [[h v]|] eqn:E; [|exact T]. destruct (eval_there w e h v T E) as (L & V & C'). split; [|split]; cbn.
    + apply (all_in_more (w_heap w)); assumption.
    + apply all_in_set; [apply (all_in_more (w_heap w)); assumption|exact V].
    + exact C'.
  - destruct (kmem k (ac_kn (w_und w))); [|exact T]. split; [exact S|]. split; [apply all_in_del; exact K|exact C].
  - destruct (eval (w_heap w) (w_und w) e) as [[h v]|] eqn:E; [|exact T]. destruct (eval_there w e h v T E) as (L & V & C').
    destruct (look h (w_und w) p) as [[z|l]|]; try exact T. destruct (nth_error h l) as [ob|] eqn:EO; [|exact T]. split; [|split]; cbn.
    + apply (all_in_more (w_heap w)); [eapply Nat.le_trans; [exact L|apply Nat.eq_le_incl; symmetry; apply length_upd]|exact S].
    + apply (all_in_more (w_heap w)); [eapply Nat.le_trans; [exact L|apply Nat.eq_le_incl; symmetry; apply length_upd]|exact K].
    + apply (there_upd h l ob); [exact EO|apply all_in_set; [exact (C' _ _ EO)|exact V]|exact C'].
  - destruct (look (w_heap w) (w_und w) p) as [[z|l]|]; try exact T. destruct (nth_error (w_heap w) l) as [ob|] eqn:EO; [|exact T]. split; [|split]; cbn.
    + apply (all_in_more (w_heap w)); [apply Nat.eq_le_incl; symmetry; apply length_upd|exact S].
    + apply (all_in_more (w_heap w)); [apply Nat.eq_le_incl; symmetry; apply length_upd|exact K].
    + apply (there_upd (w_heap w) l ob); [exact EO|apply all_in_del; exact (C _ _ EO)|exact C].
  - exact T.
  - destruct (queue_at w (w_und w) n) as [[i [|x q]]|]; exact T.
  - destruct (queue_at w (w_und w) n) as [[i [|x q]]|]; exact T.
  - destruct (queue_at w (w_und w) n) as [[i q]|]; exact T.
  - exact T.
Qed.
Lemma there_run os : forall w, all_there w -> all_there (crun w os).
Proof. induction os as [|o os IH]; intros w T; cbn [crun]; [exact T|apply IH, there_step, T]. Qed.
Lemma there_copy1 h v h' v' : (forall i x, nth_error h i = Some x -> all_in h x) -> val_in h v -> copy1 h v = (h', v') ->
  (List.length h <= List.length h')%nat /\ val_in h' v' /\ (forall i x, nth_error h' i = Some x -> all_in h' x).
Proof.
  intros C V. destruct v as [z|l]; cbn; [intro H; injection H as <- <-; split; [lia|]; split; [exact I|exact C]|].
  destruct (nth_error h l) as [o|] eqn:E; intro H; injection H as <- <-; [|split; [lia|]; split; [exact V|exact C]].
  rewrite app_length. cbn. split; [lia|]. split; [rewrite app_length; cbn; lia|]. intros i x EX. apply (all_in_more h); [rewrite app_length; lia|].
  destruct (Nat.lt_ge_cases i (List.length h)) as [L|L].
  - rewrite nth_error_app1 in EX by exact L. exact (C _ _ EX).
  - rewrite nth_error_app2 in EX by exact L. destruct (i - List.length h)%nat as [|[|y]]; cbn in EX; try discriminate. injection EX as <-. exact (C _ _ E).
Qed.
Lemma there_copy_all d : forall h acc h' d', (forall i x, nth_error h i = Some x -> all_in h x) -> (forall k l, In (k, CRef l) d -> (l < List.length h)%nat) -> all_in h acc ->
  copy_all h d acc = (h', d') -> (List.length h <= List.length h')%nat /\ all_in h' d' /\ (forall i x, nth_error h' i = Some x -> all_in h' x).
Proof.
  induction d as [|[j v] d IH]; intros h acc h' d' C D A E; cbn [copy_all] in E; [injection E as <- <-; split; [lia|]; split; assumption|].
  destruct (copy1 h v) as [h1 v1] eqn:E1. apply there_copy1 in E1 as (L & V & C1); [|exact C|destruct v; cbn; [exact I|apply (D j); left; reflexivity]].
  destruct (IH h1 (kset j v1 acc) h' d' C1) as (L2 & A2 & C2).
  - intros k l I. pose proof (D k l (or_intror I)). lia.
  - apply all_in_set; [apply (all_in_more h); assumption|exact V].
  - exact E.
  - split; [lia|]. split; assumption.
Qed.
Lemma there_clone extra w : closed w extra -> all_there (clone extra w).
Proof.
  intros [H C]. assert (C0 : forall i x, nth_error (w_heap w) i = Some x -> all_in (w_heap w) x).
  { intros i x E k l G. assert (I : In (k, CRef l) x) by (clear -G; induction x as [|[j v] x IH]; cbn in *; [discriminate|]; destruct (Z.eqb_spec j k); [injection G as ->; subst; left; reflexivity|right; auto]). exact (C _ _ _ _ E I). }
  assert (HS : forall k l, In (k, CRef l) (ac_st (w_real w)) -> (l < List.length (w_heap w))%nat) by (intros k l I; apply H; exists k; apply in_or_app; left; exact I).
  assert (HK : forall k l, In (k, CRef l) (ac_kn (w_real w)) -> (l < List.length (w_heap w))%nat) by (intros k l I; apply H; exists k; apply in_or_app; right; apply in_or_app; left; exact I).
  assert (HE : forall k l, In (k, CRef l) extra -> (l < List.length (w_heap w))%nat) by (intros k l I; apply H; exists k; apply in_or_app; right; apply in_or_app; right; exact I).
  unfold clone. destruct (copy_all (w_heap w) (ac_st (w_real w)) []) as [h1 st] eqn:E1. destruct (copy_all h1 (ac_kn (w_real w)) []) as [h2 kn0] eqn:E2. destruct (copy_all h2 extra kn0) as [h3 kn] eqn:E3.
  apply there_copy_all in E1 as (L1 & A1 & C1); [|exact C0|exact HS|intros k l X; discriminate].
  apply there_copy_all in E2 as (L2 & A2 & C2); [|exact C1|intros k l I; pose proof (HK k l I); lia|intros k l X; discriminate].
  apply there_copy_all in E3 as (L3 & A3 & C3); [|exact C2|intros k l I; pose proof (HE k l I); lia|exact A2].
  split; [|split]; cbn; [apply (all_in_more h1); [exact (Nat.le_trans _ _ _ L2 L3)|exact A1]|exact A3|exact C3].
Qed.
