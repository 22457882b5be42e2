(** Proofs: rehearsals that trigger no event of the simulation are not seen in it. *)
From Verif Require Import Common StateModel KnowledgeModel KevModel KevSpec.

Local Arguments real_obj : simpl never. Local Arguments real_sim : simpl never. Local Arguments Nat.ltb : simpl never.

(** ** Equality of names *)
Lemma oid_eqb_eq a b : oid_eqb a b = true <-> a = b.
Proof.
  destruct a as [a1 a2], b as [b1 b2]. unfold oid_eqb. cbn. rewrite andb_true_iff, !Nat.eqb_eq. split; [intros [-> ->]; reflexivity|].
  intros [= -> ->]. auto.
Qed.
Lemma sid_eqb_eq a b : sid_eqb a b = true <-> a = b.
Proof.
  destruct a as [a1 a2], b as [b1 b2]. unfold sid_eqb. cbn. rewrite andb_true_iff, oid_eqb_eq, Nat.eqb_eq. split; [intros [-> ->]; reflexivity|].
  intros [= -> ->]. auto.
Qed.
Lemma put_nth {X} i (x : X) l j : nth_error (put i x l) j = if Nat.eqb i j then match nth_error l j with Some _ => Some x | None => None end else nth_error l j.
Proof. revert i j. induction l as [|y l IH]; intros [|i] [|j]; cbn; auto. destruct (Nat.eqb i j); reflexivity. Qed.
Lemma put_len {X} i (x : X) l : List.length (put i x l) = List.length l.
Proof. revert i. induction l as [|y l IH]; intros [|i]; cbn; auto. Qed.

(** ** Dictionaries *)
Definition owned (m : nat) (b : bool) (d : list (key * kv)) : Prop := forall n o, In (n, VEvent o) d -> real_obj m o = b.
Lemma kset_in {X} k (x : X) d n y : In (n, y) (kset k x d) -> (n = k /\ y = x) \/ In (n, y) d.
Proof.
  induction d as [|[j z] d IH]; cbn.
  - intros [[= <- <-]|[]]. auto.
  - destruct (Z.eqb j k) eqn:E; cbn.
    + intros [[= <- <-]|H]; [apply Z.eqb_eq in E; subst; auto|auto].
    + intros [[= <- <-]|H]; [auto|]. destruct (IH H); auto.
Qed.
Lemma kget_in {X} k (d : list (key * X)) x : kget k d = Some x -> In (k, x) d.
Proof. induction d as [|[j z] d IH]; cbn; [discriminate|]. destruct (Z.eqb j k) eqn:E; [intros [= <-]; apply Z.eqb_eq in E; subst; auto|auto]. Qed.
Lemma kdel_in {X} k (d : list (key * X)) y : In y (kdel k d) -> In y d.
Proof. unfold kdel. rewrite filter_In. tauto. Qed.

(** ** The invariant *)
Record inv (w : kw) : Prop := {
  i_len : (k_real w <= List.length (k_acts w))%nat;
  i_act : forall a x, nth_error (k_acts w) a = Some x ->
            a_reh x = negb (Nat.ltb a (k_real w)) /\ owned (k_real w) (Nat.ltb a (k_real w)) (a_know x);
  i_obj : forall o e, k_objs w o = Some e -> real_obj (k_real w) o = true -> real_sim (k_real w) (e_sim e) = true;
  i_wait : forall s x, k_sims w s = Some x -> real_sim (k_real w) s = false -> s_wait x = [];
  i_who : forall s x p o, k_sims w s = Some x -> In (p, o) (s_wait x) -> real_obj (k_real w) o = true;
  i_agenda : forall s, In s (k_agenda w) -> k_sims w s <> None;
  i_ready : forall p o, In (p, o) (k_ready w) -> real_obj (k_real w) o = true }.

Lemma inv_acts w l : inv w -> (k_real w <= List.length l)%nat ->
  (forall a x, nth_error l a = Some x -> a_reh x = negb (Nat.ltb a (k_real w)) /\ owned (k_real w) (Nat.ltb a (k_real w)) (a_know x)) ->
  inv (set_acts w l).
Proof. intros [] H1 H2. constructor; cbn; auto. Qed.
Lemma inv_put w a x y : inv w -> nth_error (k_acts w) a = Some x -> a_reh y = a_reh x ->
  owned (k_real w) (Nat.ltb a (k_real w)) (a_know y) -> inv (set_acts w (put a y (k_acts w))).
Proof.
  intros I H R O. apply inv_acts; [exact I|rewrite put_len; apply I|].
  intros b z Hz. rewrite put_nth in Hz. destruct (Nat.eqb a b) eqn:E; [|apply (i_act w I b z Hz)].
  apply Nat.eqb_eq in E. subst b. rewrite H in Hz. injection Hz as <-. rewrite R. split; [apply (i_act w I a x H)|exact O].
Qed.
Lemma inv_obj w o e : inv w -> (real_obj (k_real w) o = true -> real_sim (k_real w) (e_sim e) = true) -> inv (set_obj w o e).
Proof.
  intros I H. destruct I. constructor; cbn; auto.
  intros o' e'. destruct (oid_eqb o' o) eqn:E; [|apply i_obj0].
  apply oid_eqb_eq in E. subst. intros [= <-]. exact H.
Qed.
Lemma inv_sim w s x : inv w -> (real_sim (k_real w) s = false -> s_wait x = []) -> (forall p o, In (p, o) (s_wait x) -> real_obj (k_real w) o = true) ->
  inv (set_sim w s x).
Proof.
  intros I H1 H2. destruct I. constructor; cbn; auto.
  - intros s' x'. destruct (sid_eqb s' s) eqn:E; [|eauto]. apply sid_eqb_eq in E. subst. intros [= <-]. exact H1.
  - intros s' x' p o. destruct (sid_eqb s' s) eqn:E; [|eauto]. intros [= <-]. apply H2.
  - intros s' Hs. destruct (sid_eqb s' s); [discriminate|auto].
Qed.
Lemma inv_make w o n : inv w -> inv (make_sim w o n).
Proof. intro I. apply inv_sim; [exact I|reflexivity|contradiction]. Qed.
Lemma inv_reset w o e : inv w -> inv (reset w o e).
Proof. intro I. unfold reset. apply inv_obj; [apply inv_make, I|]. cbn. auto. Qed.
Lemma inv_trigger w s : inv w -> inv (fst (trigger w s)).
Proof.
  intro I. unfold trigger. destruct (k_sims w s) as [[[] ws]|] eqn:E; try exact I. cbn [fst].
  assert (I1 : inv (set_sim w s (mkS Triggered ws))).
  { apply inv_sim; [exact I|apply (i_wait w I s _ E)|]. intros p o H. apply (i_who w I s _ p o E H). }
  destruct I1. constructor; cbn in *; auto.
  intros s' H. apply in_app_or in H. destruct H as [H|[<-|[]]]; [auto|].
  replace (sid_eqb s s) with true by (symmetry; apply sid_eqb_eq; reflexivity). discriminate.
Qed.
Lemma inv_succeed w o e p : inv w -> (real_obj (k_real w) o = true -> real_sim (k_real w) (e_sim e) = true) -> inv (fst (succeed w o e p)).
Proof. intros I H. unfold succeed. destruct (is_complete w e); [exact I|]. apply inv_trigger, inv_obj; [exact I|exact H]. Qed.

Lemma trigger_same w s : k_real (fst (trigger w s)) = k_real w /\ k_acts (fst (trigger w s)) = k_acts w /\ k_objs (fst (trigger w s)) = k_objs w.
Proof. unfold trigger. destruct (k_sims w s) as [[[] ws]|]; auto. Qed.
Lemma trigger_real w s : k_real (fst (trigger w s)) = k_real w.
Proof. apply trigger_same. Qed.
Lemma real_step w op : k_real (fst (kstep w op)) = k_real w.
Proof.
  assert (C : forall l w c n d, k_real (fst (fst (copy_all w c n l d))) = k_real w).
  { induction l as [|[k v] l IH]; intros w1 c n d; cbn; [reflexivity|]. unfold copy_value.
    destruct v as [o|z]; [destruct (k_objs w1 o)|]; rewrite IH; reflexivity. }
  destruct op as [a n|a n v ow|a n|a n auto|a n p|a o d|a extra| |]; cbn.
  - destruct (nth_error (k_acts w) a); reflexivity.
  - destruct (nth_error (k_acts w) a); [|reflexivity]. destruct (_ && _); reflexivity.
  - destruct (nth_error (k_acts w) a); [|reflexivity]. destruct (kmem _ _); reflexivity.
  - destruct (nth_error (k_acts w) a); [|reflexivity]. destruct (_ && _); reflexivity.
  - destruct (nth_error (k_acts w) a); [|reflexivity]. destruct (kget n _) as [[o|z]|]; try reflexivity.
    destruct (k_objs w o); [|reflexivity]. unfold succeed. destruct (is_complete _ _); [reflexivity|]. rewrite trigger_real; reflexivity.
  - destruct (nth_error (k_acts w) a) as [x|]; [|reflexivity]. destruct (k_objs w o) as [e|]; [|reflexivity]. destruct d; try reflexivity.
    + destruct (a_reh x); [reflexivity|]. unfold wait_on. destruct (is_complete w e); [destruct (e_auto e); [|reflexivity]|];
        match goal with |- context [match k_sims ?w ?s with _ => _ end] => destruct (k_sims w s) as [[? ?]|]; reflexivity end.
    + unfold succeed. destruct (is_complete _ _); [reflexivity|]. rewrite trigger_real; reflexivity.
    + rewrite trigger_real; reflexivity.
  - destruct (nth_error (k_acts w) a) as [x|]; [|reflexivity].
    pose proof (C (a_know x) w (List.length (k_acts w)) 0%nat []) as C1.
    destruct (copy_all w _ 0 (a_know x) []) as [[w1 n1] d1]. cbn in C1.
    pose proof (C extra w1 (List.length (k_acts w)) n1 d1) as C2.
    destruct (copy_all w1 _ n1 extra d1) as [[w2 n2] d2]. cbn in *. congruence.
  - destruct (k_ready w); [|reflexivity]. destruct (k_agenda w); [reflexivity|]. destruct (k_sims w _); reflexivity.
  - destruct (k_ready w) as [|[p o] l]; reflexivity.
Qed.

(** Copying: only Events of the clone are made *)
Definition beyond (c : nat) (w w' : kw) : Prop :=
  k_real w' = k_real w /\ k_acts w' = k_acts w /\ k_sims w' = k_sims w /\ k_agenda w' = k_agenda w /\ k_ready w' = k_ready w /\ k_next w' = k_next w /\
  forall o, fst o <> c -> k_objs w' o = k_objs w o.
Lemma copy_beyond c l : (forall w n d, let r := copy_all w c n l d in beyond c w (fst (fst r))).
Proof.
  induction l as [|[k v] l IH]; intros w n d; cbn; [repeat split|].
  assert (G : forall w1 n1 v1, beyond c w w1 -> beyond c w (fst (fst (copy_all w1 c n1 l (kset k v1 d))))).
  { intros w1 n1 v1 (A & B & C & D & E & F & G). destruct (IH w1 n1 (kset k v1 d)) as (A' & B' & C' & D' & E' & F' & G').
    repeat split; try congruence. intros o Ho. rewrite G' by exact Ho. apply G, Ho. }
  unfold copy_value. destruct v as [o|z]; [|apply G; repeat split]. destruct (k_objs w o) as [e|]; [|apply G; repeat split].
  apply G. repeat split. intros o' Ho. cbn. destruct (oid_eqb o' (c, n)) eqn:E; [|reflexivity].
  apply oid_eqb_eq in E. subst. exfalso. apply Ho. reflexivity.
Qed.
Lemma copy_inv c l : forall w n d, inv w -> (k_real w <= c)%nat -> owned (k_real w) false d ->
  let r := copy_all w c n l d in inv (fst (fst r)) /\ owned (k_real w) false (snd r).
Proof.
  induction l as [|[k v] l IH]; intros w n d I Hc Od; cbn; [auto|].
  assert (Nr : forall n, real_obj (k_real w) (c, n) = false) by (intro; apply Nat.ltb_ge; exact Hc).
  assert (G : forall v1, (forall o, v1 = VEvent o -> real_obj (k_real w) o = false) -> owned (k_real w) false (kset k v1 d)).
  { intros v1 Hv n0 o H. apply kset_in in H. destruct H as [[_ H]|H]; [apply Hv; auto|apply (Od n0 o H)]. }
  unfold copy_value. destruct v as [o|z].
  - destruct (k_objs w o) as [e|] eqn:E.
    + apply (IH (set_obj w (c, n) _)); [|exact Hc|apply G; intros ? [= <-]; apply Nr].
      apply inv_obj; [exact I|]. intro H. cbn in H. rewrite Nr in H. discriminate.
    + apply IH; auto. apply G. intros ? [= <-]. apply Nr.
  - apply IH; auto. apply G. discriminate.
Qed.

Lemma inv_step w op : inv w -> apart (k_real w) op -> inv (fst (kstep w op)).
Proof.
  intros I P. destruct op as [a n|a n v ow|a n|a n auto|a n p|a o d|a extra| |]; cbn [kstep]; unfold apart in P; cbn [author uses] in P.
  - destruct (nth_error (k_acts w) a); exact I.
  - destruct (nth_error (k_acts w) a) as [x|] eqn:E; [|exact I]. destruct (_ && _); [exact I|].
    apply (inv_put w a x); auto. cbn. intros n0 o H. apply kset_in in H. destruct H as [[_ <-]|H].
    + inversion P; assumption.
    + apply (i_act w I a x E) in H. exact H.
  - destruct (nth_error (k_acts w) a) as [x|] eqn:E; [|exact I]. destruct (kmem _ _); [|exact I].
    apply (inv_put w a x); auto. cbn. intros n0 o H. apply kdel_in in H. apply (i_act w I a x E) in H. exact H.
  - destruct (nth_error (k_acts w) a) as [x|] eqn:E; [|exact I].
    assert (I1 : inv (set_obj (make_sim w (a, a_made x) 0) (a, a_made x) (mkE ((a, a_made x), 0%nat) None auto 1))).
    { apply inv_obj; [apply inv_make, I|]. cbn. auto. }
    destruct (_ && _); cbn [fst].
    + apply (inv_put _ a x); auto. apply (i_act w I a x E).
    + apply (inv_put _ a x); auto. cbn. intros n0 o H. apply kset_in in H. destruct H as [[_ [= ->]]|H]; [reflexivity|].
      apply (i_act w I a x E) in H. exact H.
  - destruct (nth_error (k_acts w) a) as [x|] eqn:E; [|exact I]. destruct (kget n (a_know x)) as [[o|z]|] eqn:Eg; try exact I.
    assert (I1 : inv (set_know_of w a x (kdel n (a_know x)))).
    { apply (inv_put w a x); auto. cbn. intros n0 o' H. apply kdel_in in H. apply (i_act w I a x E) in H. exact H. }
    destruct (k_objs w o) as [e|] eqn:Eo; [|exact I1]. apply inv_succeed; [exact I1|]. apply (i_obj w I o e Eo).
  - destruct (nth_error (k_acts w) a) as [x|] eqn:E; [|exact I]. destruct (k_objs w o) as [e|] eqn:Eo; [|exact I]. pose proof (i_obj w I o e Eo) as Ho.
    assert (Pa : real_obj (k_real w) o = Nat.ltb a (k_real w)) by (inversion P; assumption).
    destruct d; cbn [fst]; try exact I.
    + destruct (i_act w I a x E) as [Ra _]. destruct (a_reh x); [exact I|].
        assert (La : Nat.ltb a (k_real w) = true) by (destruct (Nat.ltb a (k_real w)); cbn in Ra; congruence).
        rewrite La in Pa. unfold wait_on.
        assert (G : forall w1 e1, inv w1 -> k_real w1 = k_real w -> real_sim (k_real w1) (e_sim e1) = true ->
          inv (fst (match k_sims w1 (e_sim e1) with
            | Some (mkS k ws) => let w2 := set_sim w1 (e_sim e1) (mkS k (ws ++ [(k_next w1, o)])) in
                (mkK (k_real w2) (k_acts w2) (k_objs w2) (k_sims w2) (k_agenda w2) (k_ready w2) (S (k_next w2)), OWaits (k_next w1))
            | None => (w1, OBad) end))).
        { intros w1 e1 I1 R1 S1. destruct (k_sims w1 (e_sim e1)) as [[k ws]|] eqn:Es; [|exact I1]. cbn [fst].
          assert (I2 : inv (set_sim w1 (e_sim e1) (mkS k (ws ++ [(k_next w1, o)])))).
          { apply inv_sim; [exact I1|rewrite S1; discriminate|]. cbn. intros p o' H. apply in_app_or in H.
            destruct H as [H|[[= <- <-]|[]]]; [apply (i_who w1 I1 _ _ p o' Es H)|rewrite R1; exact Pa]. }
          destruct I2. constructor; auto. }
        destruct (is_complete w e); [destruct (e_auto e); [|exact I]|].
        -- apply G; [apply inv_reset, I|reflexivity|exact Pa].
        -- apply G; auto.
    + apply inv_succeed; auto.
    + apply inv_reset, I.
    + apply inv_trigger, I.
  - destruct (nth_error (k_acts w) a) as [x|] eqn:E; [|exact I].
    pose proof (copy_beyond (List.length (k_acts w)) (a_know x) w 0%nat []) as B1.
    pose proof (copy_inv (List.length (k_acts w)) (a_know x) w 0%nat [] I (i_len w I)) as C1.
    destruct (copy_all w _ 0 (a_know x) []) as [[w1 n1] d1]. cbn in B1, C1. destruct B1 as (R1 & A1 & _).
    destruct C1 as [I1 O1]; [intros ? ? []|].
    pose proof (copy_beyond (List.length (k_acts w)) extra w1 n1 d1) as B2.
    pose proof (copy_inv (List.length (k_acts w)) extra w1 n1 d1 I1) as C2. rewrite R1 in C2.
    destruct (copy_all w1 _ n1 extra d1) as [[w2 n2] d2]. cbn in B2, C2. destruct B2 as (R2 & A2 & _).
    destruct C2 as [I2 O2]; [apply (i_len w I)|exact O1|]. cbn [fst].
    apply inv_acts; [exact I2|rewrite app_length, A2, A1, R2, R1; pose proof (i_len w I); lia|].
    rewrite R2, R1, A2, A1. intros b y Hy. destruct (Nat.lt_ge_cases b (List.length (k_acts w))) as [L|L].
    + rewrite nth_error_app1 in Hy by exact L. apply (i_act w I b y Hy).
    + rewrite nth_error_app2 in Hy by exact L. destruct (b - List.length (k_acts w))%nat as [|q] eqn:Eq; [|destruct q; discriminate].
      injection Hy as <-. assert (Nat.ltb b (k_real w) = false) by (apply Nat.ltb_ge; pose proof (i_len w I); lia).
      rewrite H. cbn. auto.
  - destruct (k_ready w) eqn:Er; [|exact I]. destruct (k_agenda w) as [|s ag] eqn:Ea; [exact I|].
    destruct (k_sims w s) as [x|] eqn:Es; [|exact I]. cbn [fst].
    assert (I1 : inv (set_sim w s (mkS Processed []))) by (apply inv_sim; [exact I|reflexivity|contradiction]).
    destruct I1. constructor; cbn in *; auto.
    + intros s' H. apply i_agenda0. rewrite Ea. right. exact H.
    + intros p o H. apply (i_who w I s x p o Es H).
  - destruct (k_ready w) as [|[p o] l] eqn:Er; [exact I|]. destruct I. constructor; cbn; auto.
    intros p' o' H. apply (i_ready0 p' o'). rewrite Er. right. exact H.
Qed.

(** ** The simulation with rehearsals and without *)
Record rel (w v : kw) : Prop := {
  r_real : k_real v = k_real w;
  r_act : forall a, (a < k_real w)%nat -> nth_error (k_acts v) a = nth_error (k_acts w) a;
  r_obj : forall o, real_obj (k_real w) o = true -> k_objs v o = k_objs w o;
  r_sim : forall s, real_sim (k_real w) s = true -> k_sims v s = k_sims w s;
  r_agenda : k_agenda v = filter (real_sim (k_real w)) (k_agenda w);
  r_ready : k_ready v = k_ready w;
  r_next : k_next v = k_next w }.
Lemma rel_refl w : (forall s, In s (k_agenda w) -> real_sim (k_real w) s = true) -> rel w w.
Proof.
  intro H. constructor; auto. induction (k_agenda w) as [|s l IH]; [reflexivity|]. cbn. rewrite (H s (or_introl eq_refl)).
  f_equal. apply IH. intros s' S. apply H. right. exact S.
Qed.

(** Steps on both sides *)
Lemma rel_put w v a x : rel w v -> rel (set_acts w (put a x (k_acts w))) (set_acts v (put a x (k_acts v))).
Proof. intros []. constructor; cbn; auto. intros b Hb. rewrite !put_nth, (r_act0 b Hb). reflexivity. Qed.
Lemma rel_obj w v o e : rel w v -> rel (set_obj w o e) (set_obj v o e).
Proof. intros []. constructor; cbn; auto. intros o' H. destruct (oid_eqb o' o); auto. Qed.
Lemma rel_sim w v s x : rel w v -> rel (set_sim w s x) (set_sim v s x).
Proof. intros []. constructor; cbn; auto. intros s' H. destruct (sid_eqb s' s); auto. Qed.
Lemma rel_reset w v o e : rel w v -> rel (reset w o e) (reset v o e).
Proof. intro R. apply rel_obj, rel_sim, R. Qed.
Lemma rel_complete w v e : rel w v -> real_sim (k_real w) (e_sim e) = true -> is_complete v e = is_complete w e.
Proof. intros R H. unfold is_complete. rewrite (r_sim w v R _ H). reflexivity. Qed.
Lemma rel_trigger w v s : rel w v -> real_sim (k_real w) s = true ->
  snd (trigger v s) = snd (trigger w s) /\ rel (fst (trigger w s)) (fst (trigger v s)).
Proof.
  intros R H. unfold trigger. rewrite (r_sim w v R s H). destruct (k_sims w s) as [[[] ws]|]; cbn [fst snd]; auto.
  split; [reflexivity|]. pose proof (rel_sim w v s (mkS Triggered ws) R) as R1. destruct R1. constructor; cbn in *; auto.
  rewrite r_agenda0, filter_app. cbn. rewrite H. reflexivity.
Qed.
Lemma rel_succeed w v o e p : rel w v -> real_sim (k_real w) (e_sim e) = true ->
  snd (succeed v o e p) = snd (succeed w o e p) /\ rel (fst (succeed w o e p)) (fst (succeed v o e p)).
Proof.
  intros R H. unfold succeed. rewrite (rel_complete w v e R H). destruct (is_complete w e); [auto|].
  apply rel_trigger; [apply rel_obj, R|exact H].
Qed.

(** Steps that are not seen *)
Lemma rel_hid_put w v a x : rel w v -> (k_real w <= a)%nat -> rel (set_acts w (put a x (k_acts w))) v.
Proof.
  intros [] H. constructor; cbn; auto. intros b Hb. rewrite put_nth. destruct (Nat.eqb a b) eqn:E; [apply Nat.eqb_eq in E; lia|auto].
Qed.
Lemma rel_hid_obj w v o e : rel w v -> real_obj (k_real w) o = false -> rel (set_obj w o e) v.
Proof.
  intros [] H. constructor; cbn; auto. intros o' H'. destruct (oid_eqb o' o) eqn:E; [apply oid_eqb_eq in E; subst; congruence|auto].
Qed.
Lemma rel_hid_sim w v s x : rel w v -> real_sim (k_real w) s = false -> rel (set_sim w s x) v.
Proof.
  intros [] H. constructor; cbn; auto. intros s' H'. destruct (sid_eqb s' s) eqn:E; [apply sid_eqb_eq in E; subst; congruence|auto].
Qed.
Lemma rel_hid_trigger w v s : rel w v -> (forall s', snd (trigger w s) = OFired s' -> real_sim (k_real w) s' = false) -> rel (fst (trigger w s)) v.
Proof.
  intros R H. unfold trigger in *. destruct (k_sims w s) as [[[] ws]|]; try exact R. cbn [fst snd] in *.
  specialize (H s eq_refl). pose proof (rel_hid_sim w v s (mkS Triggered ws) R H) as R1. destruct R1. constructor; cbn in *; auto.
  rewrite r_agenda0, filter_app. cbn. rewrite H, app_nil_r. reflexivity.
Qed.
Lemma rel_hid_succeed w v o e p : rel w v -> real_obj (k_real w) o = false ->
  (forall s', snd (succeed w o e p) = OFired s' -> real_sim (k_real w) s' = false) -> rel (fst (succeed w o e p)) v.
Proof.
  intros R O H. unfold succeed in *. destruct (is_complete w e); [exact R|]. apply rel_hid_trigger; [apply rel_hid_obj; auto|exact H].
Qed.

Lemma hidden_step w v op : inv w -> rel w v -> apart (k_real w) op -> visible (k_real w) (op, snd (kstep w op)) = false ->
  (forall s a, snd (kstep w op) = OFired s -> author op = Some a -> (k_real w <= a)%nat -> real_sim (k_real w) s = false) ->
  rel (fst (kstep w op)) v.
Proof.
  intros I R P V H.
  assert (La : forall a, Nat.ltb a (k_real w) = false -> (k_real w <= a)%nat) by (intros a A; apply Nat.ltb_ge, A).
  destruct op as [a n|a n u ow|a n|a n auto|a n p|a o d|a extra| |]; unfold visible in V; unfold apart in P; cbn [author uses fst snd] in *.
  - cbn. destruct (nth_error (k_acts w) a); exact R.
  - cbn. destruct (nth_error (k_acts w) a) as [x|]; [|exact R]. destruct (_ && _); [exact R|]. apply rel_hid_put; auto.
  - cbn. destruct (nth_error (k_acts w) a) as [x|]; [|exact R]. destruct (kmem _ _); [|exact R]. apply rel_hid_put; auto.
  - cbn. destruct (nth_error (k_acts w) a) as [x|]; [|exact R].
    assert (R1 : rel (set_obj (make_sim w (a, a_made x) 0) (a, a_made x) (mkE ((a, a_made x), 0%nat) None auto 1)) v).
    { apply rel_hid_obj; [apply rel_hid_sim; [exact R|exact V]|exact V]. }
    destruct (_ && _); (match goal with |- rel (fst (set_acts ?w1 _, _)) _ => apply (rel_hid_put w1) end; [exact R1|apply La, V]).
  - cbn [kstep] in *. destruct (nth_error (k_acts w) a) as [x|] eqn:E; [|exact R]. destruct (kget n (a_know x)) as [[o|z]|] eqn:Eg; try exact R.
    assert (R1 : rel (set_know_of w a x (kdel n (a_know x))) v) by (apply rel_hid_put; auto).
    destruct (k_objs w o) as [e|]; [|exact R1]. apply rel_hid_succeed; [exact R1| |].
    + destruct (i_act w I a x E) as [_ O]. cbn. rewrite (O n o (kget_in _ _ _ Eg)). exact V.
    + intros s Hs. apply (H s a Hs eq_refl (La a V)).
  - cbn [kstep] in *. destruct (nth_error (k_acts w) a) as [x|] eqn:E; [|exact R]. destruct (k_objs w o) as [e|] eqn:Eo; [|exact R].
    assert (Po : real_obj (k_real w) o = false) by (inversion P; congruence).
    destruct (i_act w I a x E) as [Ra _]. rewrite V in Ra. cbn in Ra. rewrite Ra in *.
    destruct d; cbn [fst snd] in *; try exact R.
    + apply rel_hid_succeed; auto. intros s Hs. apply (H s a Hs eq_refl (La a V)).
    + apply rel_hid_obj; [apply rel_hid_sim; [exact R|exact Po]|exact Po].
    + apply rel_hid_trigger; auto. intros s Hs. apply (H s a Hs eq_refl (La a V)).
  - cbn. destruct (nth_error (k_acts w) a) as [x|]; [|exact R].
    pose proof (copy_beyond (List.length (k_acts w)) (a_know x) w 0%nat []) as B1.
    destruct (copy_all w _ 0 (a_know x) []) as [[w1 n1] d1]. cbn in B1.
    pose proof (copy_beyond (List.length (k_acts w)) extra w1 n1 d1) as B2.
    destruct (copy_all w1 _ n1 extra d1) as [[w2 n2] d2]. cbn in B2 |- *.
    destruct B1 as (A1 & A2 & A3 & A4 & A5 & A6 & A7), B2 as (C1 & C2 & C3 & C4 & C5 & C6 & C7). pose proof (i_len w I) as L. destruct R.
    constructor; cbn; rewrite ?C1, ?C2, ?C3, ?C4, ?C5, ?C6, ?A1, ?A2, ?A3, ?A4, ?A5, ?A6; auto.
    + intros b Hb. rewrite nth_error_app1 by lia. auto.
    + intros o Ho. assert (N : fst o <> List.length (k_acts w)) by (unfold real_obj in Ho; apply Nat.ltb_lt in Ho; lia).
      rewrite C7, A7 by exact N. auto.
  - cbn in *. destruct (k_ready w) eqn:Er; [|discriminate]. destruct (k_agenda w) as [|s ag] eqn:Ea; [discriminate|].
    destruct (k_sims w s) as [x|] eqn:Es; [|discriminate]. cbn in V |- *.
    pose proof (i_wait w I s x Es V) as Wx. destruct R. constructor; cbn; auto.
    + intros s' S. destruct (sid_eqb s' s) eqn:E; [apply sid_eqb_eq in E; subst; congruence|auto].
    + rewrite r_agenda0, Ea. cbn. rewrite V. reflexivity.
    + rewrite r_ready0, Er, Wx. reflexivity.
  - discriminate.
Qed.

Lemma seen_step w v op : inv w -> rel w v -> apart (k_real w) op -> visible (k_real w) (op, snd (kstep w op)) = true ->
  snd (kstep v op) = snd (kstep w op) /\ rel (fst (kstep w op)) (fst (kstep v op)).
Proof.
  intros I R P V.
  assert (La : forall a, Nat.ltb a (k_real w) = true -> nth_error (k_acts v) a = nth_error (k_acts w) a).
  { intros a A. apply Nat.ltb_lt in A. apply (r_act w v R a A). }
  destruct op as [a n|a n u ow|a n|a n auto|a n p|a o d|a extra| |]; unfold visible in V; unfold apart in P; cbn [author uses fst snd] in *.
  - cbn. rewrite (La a V). destruct (nth_error (k_acts w) a); auto.
  - cbn. rewrite (La a V). destruct (nth_error (k_acts w) a) as [x|]; [|auto]. destruct (_ && _); [auto|]. split; [reflexivity|]. apply rel_put, R.
  - cbn. rewrite (La a V). destruct (nth_error (k_acts w) a) as [x|]; [|auto]. destruct (kmem _ _); [|auto]. split; [reflexivity|]. apply rel_put, R.
  - cbn. rewrite (La a V). destruct (nth_error (k_acts w) a) as [x|]; [|auto].
    pose proof (rel_obj _ _ (a, a_made x) (mkE ((a, a_made x), 0%nat) None auto 1) (rel_sim w v ((a, a_made x), 0%nat) (mkS Pending []) R)) as R1.
    destruct (_ && _); (split; [reflexivity|]; cbn [fst]; apply (rel_put _ _ a _ R1)).
  - cbn [kstep]. rewrite (La a V). destruct (nth_error (k_acts w) a) as [x|] eqn:E; [|auto]. destruct (kget n (a_know x)) as [[o|z]|] eqn:Eg; auto.
    assert (Ro : real_obj (k_real w) o = true).
    { destruct (i_act w I a x E) as [_ O]. rewrite (O n o (kget_in _ _ _ Eg)). exact V. }
    rewrite (r_obj w v R o Ro). destruct (k_objs w o) as [e|] eqn:Eo; [|split; [reflexivity|apply rel_put, R]].
    apply rel_succeed; [apply rel_put, R|apply (i_obj w I o e Eo Ro)].
  - cbn [kstep]. rewrite (La a V). destruct (nth_error (k_acts w) a) as [x|] eqn:E; [|auto].
    assert (Ro : real_obj (k_real w) o = true) by (inversion P; congruence).
    rewrite (r_obj w v R o Ro). destruct (k_objs w o) as [e|] eqn:Eo; [|auto].
    pose proof (i_obj w I o e Eo Ro) as Rs.
    destruct d.
    + destruct (a_reh x); [auto|]. unfold wait_on. rewrite (rel_complete w v e R Rs).
      assert (G : forall w1 v1 e1, rel w1 v1 -> real_sim (k_real w1) (e_sim e1) = true ->
        let f w1 := match k_sims w1 (e_sim e1) with
            | Some (mkS k ws) => let w2 := set_sim w1 (e_sim e1) (mkS k (ws ++ [(k_next w1, o)])) in
                (mkK (k_real w2) (k_acts w2) (k_objs w2) (k_sims w2) (k_agenda w2) (k_ready w2) (S (k_next w2)), OWaits (k_next w1))
            | None => (w1, OBad) end in
        snd (f v1) = snd (f w1) /\ rel (fst (f w1)) (fst (f v1))).
      { intros w1 v1 e1 R1 S1. cbn zeta beta. rewrite (r_sim _ _ R1 _ S1). destruct (k_sims w1 (e_sim e1)) as [[k ws]|]; [|auto].
        cbn [fst snd]. rewrite (r_next _ _ R1). split; [reflexivity|].
        pose proof (rel_sim w1 v1 (e_sim e1) (mkS k (ws ++ [(k_next w1, o)])) R1) as R2. destruct R2. constructor; cbn in *; auto. }
      destruct (is_complete w e); [destruct (e_auto e); [|auto]|].
      * apply (G (reset w o e) (reset v o e)); [apply rel_reset, R|exact Ro].
      * apply (G w v e); auto.
    + apply rel_succeed; auto.
    + split; [reflexivity|]. apply rel_reset, R.
    + apply rel_trigger; auto.
    + split; [|exact R]. cbn. rewrite (rel_complete w v e R Rs). reflexivity.
    + auto.
  - discriminate.
  - cbn in *. rewrite (r_ready w v R). destruct (k_ready w) eqn:Er; [|auto]. rewrite (r_agenda w v R).
    destruct (k_agenda w) as [|s ag] eqn:Ea; [auto|].
    pose proof (i_agenda w I s) as Ix. rewrite Ea in Ix. specialize (Ix (or_introl eq_refl)).
    destruct (k_sims w s) as [x|] eqn:Es; [|congruence]. cbn in V. cbn. rewrite V. rewrite (r_sim w v R s V), Es. cbn. split; [reflexivity|].
    pose proof (rel_sim w v s (mkS Processed []) R) as R1. destruct R1. constructor; cbn in *; auto.
  - cbn. rewrite (r_ready w v R). destruct (k_ready w) as [|[p o] l] eqn:Er; [auto|]. cbn.
    assert (Ro : real_obj (k_real w) o = true) by (apply (i_ready w I p o); rewrite Er; left; reflexivity).
    rewrite (r_obj w v R o Ro). split; [reflexivity|]. destruct R. constructor; cbn; auto.
Qed.

Lemma unseen m os : forall w v, inv w -> rel w v -> k_real w = m -> Forall (apart m) os -> hands_off m (snd (krun w os)) ->
  let l := filter (visible m) (snd (krun w os)) in snd (krun v (map fst l)) = l /\ rel (fst (krun w os)) (fst (krun v (map fst l))).
Proof.
  induction os as [|op os IH]; intros w v I R M P H; cbn; [auto|].
  inversion P as [|? ? P1 P2]; subst.
  pose proof (inv_step w op I P1) as I1. pose proof (real_step w op) as M1.
  pose proof (hidden_step w v op I R P1) as Hh. pose proof (seen_step w v op I R P1) as Hs.
  cbn in H. destruct (kstep w op) as [w1 r] eqn:Ek. cbn [fst snd] in *.
  specialize (IH w1). destruct (krun w1 os) as [w2 l] eqn:Er. cbn [fst snd] in *.
  assert (H1 : hands_off (k_real w) l) by (intros o s a Hi; apply (H o s a); right; exact Hi).
  cbn [filter]. destruct (visible (k_real w) (op, r)) eqn:V; cbn [map fst krun].
  - destruct (Hs eq_refl) as [Eo R1]. destruct (kstep v op) as [v1 r1]. cbn in Eo, R1. subst r1.
    destruct (IH v1 I1 R1 M1 P2 H1) as [A B]. destruct (krun v1 (map fst (filter (visible (k_real w)) l))) as [v2 l2]. cbn in *. rewrite A. split; [reflexivity|exact B].
  - apply (IH v); auto. apply Hh; auto. intros s a -> Au La. apply (H op s a); auto. left. reflexivity.
Qed.

Lemma init_inv m : inv (kinit m).
Proof.
  constructor; cbn; try contradiction; try discriminate.
  - rewrite repeat_length. lia.
  - intros a x H. pose proof (nth_error_In _ _ H) as X. apply repeat_spec in X. subst x. cbn.
    assert (L : (a < m)%nat) by (rewrite <- (repeat_length (mkA [] false 0) m); apply nth_error_Some; congruence).
    replace (Nat.ltb a m) with true by (symmetry; apply Nat.ltb_lt; exact L). split; [reflexivity|intros ? ? []].
Qed.
Lemma run_inv m os : forall w, inv w -> k_real w = m -> Forall (apart m) os -> inv (fst (krun w os)) /\ k_real (fst (krun w os)) = m.
Proof.
  induction os as [|op os IH]; intros w I M P; cbn; [auto|]. inversion P as [|? ? P1 P2]; subst.
  pose proof (inv_step w op I P1) as I1. pose proof (real_step w op) as M1.
  destruct (kstep w op) as [w1 r]. cbn in *. specialize (IH w1 I1 M1 P2). destruct (krun w1 os). exact IH.
Qed.

(** ** Whatever rehearsed code does, the knowledge and the payloads of the simulation stay *)
Lemma firstn_put {X} m a (x : X) l : (m <= a)%nat -> firstn m (put a x l) = firstn m l.
Proof. revert a l. induction m as [|m IH]; intros [|a] [|y l] H; cbn; auto; try lia. rewrite IH by lia. reflexivity. Qed.
Lemma keeps_step w op a o : inv w -> apart (k_real w) op -> author op = Some a -> (k_real w <= a)%nat -> real_obj (k_real w) o = true ->
  real_know (fst (kstep w op)) = real_know w /\ k_objs (fst (kstep w op)) o = k_objs w o.
Proof.
  intros I P A L O. unfold real_know. rewrite real_step.
  assert (N : Nat.ltb a (k_real w) = false) by (apply Nat.ltb_ge; exact L).
  assert (Kp : forall w1 x, k_acts w1 = put a x (k_acts w) -> map a_know (firstn (k_real w) (k_acts w1)) = map a_know (firstn (k_real w) (k_acts w))).
  { intros w1 x ->. rewrite firstn_put by exact L. reflexivity. }
  assert (Ob : forall o', real_obj (k_real w) o' = false -> oid_eqb o o' = false).
  { intros o' H. destruct (oid_eqb o o') eqn:E; [apply oid_eqb_eq in E; subst; congruence|reflexivity]. }
  destruct op as [b n|b n u ow|b n|b n auto|b n p|b o' d|b extra| |]; cbn in A; try discriminate; injection A as ->; unfold apart in P; cbn [author uses] in P; cbn [kstep].
  - destruct (nth_error (k_acts w) a); auto.
  - destruct (nth_error (k_acts w) a) as [x|]; [|auto]. destruct (_ && _); [auto|]. split; [eapply Kp; reflexivity|reflexivity].
  - destruct (nth_error (k_acts w) a) as [x|]; [|auto]. destruct (kmem _ _); [|auto]. split; [eapply Kp; reflexivity|reflexivity].
  - destruct (nth_error (k_acts w) a) as [x|]; [|auto].
    destruct (_ && _); (split; [eapply Kp; reflexivity|cbn; rewrite Ob by exact N; reflexivity]).
  - destruct (nth_error (k_acts w) a) as [x|] eqn:E; [|auto]. destruct (kget n (a_know x)) as [[o'|z]|] eqn:Eg; auto.
    assert (Ro : real_obj (k_real w) o' = false).
    { destruct (i_act w I a x E) as [_ Ow]. rewrite (Ow n o' (kget_in _ _ _ Eg)). exact N. }
    destruct (k_objs w o') as [e|]; [|split; [eapply Kp; reflexivity|reflexivity]].
    unfold succeed. destruct (is_complete _ _); [split; [eapply Kp; reflexivity|reflexivity]|].
    destruct (trigger_same (set_obj (set_know_of w a x (kdel n (a_know x))) o' (mkE (e_sim e) p (e_auto e) (e_made e))) (e_sim e)) as (_ & T2 & T3).
    rewrite T3. split; [eapply Kp; exact T2|cbn; rewrite Ob by exact Ro; reflexivity].
  - destruct (nth_error (k_acts w) a) as [x|] eqn:E; [|auto]. destruct (k_objs w o') as [e|]; [|auto].
    assert (Ro : real_obj (k_real w) o' = false) by (inversion P; congruence).
    destruct (i_act w I a x E) as [Ra _]. rewrite N in Ra. cbn in Ra. rewrite Ra.
    destruct d; auto.
    + unfold succeed. destruct (is_complete _ _); [auto|].
      destruct (trigger_same (set_obj w o' (mkE (e_sim e) p (e_auto e) (e_made e))) (e_sim e)) as (_ & T2 & T3).
      rewrite T2, T3. split; [reflexivity|cbn; rewrite Ob by exact Ro; reflexivity].
    + cbn. rewrite Ob by exact Ro. auto.
    + destruct (trigger_same w (e_sim e)) as (_ & T2 & T3). rewrite T2, T3. auto.
Qed.

(** ** Clones that inherit no event *)
Definition strict (w : kw) : Prop := forall o e, k_objs w o = Some e -> real_obj (k_real w) o = false -> real_sim (k_real w) (e_sim e) = false.
Lemma strict_obj w o e : strict w -> (real_obj (k_real w) o = false -> real_sim (k_real w) (e_sim e) = false) -> strict (set_obj w o e).
Proof.
  intros S H o' e'. cbn. destruct (oid_eqb o' o) eqn:E; [|apply S]. apply oid_eqb_eq in E. subst. intros [= <-]. exact H.
Qed.
Lemma strict_same w w' : strict w -> k_real w' = k_real w -> k_objs w' = k_objs w -> strict w'.
Proof. unfold strict. intros S -> ->. exact S. Qed.
Lemma strict_trigger w s : strict w -> strict (fst (trigger w s)).
Proof. intro S. destruct (trigger_same w s) as (A & _ & B). apply (strict_same w); auto. Qed.
Lemma strict_succeed w o e p : strict w -> k_objs w o = Some e -> strict (fst (succeed w o e p)).
Proof.
  intros S H. unfold succeed. destruct (is_complete w e); [exact S|]. apply strict_trigger, strict_obj; [exact S|]. apply (S o e H).
Qed.
Lemma strict_reset w o e : strict w -> strict (reset w o e).
Proof. intro S. apply strict_obj; [apply (strict_same w); auto|]. cbn. auto. Qed.
Lemma strict_copy c m l : forall w n d, k_real w = m -> (m <= c)%nat -> strict w ->
  (forall k o e, In (k, VEvent o) l -> fst o <> c -> k_objs w o = Some e -> real_sim m (e_sim e) = false) ->
  strict (fst (fst (copy_all w c n l d))).
Proof.
  induction l as [|[k v] l IH]; intros w n d M Hc S F; cbn; [exact S|].
  assert (F' : forall k o e, In (k, VEvent o) l -> fst o <> c -> k_objs w o = Some e -> real_sim m (e_sim e) = false).
  { intros k0 o e H. apply (F k0 o e). right. exact H. }
  unfold copy_value. destruct v as [o|z]; [|apply IH; auto]. destruct (k_objs w o) as [e|] eqn:E; [|apply IH; auto].
  apply IH; auto.
  - apply strict_obj; [exact S|]. intros _. cbn. rewrite M. destruct (Nat.eq_dec (fst o) c) as [Q|Q].
    + rewrite <- M. apply (S o e E). unfold real_obj. apply Nat.ltb_ge. lia.
    + apply (F k o e (or_introl eq_refl) Q E).
  - intros k0 o0 e0 H Q. cbn. destruct (oid_eqb o0 (c, n)) eqn:E0; [apply oid_eqb_eq in E0; subst; cbn in Q; congruence|]. apply (F' k0 o0 e0 H Q).
Qed.
Lemma strict_step w op : strict w -> inv w -> apart (k_real w) op -> nothing_held (k_real w) w op -> strict (fst (kstep w op)).
Proof.
  intros S I P N. destruct op as [a n|a n u ow|a n|a n auto|a n p|a o d|a extra| |]; cbn [kstep].
  - destruct (nth_error (k_acts w) a); exact S.
  - destruct (nth_error (k_acts w) a); [|exact S]. destruct (_ && _); exact S.
  - destruct (nth_error (k_acts w) a); [|exact S]. destruct (kmem _ _); exact S.
  - destruct (nth_error (k_acts w) a) as [x|]; [|exact S].
    assert (S1 : strict (set_obj (make_sim w (a, a_made x) 0) (a, a_made x) (mkE ((a, a_made x), 0%nat) None auto 1))).
    { apply strict_obj; [exact S|]. cbn. auto. }
    destruct (_ && _); exact S1.
  - destruct (nth_error (k_acts w) a) as [x|]; [|exact S]. destruct (kget n (a_know x)) as [[o|z]|]; try exact S.
    destruct (k_objs w o) as [e|] eqn:E; [|exact S]. apply strict_succeed; [exact S|exact E].
  - destruct (nth_error (k_acts w) a) as [x|]; [|exact S]. destruct (k_objs w o) as [e|] eqn:E; [|exact S]. destruct d; try exact S.
    + destruct (a_reh x); [exact S|]. unfold wait_on. destruct (is_complete w e); [destruct (e_auto e); [|exact S]|].
      * destruct (k_sims _ _) as [[k ws]|]; apply strict_reset with (o := o) (e := e) in S; exact S.
      * destruct (k_sims _ _) as [[k ws]|]; exact S.
    + apply strict_succeed; auto.
    + apply strict_reset, S.
    + apply strict_trigger, S.
  - destruct (nth_error (k_acts w) a) as [x|] eqn:E; [|exact S].
    pose proof (strict_copy (List.length (k_acts w)) (k_real w) (a_know x) w 0%nat [] eq_refl (i_len w I) S) as C1.
    pose proof (copy_beyond (List.length (k_acts w)) (a_know x) w 0%nat []) as B1.
    destruct (copy_all w _ 0 (a_know x) []) as [[w1 n1] d1]. cbn in C1, B1. destruct B1 as (R1 & _ & _ & _ & _ & _ & O1).
    assert (S1 : strict w1).
    { apply C1. intros k o e Hi _ He. apply (N x k o e E); [apply in_or_app; left; exact Hi|exact He]. }
    pose proof (strict_copy (List.length (k_acts w)) (k_real w) extra w1 n1 d1 R1 (i_len w I) S1) as C2.
    destruct (copy_all w1 _ n1 extra d1) as [[w2 n2] d2]. cbn in C2 |- *. apply (strict_same w2); [|reflexivity|reflexivity].
    apply C2. intros k o e Hi Q He. rewrite O1 in He by exact Q. apply (N x k o e E); [apply in_or_app; right; exact Hi|exact He].
  - destruct (k_ready w); [|exact S]. destruct (k_agenda w); [exact S|]. destruct (k_sims w _); exact S.
  - destruct (k_ready w) as [|[p o] l]; exact S.
Qed.
Lemma trigger_fired w s s' : snd (trigger w s) = OFired s' -> s' = s.
Proof. unfold trigger. destruct (k_sims w s) as [[[] ws]|]; cbn; congruence. Qed.
Lemma succeed_fired w o e p s : snd (succeed w o e p) = OFired s -> s = e_sim e.
Proof. unfold succeed. destruct (is_complete w e); [discriminate|]. apply trigger_fired. Qed.
Lemma strict_fires w op a s : strict w -> inv w -> apart (k_real w) op -> author op = Some a -> (k_real w <= a)%nat ->
  snd (kstep w op) = OFired s -> real_sim (k_real w) s = false.
Proof.
  intros S I P A L. assert (N : Nat.ltb a (k_real w) = false) by (apply Nat.ltb_ge; exact L).
  destruct op as [b n|b n u ow|b n|b n auto|b n p|b o d|b extra| |]; cbn in A; try discriminate; injection A as ->; unfold apart in P; cbn [author uses] in P; cbn [kstep].
  - destruct (nth_error (k_acts w) a); discriminate.
  - destruct (nth_error (k_acts w) a); [|discriminate]. destruct (_ && _); discriminate.
  - destruct (nth_error (k_acts w) a); [|discriminate]. destruct (kmem _ _); discriminate.
  - destruct (nth_error (k_acts w) a); [|discriminate]. destruct (_ && _); discriminate.
  - destruct (nth_error (k_acts w) a) as [x|] eqn:E; [|discriminate]. destruct (kget n (a_know x)) as [[o|z]|] eqn:Eg; try discriminate.
    destruct (k_objs w o) as [e|] eqn:Eo; [|discriminate]. intro H. apply succeed_fired in H. subst s. apply (S o e Eo).
    destruct (i_act w I a x E) as [_ Ow]. rewrite (Ow n o (kget_in _ _ _ Eg)). exact N.
  - destruct (nth_error (k_acts w) a) as [x|] eqn:E; [|discriminate]. destruct (k_objs w o) as [e|] eqn:Eo; [|discriminate].
    assert (Ro : real_obj (k_real w) o = false) by (inversion P; congruence).
    destruct (i_act w I a x E) as [Ra _]. rewrite N in Ra. cbn in Ra. rewrite Ra.
    destruct d; cbn [snd]; try discriminate.
    + intro H. apply succeed_fired in H. subst s. apply (S o e Eo Ro).
    + intro H. apply trigger_fired in H. subst s. apply (S o e Eo Ro).
Qed.
Lemma strict_off m os : forall w, strict w -> inv w -> k_real w = m -> Forall (apart m) os -> always (nothing_held m) w os -> hands_off m (snd (krun w os)).
Proof.
  induction os as [|op os IH]; intros w S I M P N; [intros ? ? ? []|].
  inversion P as [|? ? P1 P2]; subst. cbn [always] in N. destruct N as [N1 N2].
  pose proof (strict_step w op S I P1 N1) as S1. pose proof (inv_step w op I P1) as I1. pose proof (real_step w op) as M1.
  pose proof (fun a s => strict_fires w op a s S I P1) as F.
  cbn [krun]. destruct (kstep w op) as [w1 r]. cbn [fst snd] in *. specialize (IH w1 S1 I1 M1 P2 N2).
  destruct (krun w1 os) as [w2 l]. cbn [snd] in *. intros o s a [[= <- ->]|H] Au La; [apply (F a s Au La eq_refl)|apply (IH o s a H Au La)].
Qed.
