(** Proofs for reservations with floats. *)
From Coq Require Import Qabs Qpower Qreduction.
From Verif Require Import Common ReserveModel ReserveSpec ReserveProofs RndModel RndSpec RndProofs RsvModel RsvSpec.
Section P.
Variables (u : Q) (rnd : Q -> Q).
Hypothesis R : rounding u rnd.
Variable keyof : Z -> Z.
Local Notation f_step := (f_step rnd keyof).
Local Notation f_run := (f_run rnd keyof).
Local Notation Pos := (ReserveProofs.Pos).

Lemma f_cancel_cases s r s' o rel : f_cancel rnd keyof s r = (s', (o, rel)) ->
  (s' = s /\ rel = None /\ (o = OCancelled false \/ o = OValueError)) \/
  (exists e, lookup keyof r (queued s) = Some e /\ o = OCancelled true /\ rel = Some e /\
     s' = mkSt (cap s) (now s) (rnd (level s + e_qty e)) (real_level s) (remove keyof r (queued s)) (timers s) (ser s)).
Proof.
  unfold f_cancel. destruct (lookup keyof r (queued s)) as [e|] eqn:El; [|intro H; injection H as <- <- <-; left; repeat split; auto].
  destruct (identical r (queued s)) as [|x l] eqn:Ei; intro H; injection H as <- <- <-; [left; repeat split; auto|].
  right. exists e. apply identical_spec in Ei. rewrite Ei. repeat split.
Qed.
Definition good (s : st) : Prop := NoDup (keys keyof (queued s)) /\ 0 <= level s /\ forall e, In e (queued s) -> 0 <= e_qty e.
Definition total (s : st) : Q := level s + qsumq (queued s).
Lemma abs0 B x : 0 <= B -> x == 0 -> Qabs x <= B.
Proof. intros H E. assert (E' : Qabs x == 0) by (transitivity (Qabs 0); [apply Qabs_wd; exact E|reflexivity]). rewrite E'. exact H. Qed.
Lemma u0 B x : Qabs x <= B -> 0 <= 2 * u * B.
Proof. intro H. pose proof (Qabs_nonneg x). pose proof (u_bounds u rnd R) as [U _]. apply Qmult_le_0_compat; lra. Qed.
Lemma f_cancel_good s r s' o rel : good s -> f_cancel rnd keyof s r = (s', (o, rel)) ->
  good s' /\ real_level s' = real_level s /\ forall B, Qabs (level s') <= B -> Qabs (total s' - total s) <= 2 * u * B.
Proof.
  intros (G1 & G2 & G3) H. apply f_cancel_cases in H. destruct H as [(-> & _)|(e & El & _ & _ & ->)].
  - split; [repeat split; assumption|]. split; [reflexivity|]. intros B HB. apply abs0; [apply (u0 _ _ HB)|ring].
  - pose proof (lookup_some _ _ _ _ El) as [Hin _]. pose proof (G3 _ Hin) as Q0. split; [|split; [reflexivity|]].
    + split; [apply remove_nodup; exact G1|]. split; [cbn; apply (rnd_nonneg u rnd R); lra|]. cbn. intros e' He. apply G3. exact (remove_in _ _ _ _ He).
    + intros B HB. cbn [level] in HB. pose proof (err_of_result u rnd R _ _ HB) as E. unfold total. cbn [level queued].
      pose proof (remove_sum keyof _ _ _ G1 El) as S.
      assert (X : rnd (level s + e_qty e) + qsumq (remove keyof r (queued s)) - (level s + qsumq (queued s)) == rnd (level s + e_qty e) - (level s + e_qty e)) by (rewrite S; ring).
      rewrite X. exact E.
Qed.
Lemma f_step_good s o s' r : good s -> nonneg_op o -> f_step s o = (s', r) ->
  good s' /\ forall B, Qabs (level s') <= B -> Qabs (real_level s') <= B ->
    Qabs (total s' - (total s + put_amount (o, r) - taken_amount (o, r))) <= 2 * u * B /\
    Qabs (real_level s' - (real_level s + put_amount (o, r) - taken_amount (o, r))) <= 2 * u * B.
Proof.
  intros G N H. pose proof G as (G1 & G2 & G3).
  assert (Same : forall B, Qabs (level s) <= B -> put_amount (o, r) == 0 -> taken_amount (o, r) == 0 ->
     Qabs (total s - (total s + put_amount (o, r) - taken_amount (o, r))) <= 2 * u * B /\ Qabs (real_level s - (real_level s + put_amount (o, r) - taken_amount (o, r))) <= 2 * u * B).
  { intros B HB E1 E2. split; (apply abs0; [apply (u0 _ _ HB)|rewrite E1, E2; ring]). }
  destruct o as [q amt ex|q|q|a ci| |t]; cbn [RsvModel.f_step nonneg_op] in *.
  - unfold f_reserve in H. destruct (Qltb (level s) amt) eqn:Eq; [injection H as <- <-; split; [exact G|intros B HB _; apply Same; [exact HB|reflexivity|reflexivity]]|].
    destruct (lookup keyof q (queued s)) eqn:El; [injection H as <- <-; split; [exact G|intros B HB _; apply Same; [exact HB|reflexivity|reflexivity]]|].
    injection H as <- <-. apply Qltb_ge in Eq. split.
    + split; [cbn [queued]; rewrite keys_app; apply nodup_snoc; [exact G1|apply lookup_none; exact El]|]. split; [cbn; apply (rnd_nonneg u rnd R); lra|].
      cbn. intros e He. apply in_app_or in He. destruct He as [He|[<-|[]]]; [apply G3; exact He|exact N].
    + intros B HB HR. cbn [level real_level] in HB, HR. split; [|cbn [real_level put_amount taken_amount]; apply abs0; [apply (u0 _ _ HB)|ring]].
      pose proof (err_of_result u rnd R _ _ HB) as E. unfold total. cbn [level queued put_amount taken_amount].
      assert (X : rnd (level s - amt) + qsumq (queued s ++ [mkEntry q amt (now s) (ser s)]) - (level s + qsumq (queued s) + 0 - 0) == rnd (level s - amt) - (level s - amt)) by (rewrite qsumq_app; cbn [e_qty]; ring).
      rewrite X. exact E.
  - destruct (f_cancel rnd keyof s q) as [s2 [o2 rel]] eqn:Ec. injection H as <- <-. assert (T0 : put_amount (Cancel q, o2) = 0 /\ taken_amount (Cancel q, o2) = 0).
    { unfold f_cancel in Ec. destruct (lookup keyof q (queued s)); [destruct (identical q (queued s))|]; injection Ec as _ <- _; split; reflexivity. }
    destruct T0 as [T1 T2]. destruct (f_cancel_good _ _ _ _ _ G Ec) as (G' & Er & E). split; [exact G'|]. intros B HB _. rewrite T1, T2. split.
    + assert (X : total s2 - (total s + 0 - 0) == total s2 - total s) by ring. rewrite X. apply E. exact HB.
    + rewrite Er. apply abs0; [apply (u0 _ _ HB)|ring].
  - unfold f_take in H. destruct (lookup keyof q (queued s)) as [e|] eqn:El; injection H as <- <-.
    + pose proof (lookup_some _ _ _ _ El) as [Hin _]. pose proof (G3 _ Hin) as Q0. split.
      * split; [apply remove_nodup; exact G1|]. split; [exact G2|]. cbn. intros e' He. apply G3. exact (remove_in _ _ _ _ He).
      * intros B HB HR. cbn [level real_level put_amount taken_amount] in *. split.
        -- unfold total. cbn [level queued]. apply abs0; [apply (u0 _ _ HB)|]. rewrite (remove_sum keyof _ _ _ G1 El). ring.
        -- pose proof (err_of_result u rnd R _ _ HR) as E. assert (X : rnd (real_level s - e_qty e) - (real_level s + 0 - e_qty e) == rnd (real_level s - e_qty e) - (real_level s - e_qty e)) by ring. rewrite X. exact E.
    + split; [exact G|intros B HB _; apply Same; [exact HB|reflexivity|reflexivity]].
  - unfold f_put in H. destruct (_ && _); injection H as <- <-; [split; [exact G|intros B HB _; apply Same; [exact HB|reflexivity|reflexivity]]|]. split.
    + split; [exact G1|]. split; [cbn; apply (rnd_nonneg u rnd R); lra|exact G3].
    + intros B HB HR. cbn [level real_level put_amount taken_amount] in *. pose proof (err_of_result u rnd R _ _ HB) as E. pose proof (err_of_result u rnd R _ _ HR) as E2. unfold total. cbn [level queued]. split.
      * assert (X : rnd (level s + a) + qsumq (queued s) - (level s + qsumq (queued s) + a - 0) == rnd (level s + a) - (level s + a)) by ring. rewrite X. exact E.
      * assert (X : rnd (real_level s + a) - (real_level s + a - 0) == rnd (real_level s + a) - (real_level s + a)) by ring. rewrite X. exact E2.
  - unfold f_fire in H. destruct (timers s) as [|t ts]; [injection H as <- <-; split; [exact G|intros B HB _; apply Same; [exact HB|reflexivity|reflexivity]]|].
    cbv zeta in H. set (s1 := mkSt (cap s) (t_at t) (level s) (real_level s) (queued s) ts (ser s)) in *.
    destruct (f_cancel rnd keyof s1 (t_req t)) as [s2 [o2 rel]] eqn:Ec. injection H as <- <-.
    destruct (f_cancel_good s1 _ _ _ _ G Ec) as (G' & Er & E). split; [exact G'|]. intros B HB _. cbn [put_amount taken_amount]. split.
    + assert (X : total s2 - (total s + 0 - 0) == total s2 - total s1) by (unfold total, s1; cbn [level queued]; ring). rewrite X. apply E. exact HB.
    + rewrite Er. unfold s1. cbn [real_level]. apply abs0; [apply (u0 _ _ HB)|ring].
  - unfold do_wait in H. destruct (Qltb t (now s)); [injection H as <- <-; split; [exact G|intros B HB _; apply Same; [exact HB|reflexivity|reflexivity]]|].
    destruct (timers s) as [|x ts]; [|destruct (Qltb (t_at x) t)]; injection H as <- <-; (split; [exact G|intros B HB _; apply Same; [exact HB|reflexivity|reflexivity]]).
Qed.
Lemma close_trans a b c d e1 e2 : Qabs (a - (b + d)) <= e1 -> Qabs (b - c) <= e2 -> Qabs (a - (c + d)) <= e2 + e1.
Proof.
  intros H1 H2. assert (X : a - (c + d) == (b - c) + (a - (b + d))) by ring. rewrite X. eapply Qle_trans; [apply Qabs_triangle|]. lra.
Qed.
Lemma within_first B s os : levels_within rnd keyof B s os -> Qabs (level s) <= B /\ Qabs (real_level s) <= B.
Proof. destruct os; cbn; tauto. Qed.
Lemma f_run_good B : forall os s s' tr, good s -> Forall nonneg_op os -> levels_within rnd keyof B s os -> f_run s os = (s', tr) ->
  good s' /\
  Qabs (total s' - (total s + (total_put tr - total_taken tr))) <= 2 * u * B * inject_Z (Z.of_nat (length os)) /\
  Qabs (real_level s' - (real_level s + (total_put tr - total_taken tr))) <= 2 * u * B * inject_Z (Z.of_nat (length os)).
Proof.
  induction os as [|o os IH]; intros s s' tr G N W H; cbn [RsvModel.f_run] in H.
  - injection H as <- <-. split; [exact G|]. change (inject_Z (Z.of_nat (length (@nil op)))) with 0. unfold total_put, total_taken. cbn [map Qsum fold_right].
    split; (apply abs0; [lra|ring]).
  - destruct (f_step s o) as [s1 r] eqn:Es. destruct (f_run s1 os) as [s2 tr2] eqn:Er. injection H as <- <-.
    inversion N as [|? ? N1 N2]; subst. cbn [levels_within] in W. destruct W as (_ & _ & W). rewrite Es in W. cbn [fst] in W.
    destruct (f_step_good _ _ _ _ G N1 Es) as (G1 & E). destruct (within_first _ _ _ W) as [W1 W2]. destruct (E B W1 W2) as [E1 E2].
    destruct (IH s1 s2 tr2 G1 N2 W Er) as (G2 & F1 & F2). split; [exact G2|].
    assert (Es' : inject_Z (Z.of_nat (length (o :: os))) == inject_Z (Z.of_nat (length os)) + 1) by (cbn [length]; rewrite Nat2Z.inj_succ; unfold Z.succ; rewrite inject_Z_plus; reflexivity).
    assert (Et : total_put ((o, r) :: tr2) - total_taken ((o, r) :: tr2) == (put_amount (o, r) - taken_amount (o, r)) + (total_put tr2 - total_taken tr2)).
    { unfold total_put, total_taken. cbn [map Qsum fold_right]. fold (Qsum (map put_amount tr2)). fold (Qsum (map taken_amount tr2)). ring. }
    set (n := inject_Z (Z.of_nat (length os))) in *. set (d2 := total_put tr2 - total_taken tr2) in *. set (d1 := put_amount (o, r) - taken_amount (o, r)) in *.
    split.
    + assert (A : Qabs (total s1 - (total s + d1)) <= 2 * u * B) by (assert (X : total s1 - (total s + d1) == total s1 - (total s + put_amount (o, r) - taken_amount (o, r))) by (unfold d1; ring); rewrite X; exact E1).
      pose proof (close_trans _ _ _ _ _ _ F1 A) as C. rewrite Et, Es'. assert (X : total s2 - (total s + (d1 + d2)) == total s2 - (total s + d1 + d2)) by ring. rewrite X. lra.
    + assert (A : Qabs (real_level s1 - (real_level s + d1)) <= 2 * u * B) by (assert (X : real_level s1 - (real_level s + d1) == real_level s1 - (real_level s + put_amount (o, r) - taken_amount (o, r))) by (unfold d1; ring); rewrite X; exact E2).
      pose proof (close_trans _ _ _ _ _ _ F2 A) as C. rewrite Et, Es'. assert (X : real_level s2 - (real_level s + (d1 + d2)) == real_level s2 - (real_level s + d1 + d2)) by ring. rewrite X. lra.
Qed.
Lemma init_good lvl c t0 : 0 <= lvl -> good (init lvl c t0).
Proof. intro H. split; [constructor|]. split; [exact H|intros e []]. Qed.
Lemma conserved B lvl c t0 os s tr : 0 <= lvl -> Forall nonneg_op os -> levels_within rnd keyof B (init lvl c t0) os -> f_run (init lvl c t0) os = (s, tr) ->
  0 <= level s /\
  Qabs (level s + reserved s - (lvl + total_put tr - total_taken tr)) <= 2 * u * B * inject_Z (Z.of_nat (length os)) /\
  Qabs (real_level s - (lvl + total_put tr - total_taken tr)) <= 2 * u * B * inject_Z (Z.of_nat (length os)).
Proof.
  intros L N W H. destruct (f_run_good B _ _ _ _ (init_good lvl c t0 L) N W H) as ((_ & G & _) & E1 & E2). split; [exact G|].
  unfold total in E1. cbn [level init queued real_level] in E1, E2. split.
  - assert (X : level s + reserved s - (lvl + total_put tr - total_taken tr) == level s + qsumq (queued s) - (lvl + qsumq [] + (total_put tr - total_taken tr))) by (unfold reserved, qsumq; cbn [map Qsum fold_right]; ring). rewrite X. exact E1.
  - assert (X : real_level s - (lvl + total_put tr - total_taken tr) == real_level s - (lvl + (total_put tr - total_taken tr))) by ring. rewrite X. exact E2.
Qed.
Lemma promised B lvl c t0 os s tr : 0 <= lvl -> Forall nonneg_op os -> levels_within rnd keyof B (init lvl c t0) os -> f_run (init lvl c t0) os = (s, tr) ->
  reserved s <= real_level s + 4 * u * B * inject_Z (Z.of_nat (length os)).
Proof.
  intros L N W H. destruct (conserved _ _ _ _ _ _ _ L N W H) as (A & E1 & E2). apply Qabs_Qle_condition in E1, E2. lra.
Qed.
(** What is held does not depend on rounding. *)
Lemma f_step_held k s o s' r : f_step s o = (s', r) -> qty_of keyof k (queued s') = held_step keyof k (qty_of keyof k (queued s)) (o, r).
Proof.
  intro H. destruct o as [q amt ex|q|q|a ci| |t]; cbn [RsvModel.f_step] in H.
  - unfold f_reserve in H. destruct (Qltb (level s) amt); [injection H as <- <-; reflexivity|].
    destruct (lookup keyof q (queued s)) eqn:El; [injection H as <- <-; reflexivity|].
    injection H as <- <-. cbn [queued held_step]. rewrite qty_of_app. cbn [e_req e_qty].
    destruct (Z.eqb_spec (keyof q) k) as [E|E].
    + subst k. rewrite qty_of_lookup. rewrite El. reflexivity.
    + destruct (qty_of keyof k (queued s)); reflexivity.
  - destruct (f_cancel rnd keyof s q) as [s1 [o1 rel]] eqn:Ec. injection H as <- <-. apply f_cancel_cases in Ec.
    destruct Ec as [(-> & _ & N)|(e & El & -> & -> & ->)]; cbn [held_step queued]; [destruct N as [-> | ->]; reflexivity|rewrite qty_of_remove; reflexivity].
  - unfold f_take in H. destruct (lookup keyof q (queued s)); injection H as <- <-; [|reflexivity].
    cbn [held_step queued]. rewrite qty_of_remove. reflexivity.
  - unfold f_put in H. destruct (_ && _); injection H as <- <-; reflexivity.
  - unfold f_fire in H. destruct (timers s) as [|t ts]; [injection H as <- <-; reflexivity|].
    destruct (f_cancel rnd keyof _ (t_req t)) as [s2 [o2 rel]] eqn:Ec. injection H as <- <-. apply f_cancel_cases in Ec.
    destruct Ec as [(-> & -> & _)|(e & El & -> & -> & ->)]; cbn [held_step queued]; try reflexivity.
    rewrite qty_of_remove. reflexivity.
  - unfold do_wait in H. destruct (Qltb t (now s)); [injection H as <- <-; reflexivity|].
    destruct (timers s) as [|x ts]; [|destruct (Qltb (t_at x) t)]; injection H as <- <-; reflexivity.
Qed.
Lemma f_run_held k os : forall s s' tr, f_run s os = (s', tr) -> qty_of keyof k (queued s') = fold_left (held_step keyof k) tr (qty_of keyof k (queued s)).
Proof.
  induction os as [|o os IH]; intros s s' tr H; cbn [RsvModel.f_run] in H.
  - injection H as <- <-. reflexivity.
  - destruct (f_step s o) as [s1 r] eqn:Es. destruct (f_run s1 os) as [s2 tr2] eqn:Er.
    injection H as <- <-. cbn [fold_left]. rewrite <- (f_step_held k _ _ _ _ Es). eauto.
Qed.
Lemma f_held k lvl c t0 os s tr : f_run (init lvl c t0) os = (s, tr) -> qty_of keyof k (queued s) = held keyof k tr.
Proof. intro H. apply f_run_held with (k := k) in H. exact H. Qed.
Lemma f_take_result lvl c t0 os s tr r s' o : f_run (init lvl c t0) os = (s, tr) -> f_step s (Take r) = (s', o) ->
  o = match held keyof (keyof r) tr with Some q => OTaken q | None => OValueError end /\ held keyof (keyof r) (tr ++ [(Take r, o)]) = None /\ level s' = level s.
Proof.
  intros H Ht. rewrite <- (f_held _ _ _ _ _ _ _ H). rewrite qty_of_lookup.
  assert (Hf : held keyof (keyof r) (tr ++ [(Take r, o)]) = qty_of keyof (keyof r) (queued s')).
  { rewrite (f_step_held (keyof r) _ _ _ _ Ht). unfold held. rewrite fold_left_app. cbn [fold_left]. rewrite (f_held _ _ _ _ _ _ _ H). reflexivity. }
  rewrite Hf. cbn [RsvModel.f_step] in Ht. unfold f_take in Ht.
  destruct (lookup keyof r (queued s)) as [e|] eqn:El; injection Ht as <- <-; cbn [option_map].
  - split; [reflexivity|]. split; [|reflexivity]. cbn [queued]. rewrite qty_of_remove, Z.eqb_refl. reflexivity.
  - split; [reflexivity|]. split; [|reflexivity]. rewrite qty_of_lookup, El. reflexivity.
Qed.
Lemma f_reserve_result lvl c t0 os s tr r q ex s' o : f_run (init lvl c t0) os = (s, tr) -> f_step s (Reserve r q ex) = (s', o) ->
  (o = OReserved true <-> held keyof (keyof r) tr = None /\ q <= level s) /\ (o = OReserved true -> held keyof (keyof r) (tr ++ [(Reserve r q ex, o)]) = Some q /\ level s' = rnd (level s - q)).
Proof.
  intros H Ht. pose proof (f_held (keyof r) _ _ _ _ _ _ H) as Hh. rewrite <- Hh, qty_of_lookup.
  assert (Hf : held keyof (keyof r) (tr ++ [(Reserve r q ex, o)]) = held_step keyof (keyof r) (held keyof (keyof r) tr) (Reserve r q ex, o)) by (unfold held; rewrite fold_left_app; reflexivity).
  rewrite Hf. cbn [RsvModel.f_step] in Ht. unfold f_reserve in Ht. destruct (Qltb (level s) q) eqn:Eq.
  - injection Ht as <- <-. apply Qltb_lt in Eq. split; [split; [discriminate|intros [_ X]; lra]|discriminate].
  - apply Qltb_ge in Eq. destruct (lookup keyof r (queued s)) eqn:El; injection Ht as <- <-.
    + split; [split; [discriminate|intros [X _]; discriminate]|discriminate].
    + split; [split; [intros _; split; [reflexivity|exact Eq]|reflexivity]|]. intros _. cbn [held_step level]. rewrite Z.eqb_refl. split; reflexivity.
Qed.
End P.


(** *** Whole numbers and binary fractions *)
Section G.
Variables (a : Z) (keyof : Z -> Z).
Definition on_grid (M T : Q) (s : st) : Prop :=
  (NoDup (keys keyof (queued s)) /\ real_level s == level s + qsumq (queued s) /\ (forall e, In e (queued s) -> 0 <= e_qty e /\ grid a (e_qty e))) /\
  (grid a (level s) /\ grid a (real_level s) /\ 0 <= level s /\ real_level s <= M) /\
  (grid a (now s) /\ 0 <= now s <= T /\ forall t, In t (timers s) -> grid a (t_at t) /\ 0 <= t_at t <= T).
Lemma same x : grid a x -> 0 <= x -> x <= 2 ^ (53 - a) -> rnd64 x = Qred x.
Proof. intros G P B. apply rnd64_red. apply (grid_float a); [exact G|]. rewrite Qabs_pos by exact P. exact B. Qed.
Lemma grid_red x : grid a x -> grid a (Qred x).
Proof. apply grid_comp. symmetry. apply Qred_correct. Qed.
Lemma qsumq_cons e l : qsumq (e :: l) = e_qty e + qsumq l.
Proof. reflexivity. Qed.
Lemma qsumq_nonneg l : (forall e, In e l -> 0 <= e_qty e) -> 0 <= qsumq l.
Proof. induction l as [|e l IH]; intro H; [cbn; lra|]. rewrite qsumq_cons. pose proof (H e (or_introl eq_refl)). assert (0 <= qsumq l) by (apply IH; intros; apply H; right; assumption). lra. Qed.
Lemma qsumq_in l e : (forall e, In e l -> 0 <= e_qty e) -> In e l -> e_qty e <= qsumq l.
Proof.
  induction l as [|x l IH]; intros H Hin; [destruct Hin|]. rewrite qsumq_cons. pose proof (H x (or_introl eq_refl)).
  assert (Hl : forall e, In e l -> 0 <= e_qty e) by (intros; apply H; right; assumption). pose proof (qsumq_nonneg l Hl) as N.
  destruct Hin as [->|Hin]; [lra|]. specialize (IH Hl Hin). lra.
Qed.
Lemma add_timer_in t l x : In x (add_timer t l) -> x = t \/ In x l.
Proof. induction l as [|y l IH]; cbn; [intros [<-|[]]; auto|]. destruct (Qltb _ _); cbn; intros [<-|H]; auto. destruct (IH H); auto. Qed.
Lemma cancel_same M T s r : on_grid M T s -> M <= 2 ^ (53 - a) ->
  f_cancel rnd64 keyof s r = f_cancel Qred keyof s r /\ on_grid M T (fst (f_cancel Qred keyof s r)).
Proof.
  intros G HM. pose proof G as ((N & E & Qs) & (Gl & Gr & L0 & RM) & Tm). unfold f_cancel.
  destruct (lookup keyof r (queued s)) as [e|] eqn:El; [|split; [reflexivity|exact G]].
  destruct (identical r (queued s)) as [|x l] eqn:Ei; [split; [reflexivity|exact G]|]. apply identical_spec in Ei. rewrite Ei.
  pose proof (lookup_some _ _ _ _ El) as [Hin _]. destruct (Qs e Hin) as [Q0 Qg]. assert (Qn : forall e, In e (queued s) -> 0 <= e_qty e) by (intros; apply Qs; assumption).
  pose proof (qsumq_in _ _ Qn Hin) as Le.
  assert (X : rnd64 (level s + e_qty e) = Qred (level s + e_qty e)) by (apply same; [apply grid_add; assumption|lra|lra]).
  rewrite X. split; [reflexivity|]. cbn [fst]. split; [|split; [|exact Tm]]; cbn [queued real_level level].
  - split; [apply remove_nodup; exact N|]. split; [rewrite (remove_sum keyof _ _ _ N El), Qred_correct; lra|]. intros e' He. apply Qs. exact (remove_in _ _ _ _ He).
  - split; [apply grid_red, grid_add; assumption|]. split; [exact Gr|]. split; [rewrite Qred_correct; lra|exact RM].
Qed.
Lemma on_grid_up M T M' T' s : M <= M' -> T <= T' -> on_grid M T s -> on_grid M' T' s.
Proof.
  intros H1 H2 (A & (B1 & B2 & B3 & B4) & (C1 & C2 & C3)). split; [exact A|]. split; [repeat split; try assumption; lra|]. split; [exact C1|]. split; [lra|].
  intros t Ht. destruct (C3 t Ht) as [D1 D2]. split; [exact D1|lra].
Qed.
Lemma step_same M T s o : on_grid M T s -> nonneg_op o -> grid_op a o -> M + put_budget [o] <= 2 ^ (53 - a) -> T + time_budget [o] <= 2 ^ (53 - a) ->
  f_step rnd64 keyof s o = f_step Qred keyof s o /\ on_grid (M + put_budget [o]) (T + time_budget [o]) (fst (f_step Qred keyof s o)).
Proof.
  intros G Nn Go HM HT. pose proof G as ((N & E & Qs) & (Gl & Gr & L0 & RM) & (Gn & N0 & Ts)).
  assert (Qn : forall e, In e (queued s) -> 0 <= e_qty e) by (intros; apply Qs; assumption). pose proof (qsumq_nonneg _ Qn) as Sn.
  destruct o as [r q ex|r|r|x ci| |t]; cbn [f_step nonneg_op grid_op put_budget time_budget] in *.
  - assert (TB : 0 <= match ex with Some d => Qabs d + 0 | None => 0 end) by (destruct ex as [d|]; [pose proof (Qabs_nonneg d)|]; lra).
    assert (Up : on_grid (M + 0) (T + match ex with Some d => Qabs d + 0 | None => 0 end) s) by (apply (on_grid_up M T); [lra|lra|exact G]).
    unfold f_reserve. destruct (Qltb (level s) q) eqn:Eq; [split; [reflexivity|exact Up]|]. apply Qltb_ge in Eq.
    destruct (lookup keyof r (queued s)) eqn:El; [split; [reflexivity|exact Up]|]. destruct Go as [Gq Gd].
    assert (X : rnd64 (level s - q) = Qred (level s - q)) by (apply same; [apply grid_sub; assumption|lra|lra]). rewrite X. clear X.
    destruct Up as ((U1 & U2 & U3) & (U4 & U5 & U6 & U7) & (U8 & U9 & U10)).
    assert (A1 : NoDup (keys keyof (queued s ++ [mkEntry r q (now s) (ser s)])) /\ real_level s == Qred (level s - q) + qsumq (queued s ++ [mkEntry r q (now s) (ser s)]) /\
      (forall e, In e (queued s ++ [mkEntry r q (now s) (ser s)]) -> 0 <= e_qty e /\ grid a (e_qty e))).
    { split; [rewrite keys_app; apply nodup_snoc; [exact N|apply lookup_none; exact El]|]. split; [rewrite qsumq_app, Qred_correct; cbn [e_qty]; lra|].
      intros e He. apply in_app_or in He. destruct He as [He|[<-|[]]]; [apply Qs; exact He|split; assumption]. }
    assert (A2 : grid a (Qred (level s - q)) /\ grid a (real_level s) /\ 0 <= Qred (level s - q) /\ real_level s <= M + 0).
    { split; [apply grid_red, grid_sub; assumption|]. split; [exact Gr|]. split; [rewrite Qred_correct; lra|exact U7]. }
    destruct ex as [d|]; [destruct (Qltb d 0) eqn:Ed|].
    + split; [reflexivity|]. exact (conj A1 (conj A2 (conj U8 (conj U9 U10)))).
    + apply Qltb_ge in Ed. pose proof (Qabs_pos d Ed) as Ad. specialize (Gd d eq_refl).
      assert (X : rnd64 (now s + d) = Qred (now s + d)) by (apply same; [apply grid_add; assumption|lra|lra]). rewrite X. split; [reflexivity|].
      refine (conj A1 (conj A2 (conj U8 (conj U9 _)))). cbn [timers]. intros t Ht. apply add_timer_in in Ht. destruct Ht as [->|Ht]; [|apply U10; exact Ht]. cbn [t_at].
      split; [apply grid_red, grid_add; assumption|]. rewrite Qred_correct. lra.
    + split; [reflexivity|]. exact (conj A1 (conj A2 (conj U8 (conj U9 U10)))).
  - destruct (cancel_same M T s r G ltac:(lra)) as [X Y]. rewrite X. destruct (f_cancel Qred keyof s r) as [s2 [o2 rel]]. split; [reflexivity|]. cbn [fst] in *. apply (on_grid_up M T); [lra|lra|exact Y].
  - unfold f_take. destruct (lookup keyof r (queued s)) as [e|] eqn:El; [|split; [reflexivity|apply (on_grid_up M T); [lra|lra|exact G]]].
    pose proof (lookup_some _ _ _ _ El) as [Hin _]. destruct (Qs e Hin) as [Q0 Qg]. pose proof (qsumq_in _ _ Qn Hin) as Le.
    assert (X : rnd64 (real_level s - e_qty e) = Qred (real_level s - e_qty e)) by (apply same; [apply grid_sub; assumption|lra|lra]). rewrite X. split; [reflexivity|].
    apply (on_grid_up M T); [lra|lra|]. split; [|split; [|exact (conj Gn (conj N0 Ts))]]; cbn [fst queued real_level level].
    + split; [apply remove_nodup; exact N|]. split; [rewrite (remove_sum keyof _ _ _ N El), Qred_correct; lra|]. intros e' He. apply Qs. exact (remove_in _ _ _ _ He).
    + split; [exact Gl|]. split; [apply grid_red, grid_sub; assumption|]. split; [exact L0|rewrite Qred_correct; lra].
  - unfold f_put. assert (X : rnd64 (level s + x) = Qred (level s + x)) by (apply same; [apply grid_add; assumption|lra|lra]).
    assert (Y : rnd64 (real_level s + x) = Qred (real_level s + x)) by (apply same; [apply grid_add; assumption|lra|lra]). cbv zeta. rewrite X, Y.
    split; [reflexivity|]. destruct (_ && _); cbn [fst]; [apply (on_grid_up M T); [lra|lra|exact G]|].
    apply (on_grid_up (M + x) T); [lra|lra|]. split; [|split; [|exact (conj Gn (conj N0 Ts))]]; cbn [queued real_level level].
    + split; [exact N|]. split; [rewrite !Qred_correct; lra|exact Qs].
    + split; [apply grid_red, grid_add; assumption|]. split; [apply grid_red, grid_add; assumption|]. rewrite !Qred_correct. split; lra.
  - unfold f_fire. destruct (timers s) as [|t ts] eqn:Et; [split; [reflexivity|apply (on_grid_up M T); [lra|lra|exact G]]|]. cbv zeta.
    set (s1 := mkSt (cap s) (t_at t) (level s) (real_level s) (queued s) ts (ser s)).
    assert (G1 : on_grid M T s1).
    { split; [exact (conj N (conj E Qs))|]. split; [exact (conj Gl (conj Gr (conj L0 RM)))|]. destruct (Ts t (or_introl eq_refl)) as [D1 D2]. split; [exact D1|]. split; [exact D2|]. intros t' Ht. apply Ts. right. exact Ht. }
    destruct (cancel_same M T s1 (t_req t) G1 ltac:(lra)) as [X Y]. rewrite X. destruct (f_cancel Qred keyof s1 (t_req t)) as [s2 [o2 rel]]. split; [reflexivity|]. cbn [fst] in *. apply (on_grid_up M T); [lra|lra|exact Y].
  - split; [reflexivity|]. pose proof (Qabs_nonneg t) as At. unfold do_wait.
    assert (K : on_grid (M + 0) (T + (Qabs t + 0)) s) by (apply (on_grid_up M T); [lra|lra|exact G]).
    destruct (Qltb t (now s)) eqn:E1; [exact K|]. apply Qltb_ge in E1. pose proof (Qle_Qabs t) as Lt.
    assert (K2 : on_grid (M + 0) (T + (Qabs t + 0)) (mkSt (cap s) t (level s) (real_level s) (queued s) (timers s) (ser s))).
    { destruct K as (K1 & K2 & (K3 & K4 & K5)). split; [exact K1|]. split; [exact K2|]. split; [exact Go|]. split; [cbn [now]; lra|exact K5]. }
    destruct (timers s) as [|x l] eqn:Et; [exact K2|]. destruct (Qltb (t_at x) t); [exact K|exact K2].
Qed.
Lemma put_budget_cons o os : put_budget (o :: os) == put_budget [o] + put_budget os.
Proof. destruct o as [? ? [?|]| | | | |]; cbn; ring. Qed.
Lemma time_budget_cons o os : time_budget (o :: os) == time_budget [o] + time_budget os.
Proof. destruct o as [? ? [?|]| | | | |]; cbn; ring. Qed.
Lemma put_budget_nonneg os : Forall nonneg_op os -> 0 <= put_budget os.
Proof. induction 1 as [|o os H _ IH]; [cbn; lra|]. rewrite put_budget_cons. destruct o as [? ? [?|]| | | | |]; cbn in *; lra. Qed.
Lemma time_budget_nonneg os : 0 <= time_budget os.
Proof. induction os as [|o os IH]; [cbn; lra|]. rewrite time_budget_cons. destruct o as [? ? [d|]| | | | |t]; cbn; try lra; [pose proof (Qabs_nonneg d)|pose proof (Qabs_nonneg t)]; lra. Qed.
Lemma run_same os : forall M T s, on_grid M T s -> Forall nonneg_op os -> Forall (grid_op a) os -> M + put_budget os <= 2 ^ (53 - a) -> T + time_budget os <= 2 ^ (53 - a) ->
  f_run rnd64 keyof s os = f_run Qred keyof s os.
Proof.
  induction os as [|o os IH]; intros M T s G Nn Go HM HT; [reflexivity|]. inversion Nn as [|? ? N1 N2]; subst. inversion Go as [|? ? G1 G2]; subst.
  rewrite put_budget_cons in HM. rewrite time_budget_cons in HT. pose proof (put_budget_nonneg os N2). pose proof (time_budget_nonneg os).
  destruct (step_same M T s o G N1 G1 ltac:(lra) ltac:(lra)) as [X Y]. cbn [f_run]. rewrite X. destruct (f_step Qred keyof s o) as [s1 r]. cbn [fst] in Y.
  rewrite (IH _ _ _ Y N2 G2); [reflexivity|lra|lra].
Qed.
End G.
Lemma red_rounding : rounding 0 Qred.
Proof.
  split; try lra; intros.
  - rewrite Qred_correct. assert (E : Qabs (x - x) == 0) by (transitivity (Qabs 0); [apply Qabs_wd; ring|reflexivity]). rewrite E. lra.
  - rewrite !Qred_correct. assumption.
  - apply Qred_correct.
  - rewrite !Qred_correct. reflexivity.
Qed.
Lemma within_up rnd keyof os : forall B B' s, B <= B' -> levels_within rnd keyof B s os -> levels_within rnd keyof B' s os.
Proof. induction os as [|o os IH]; intros B B' s H (W1 & W2 & W3); cbn; (split; [lra|]; split; [lra|]); [exact I|]. eapply IH; eassumption. Qed.
Lemma within_some rnd keyof s os : exists B, levels_within rnd keyof B s os.
Proof.
  revert s. induction os as [|o os IH]; intro s.
  - exists (Qabs (level s) + Qabs (real_level s)). pose proof (Qabs_nonneg (level s)). pose proof (Qabs_nonneg (real_level s)). cbn. split; [lra|]. split; [lra|exact I].
  - destruct (IH (fst (f_step rnd keyof s o))) as [B W]. exists (Qabs (level s) + Qabs (real_level s) + Qabs B).
    pose proof (Qabs_nonneg (level s)). pose proof (Qabs_nonneg (real_level s)). pose proof (Qabs_nonneg B). pose proof (Qle_Qabs B). cbn [levels_within]. split; [lra|]. split; [lra|]. eapply within_up; [|exact W]. lra.
Qed.
Lemma abs_le_0 x : Qabs x <= 0 -> x == 0.
Proof. intro H. apply Qabs_Qle_condition in H. lra. Qed.
