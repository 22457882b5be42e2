(** Proofs about rehearsals. *)
From Verif Require Import Common ActiveModel EvProofs RehModel RehSpec.

Lemma rt_ind2 (P : rt -> Prop) : (forall i, P (RL i)) ->
  (forall i a subs, Forall P subs -> P (RM i a subs)) -> forall e, P e.
Proof.
  intros H1 H2. fix F 1. intros [i|i a subs]; [apply H1|]. apply H2.
  induction subs as [|e l IH]; constructor; [apply F|exact IH].
Qed.

Lemma agg_ok any l t : agg any l = Some t -> In t l /\ forall x, In x l -> if any then t <= x else x <= t.
Proof.
  destruct l as [|a l]; [discriminate|]. cbn [agg]. intro H. inversion H; subst; clear H.
  assert (G : forall l a, let t := fold_left (fun m t => if better any t m then t else m) l a in
    (t = a \/ In t l) /\ (if any then t <= a else a <= t) /\ forall x, In x l -> if any then t <= x else x <= t).
  { clear. induction l as [|b l IH]; intro a; cbn [fold_left].
    - split; [left; reflexivity|]. split; [destruct any; lra|]. intros x [].
    - specialize (IH (if better any b a then b else a)). cbv zeta in *.
      set (t := fold_left (fun m t => if better any t m then t else m) l (if better any b a then b else a)) in *.
      destruct IH as (I1 & I2 & I3). unfold better in *. destruct any.
      + destruct (Qltb b a) eqn:E; qbool.
        * split; [destruct I1; [right; left; congruence|right; right; auto]|]. split; [lra|].
          intros x [<-|Hx]; [lra|apply I3; auto].
        * split; [destruct I1; [left; auto|right; right; auto]|]. split; [lra|].
          intros x [<-|Hx]; [lra|apply I3; auto].
      + destruct (Qltb a b) eqn:E; qbool.
        * split; [destruct I1; [right; left; congruence|right; right; auto]|]. split; [lra|].
          intros x [<-|Hx]; [lra|apply I3; auto].
        * split; [destruct I1; [left; auto|right; right; auto]|]. split; [lra|].
          intros x [<-|Hx]; [lra|apply I3; auto]. }
  destruct (G l a) as (G1 & G2 & G3). split.
  - destruct G1 as [G1|G1]; [left; symmetry; exact G1|right; exact G1].
  - intros x [<-|Hx]; [exact G2|apply G3; exact Hx].
Qed.

Lemma takes_leaf_inv tm i t : takes tm (RL i) t -> tm i == t.
Proof. intro H. inversion H. assumption. Qed.
Lemma takes_multi_inv tm i any subs t : takes tm (RM i any subs) t ->
  (exists s, In s subs /\ takes tm s t) /\ (forall s, In s subs -> exists x, takes tm s x /\ if any then t <= x else x <= t).
Proof.
  intro H. inversion H as [|? ? ? HE HF|? ? ? HE HF]; subst; rewrite Exists_exists in HE; rewrite Forall_forall in HF; split; assumption.
Qed.
Lemma takes_multi tm i (any : bool) subs t : (exists s, In s subs /\ takes tm s t) ->
  (forall s, In s subs -> exists x, takes tm s x /\ if any then t <= x else x <= t) -> takes tm (RM i any subs) t.
Proof.
  intros HE HF. destruct any; constructor; try (apply Exists_exists; exact HE); apply Forall_forall; exact HF.
Qed.
Lemma takes_proper tm e : forall t t', t == t' -> takes tm e t -> takes tm e t'.
Proof.
  induction e as [i|i a subs IH] using rt_ind2; intros t t' E H.
  - apply takes_leaf_inv in H. constructor. lra.
  - apply takes_multi_inv in H. destruct H as [(s & Hs & Ht) HF]. rewrite Forall_forall in IH. apply takes_multi.
    + exists s. split; [exact Hs|]. eapply IH; eauto.
    + intros s' Hs'. destruct (HF s' Hs') as (x & Hx & L). exists x. split; [exact Hx|]. destruct a; lra.
Qed.
Lemma takes_unique tm e : forall t t', takes tm e t -> takes tm e t' -> t == t'.
Proof.
  induction e as [i|i a subs IH] using rt_ind2; intros t t' H H'.
  - apply takes_leaf_inv in H. apply takes_leaf_inv in H'. lra.
  - apply takes_multi_inv in H. apply takes_multi_inv in H'. rewrite Forall_forall in IH.
    destruct H as [(s1 & I1 & T1) F1], H' as [(s2 & I2 & T2) F2].
    destruct (F1 s2 I2) as (x1 & X1 & L1). destruct (F2 s1 I1) as (x2 & X2 & L2).
    pose proof (IH s2 I2 _ _ X1 T2). pose proof (IH s1 I1 _ _ X2 T1). destruct a; lra.
Qed.

(** Same events with the same times. *)
Definition alike (h h' : rheap) : Prop := forall i, kind_in h' i = kind_in h i /\ time_in h' i = time_in h i.
Lemma alike_refl h : alike h h. Proof. intro; auto. Qed.
Lemma alike_trans a b c : alike a b -> alike b c -> alike a c.
Proof. intros H1 H2 i. destruct (H1 i), (H2 i). split; congruence. Qed.
Lemma nth_on_node i f h j : nth_error (on_node i f h) j =
  if Nat.eqb i j then match nth_error h j with Some x => Some (f x) | None => None end else nth_error h j.
Proof.
  unfold on_node. destruct (nth_error h i) as [x|] eqn:E.
  - rewrite nth_upd. destruct (Nat.eqb i j) eqn:Ei; [|reflexivity]. apply Nat.eqb_eq in Ei. subst. rewrite E. reflexivity.
  - destruct (Nat.eqb i j) eqn:Ei; [|reflexivity]. apply Nat.eqb_eq in Ei. subst. rewrite E. reflexivity.
Qed.
Lemma alike_node i f h : (forall x, x_kind (f x) = x_kind x /\ x_time (f x) = x_time x) -> alike h (on_node i f h).
Proof.
  intros Hf j. unfold kind_in, time_in. rewrite nth_on_node. destruct (Nat.eqb i j); [|auto].
  destruct (nth_error h j) as [x|]; [|auto]. destruct (Hf x). split; congruence.
Qed.
Lemma ready_alike h h' e : alike h h' -> ready h e -> ready h' e.
Proof.
  intro A. revert e. apply (rt_ind2 (fun e => ready h e -> ready h' e)).
  - intros i H. inversion H; subst. constructor. destruct (A i) as [-> _]. assumption.
  - intros i a subs IH H. inversion H; subst. constructor; auto.
    + destruct (A i) as [-> _]. assumption.
    + rewrite Forall_forall in *. auto.
Qed.
Lemma takes_alike tm tm' e : (forall i, tm i = tm' i) -> forall t, takes tm e t -> takes tm' e t.
Proof.
  intro A. induction e as [i|i a subs IH] using rt_ind2; intros t H.
  - apply takes_leaf_inv in H. constructor. rewrite <- A. assumption.
  - apply takes_multi_inv in H. destruct H as [(s & Hs & Ht) HF]. rewrite Forall_forall in IH. apply takes_multi.
    + exists s. split; auto.
    + intros s' Hs'. destruct (HF s' Hs') as (x & Hx & L). exists x. split; auto.
Qed.

(** ** Starting *)
Fixpoint start_list (l : list rt) (h : rheap) : rheap :=
  match l with [] => h | e' :: l' => start_list l' (start e' h) end.
Lemma start_multi i a subs h : start (RM i a subs) h = start_list subs (on_node i start1 h).
Proof. reflexivity. Qed.
Definition started (h : rheap) (i : nat) : Prop :=
  match nth_error h i with Some x => x_reh x = true /\ x_done x = false | None => True end.
Definition start_spec (h h' : rheap) (ids : list nat) : Prop :=
  alike h h' /\ (forall i, In i ids -> started h' i) /\ (forall i, ~ In i ids -> nth_error h' i = nth_error h i) /\
  (forall i, started h i -> started h' i).
Lemma start_seq h h1 h2 a b : start_spec h h1 a -> start_spec h1 h2 b -> start_spec h h2 (a ++ b).
Proof.
  intros (A1 & S1 & U1 & M1) (A2 & S2 & U2 & M2). split; [eapply alike_trans; eauto|].
  split; [intros i Hi; apply in_app_or in Hi; destruct Hi; auto|].
  split; [intros i Hi; rewrite U2, U1; auto; intro; apply Hi, in_or_app; auto|auto].
Qed.
Lemma start_one i h : start_spec h (on_node i start1 h) [i].
Proof.
  split; [apply alike_node; auto|]. split; [|split].
  - intros j [<-|[]]. unfold started. rewrite nth_on_node, Nat.eqb_refl. destruct (nth_error h i); cbn; auto.
  - intros j Hj. rewrite nth_on_node. destruct (Nat.eqb i j) eqn:E; [|reflexivity].
    apply Nat.eqb_eq in E. subst. exfalso. apply Hj. left. reflexivity.
  - intros j Hj. unfold started in *. rewrite nth_on_node. destruct (Nat.eqb i j); [|exact Hj].
    destruct (nth_error h j); cbn; auto.
Qed.
Lemma start_ok e : forall h, start_spec h (start e h) (parts e).
Proof.
  induction e as [i|i a subs IH] using rt_ind2; intro h; [apply start_one|].
  rewrite start_multi. cbn [parts]. change (i :: flat_map parts subs) with ([i] ++ flat_map parts subs).
  eapply start_seq; [apply start_one|]. generalize (on_node i start1 h). clear h.
  induction subs as [|s l IHl]; intro h; cbn [start_list flat_map].
  - split; [apply alike_refl|]. split; [intros i0 []|]. auto.
  - inversion IH; subst. eapply start_seq; [apply H1|]. apply IHl. assumption.
Qed.

(** ** Times *)
Fixpoint calc_list (any : bool) (l : list rt) (h : rheap) (acc : list (nat * Q)) : rheap * (Q + rerr) :=
  match l with
  | [] => (h, match agg any (map snd acc) with Some t => inl t | None => inr RValue end)
  | e' :: l' => let '(h1, r) := calc e' h in
                match r with
                | inl t => calc_list any l' h1 (dset (rid e') t acc)
                | inr x => (h1, inr x)
                end
  end.
Lemma calc_multi i any subs h : calc (RM i any subs) h = calc_list any subs h [].
Proof.
  cbn [calc]. generalize (@nil (nat * Q)). revert h. induction subs as [|e l IH]; intros h acc; [reflexivity|].
  cbn [calc_list]. destruct (calc e h) as [h1 [t|x]]; [apply IH|reflexivity].
Qed.
Lemma calc_list_subs any l : forall h acc, calc_list any l h acc =
  let '(h1, r) := calc_subs l h acc in
  (h1, match r with inl times => match agg any (map snd times) with Some t => inl t | None => inr RValue end | inr x => inr x end).
Proof.
  induction l as [|e l IH]; intros h acc; cbn [calc_list calc_subs]; [reflexivity|].
  destruct (calc e h) as [h1 [t|x]]; [apply IH|reflexivity].
Qed.

Lemma dset_in i t l j x : NoDup (map fst l) -> In (j, x) (dset i t l) <-> (j = i /\ x = t) \/ (j <> i /\ In (j, x) l).
Proof.
  induction l as [|[k y] l IH]; intro ND; cbn [dset].
  - simpl. split; [intros [H|[]]; inversion H; auto|]. intros [[-> ->]|[_ []]]. auto.
  - inversion ND as [|? ? NI ND']; subst. cbn [fst] in NI. destruct (Nat.eqb k i) eqn:E.
    + apply Nat.eqb_eq in E. subst k. simpl. split.
      * intros [H|H]; [inversion H; auto|]. right. split; [|auto]. intros ->. apply NI. apply in_map_iff. exists (i, x). auto.
      * intros [[-> ->]|[Hj [H|H]]]; [auto|inversion H; congruence|auto].
    + apply Nat.eqb_neq in E. simpl. rewrite IH by assumption. split.
      * intros [H|[H|[H1 H2]]]; [inversion H; subst; right; split; auto|auto|auto].
      * intros [[-> ->]|[Hj [H|H]]]; auto.
Qed.
Lemma dset_keys i t l : NoDup (map fst l) -> NoDup (map fst (dset i t l)).
Proof.
  induction l as [|[k y] l IH]; intro ND; cbn [dset map fst]; [repeat constructor; intros []|].
  inversion ND as [|? ? NI ND']; subst. destruct (Nat.eqb k i) eqn:E; cbn [map fst]; [constructor; auto|].
  apply Nat.eqb_neq in E. constructor; [|auto]. rewrite in_map_iff. intros ((j & x) & Hj & HI). cbn in Hj. subst j.
  apply dset_in in HI; [|assumption]. destruct HI as [[-> _]|[_ HI]]; [congruence|]. apply NI.
  apply in_map_iff. exists (k, x). auto.
Qed.

Definition times_ok (tm : nat -> Q) (seen : list rt) (acc : list (nat * Q)) : Prop :=
  NoDup (map fst acc) /\
  (forall i x, In (i, x) acc -> exists s, In s seen /\ rid s = i /\ takes tm s x) /\
  (forall s, In s seen -> exists x, In (rid s, x) acc /\ takes tm s x).

Lemma calc_subs_ok h (all : list rt) : (forall s s', In s all -> In s' all -> rid s = rid s' -> s = s') ->
  forall l seen acc, Forall (fun e => exists t, calc e h = (h, inl t) /\ takes (time_in h) e t) l ->
  (forall s, In s (seen ++ l) -> In s all) -> times_ok (time_in h) seen acc ->
  exists acc', calc_subs l h acc = (h, inl acc') /\ times_ok (time_in h) (seen ++ l) acc'.
Proof.
  intro ID. induction l as [|e l IH]; intros seen acc F IA OK; cbn [calc_subs].
  - exists acc. rewrite app_nil_r. auto.
  - inversion F as [|? ? (t & E & T) F']; subst. rewrite E.
    destruct (IH (seen ++ [e]) (dset (rid e) t acc) F') as (acc' & E' & OK').
    + intros s Hs. apply IA. rewrite <- app_assoc in Hs. exact Hs.
    + destruct OK as (ND & O1 & O2). split; [apply dset_keys; exact ND|]. split.
      * intros i x Hi. apply dset_in in Hi; [|exact ND]. destruct Hi as [[-> ->]|[_ Hi]].
        -- exists e. split; [apply in_or_app; right; left; reflexivity|]. auto.
        -- destruct (O1 i x Hi) as (s & Hs & R). exists s. split; [apply in_or_app; auto|exact R].
      * intros s Hs. destruct (Nat.eq_dec (rid s) (rid e)) as [Er|Er].
        -- assert (s = e). { apply ID; auto; apply IA; apply in_or_app; apply in_app_or in Hs; destruct Hs as [?|[?|[]]]; subst; simpl; auto. }
           subst s. exists t. split; [|exact T]. apply dset_in; auto.
        -- apply in_app_or in Hs. destruct Hs as [Hs|[Hs|[]]]; [|congruence].
           destruct (O2 s Hs) as (x & Hx & Tx). exists x. split; [|exact Tx]. apply dset_in; auto.
    + exists acc'. split; [exact E'|]. rewrite <- app_assoc in OK'. exact OK'.
Qed.

Lemma agg_takes tm i any subs acc t : subs <> [] -> times_ok tm subs acc -> agg any (map snd acc) = Some t ->
  takes tm (RM i any subs) t.
Proof.
  intros NE (ND & O1 & O2) A. apply agg_ok in A. destruct A as [A1 A2].
  apply in_map_iff in A1. destruct A1 as ((j & x) & Ex & Hx). cbn in Ex. subst x.
  destruct (O1 j t Hx) as (s & Hs & _ & Ts).
  apply takes_multi; [eauto|].
  intros s' Hs'. destruct (O2 s' Hs') as (y & Hy & Ty). exists y. split; [exact Ty|]. apply A2.
  apply in_map_iff. exists (rid s', y). auto.
Qed.
Lemma agg_some any l : l <> [] -> exists t, agg any l = Some t.
Proof. destruct l; [congruence|]. cbn. eauto. Qed.
Lemma times_nonempty tm subs acc : subs <> [] -> times_ok tm subs acc -> map snd acc <> [].
Proof.
  intros NE (_ & _ & O2) E. destruct subs as [|s subs]; [congruence|].
  destruct (O2 s (or_introl eq_refl)) as (x & Hx & _). apply map_eq_nil in E. subst acc. exact Hx.
Qed.
Lemma times_ok_nil tm : times_ok tm [] [].
Proof. split; [constructor|]. split; [intros i x []|intros s []]. Qed.

Lemma calc_ok h e : ready h e -> exists t, calc e h = (h, inl t) /\ takes (time_in h) e t.
Proof.
  induction e as [i|i a subs IH] using rt_ind2; intro R; inversion R as [? H0|? ? ? K0 NE FR ID NI]; subst.
  - cbn [calc]. unfold calc_leaf, kind_in, time_in in *. destruct (nth_error h i) as [x|] eqn:E;
      [|destruct H0 as [H|[H|H]]; discriminate].
    exists (x_time x). split.
    + destruct H0 as [H|[H|H]]; inversion H as [Hk]; rewrite Hk; reflexivity.
    + constructor. rewrite E. reflexivity.
  - rewrite calc_multi, calc_list_subs.
    destruct (calc_subs_ok h subs ID subs [] []) as (acc & E & OK); auto.
    + rewrite Forall_forall in *. intros s Hs. apply IH; auto.
    + apply times_ok_nil.
    + rewrite E. cbn [app] in OK. destruct (agg_some a (map snd acc)) as [t Et]; [eapply times_nonempty; eauto|].
      exists t. rewrite Et. split; [reflexivity|]. eapply agg_takes; eauto.
Qed.

(** ** Finishing *)
Lemma finish_subs_nth t l : forall h j, NoDup (map fst l) ->
  (forall x, In (j, x) l -> nth_error (finish_subs t l h) j =
     match nth_error h j with Some y => Some (finish1 (Qleb x t) y) | None => None end) /\
  (~ In j (map fst l) -> nth_error (finish_subs t l h) j = nth_error h j).
Proof.
  induction l as [|[i y] l IH]; intros h j ND; cbn [finish_subs].
  - split; [intros x []|reflexivity].
  - inversion ND as [|? ? NI ND']; subst. cbn [fst] in NI.
    destruct (IH (on_node i (finish1 (Qleb y t)) h) j ND') as [I1 I2]. split.
    + intros x [H|H].
      * inversion H; subst. rewrite I2 by exact NI. rewrite nth_on_node, Nat.eqb_refl. reflexivity.
      * rewrite (I1 x H). rewrite nth_on_node. destruct (Nat.eqb i j) eqn:E; [|reflexivity].
        apply Nat.eqb_eq in E. subst. exfalso. apply NI. apply in_map_iff. exists (j, x). auto.
    + cbn [map fst]. intro H. rewrite I2 by (intro; apply H; right; assumption). rewrite nth_on_node.
      destruct (Nat.eqb i j) eqn:E; [|reflexivity]. apply Nat.eqb_eq in E. subst. exfalso. apply H. left. reflexivity.
Qed.
Lemma alike_finish t l : forall h, alike h (finish_subs t l h).
Proof.
  induction l as [|[i y] l IH]; intro h; cbn [finish_subs]; [apply alike_refl|].
  eapply alike_trans; [|apply IH]. apply alike_node. auto.
Qed.

Lemma rehearse_ok h e : ready h e -> exists h' t v, rehearse e h = (h', inl (t, v)) /\
  takes (time_in h) e t /\ alike h h' /\
  (forall s x, In s (subs_of e) -> takes (time_in h) s x -> kind_in h (rid s) <> Some REvt ->
     is_complete h' (rid s) = true <-> x <= t) /\
  (kind_in h (rid e) <> Some REvt -> is_complete h' (rid e) = true) /\
  (forall i, In i (parts e) -> i <> rid e -> ~ In i (map rid (subs_of e)) -> kind_in h i <> Some REvt ->
     is_complete h' i = false) /\
  (forall i, kind_in h i = Some REvt -> is_complete h' i = is_complete h i).
Proof.
  intro R. destruct (start_ok e h) as (A & ST & U & _).
  assert (R' : ready (start e h) e) by (eapply ready_alike; eauto).
  assert (TE : forall i, time_in (start e h) i = time_in h i) by (intro i; apply A).
  assert (KE : forall i, kind_in (start e h) i = kind_in h i) by (intro i; apply A).
  assert (PR : forall i, match nth_error (start e h) i, nth_error h i with Some x, Some y => x_processed x = x_processed y | None, None => True | _, _ => False end).
  { clear. revert h. induction e as [i|i a subs IH] using rt_ind2; intros h j.
    - cbn [start]. rewrite nth_on_node. destruct (Nat.eqb i j), (nth_error h j); auto.
    - rewrite start_multi.
      assert (B : match nth_error (on_node i start1 h) j, nth_error h j with Some x, Some y => x_processed x = x_processed y | None, None => True | _, _ => False end).
      { rewrite nth_on_node. destruct (Nat.eqb i j), (nth_error h j); auto. }
      revert B. generalize (on_node i start1 h). induction subs as [|s l IHl]; intros h1 B; cbn [start_list]; [exact B|].
      inversion IH; subst. apply IHl; [assumption|]. specialize (H1 h1 j).
      destruct (nth_error (start s h1) j), (nth_error h1 j), (nth_error h j); try contradiction; auto. congruence. }
  set (h0 := start e h) in *. unfold rehearse. fold h0.
  destruct e as [i|i any subs].
  - destruct (calc_ok h0 (RL i) R') as (t & E & T). rewrite E.
    exists (on_node i (finish1 true) h0), t, (answer_of h0 i). split; [reflexivity|].
    split; [eapply takes_alike; [|exact T]; exact TE|].
    split; [eapply alike_trans; [exact A|apply alike_node; auto]|].
    split; [intros s x []|]. split.
    + cbn [rid]. intro K. unfold is_complete. rewrite nth_on_node, Nat.eqb_refl.
      specialize (ST i (or_introl eq_refl)). unfold started in ST. rewrite <- KE in K. unfold kind_in in K.
      inversion R' as [? H0|]; subst. unfold kind_in in H0. destruct (nth_error h0 i) as [x|]; [|destruct H0 as [H|[H|H]]; discriminate].
      cbn. destruct ST as [-> _]. destruct (x_kind x); congruence.
    + split; [intros j [<-|[]] Hj; cbn in Hj; congruence|].
      intros j Hk. unfold is_complete. rewrite nth_on_node. pose proof (PR j) as P. pose proof (KE j) as K. unfold kind_in in *.
      destruct (nth_error h0 j) as [x|], (nth_error h j) as [y|]; try contradiction; try discriminate.
      inversion Hk as [Hk']. inversion K as [K']. rewrite Hk' in *. destruct (Nat.eqb i j); cbn; rewrite K'; exact P.
  - inversion R' as [|? ? ? K0 NE FR ID NI]; subst.
    destruct (calc_subs_ok h0 subs ID subs [] []) as (acc & E & OK); auto.
    { rewrite Forall_forall in *. intros s Hs. apply calc_ok. auto. }
    { apply times_ok_nil. }
    cbn [app] in OK. rewrite E. destruct (agg_some any (map snd acc)) as [t Et]; [eapply times_nonempty; eauto|].
    rewrite Et. exists (on_node i (finish1 true) (finish_subs t acc h0)), t, RNone. split; [reflexivity|].
    assert (T : takes (time_in h0) (RM i any subs) t) by (eapply agg_takes; eauto).
    split; [eapply takes_alike; [|exact T]; exact TE|].
    split; [eapply alike_trans; [exact A|]; eapply alike_trans; [apply alike_finish|apply alike_node; auto]|].
    destruct OK as (ND & O1 & O2).
    assert (NR : forall s, In s subs -> In (rid s) (flat_map parts subs)).
    { intros s Hs. apply in_flat_map. exists s. split; [exact Hs|]. destruct s; simpl; auto. }
    cbn [subs_of rid parts] in *. split; [|split; [|split]].
    + intros s x Hs Tx Hk. unfold is_complete. rewrite nth_on_node.
      destruct (Nat.eqb i (rid s)) eqn:Ei.
      { apply Nat.eqb_eq in Ei. exfalso. apply NI. rewrite Ei. auto. }
      destruct (O2 s Hs) as (y & Hy & Ty).
      assert (EY : y == x) by (eapply takes_unique; [eapply takes_alike; [|exact Ty]; exact TE|exact Tx]).
      destruct (finish_subs_nth t acc h0 (rid s) ND) as [F1 _]. rewrite (F1 y Hy).
      assert (SS : started h0 (rid s)) by (apply ST; right; auto). unfold started in SS.
      rewrite <- KE in Hk. unfold kind_in in Hk.
      assert (EXI : exists z, nth_error h0 (rid s) = Some z).
      { rewrite Forall_forall in FR. specialize (FR s Hs). inversion FR as [j Hj|j ? ? Hj]; subst; cbn [rid]; unfold kind_in in *.
        - destruct (nth_error h0 j); eauto. destruct Hj as [Hj|[Hj|Hj]]; discriminate.
        - destruct (nth_error h0 j); eauto. discriminate. }
      destruct EXI as [z Ez]. rewrite Ez in *. cbn. destruct SS as [Sr Sd]. rewrite Sr.
      assert (X : (if match x_kind z with REvt => true | _ => false end then x_processed z else Qleb y t) = true <-> x <= t).
      { destruct (x_kind z); try congruence; rewrite Qleb_le; lra. }
      destruct (x_kind z); exact X.
    + intro Hk. unfold is_complete. rewrite nth_on_node, Nat.eqb_refl.
      destruct (finish_subs_nth t acc h0 i ND) as [_ F2]. rewrite F2.
      2:{ rewrite in_map_iff. intros ((j & x) & Ej & Hj). cbn in Ej. subst j. destruct (O1 i x Hj) as (s & Hs & Er & _).
          apply NI. rewrite <- Er. auto. }
      assert (SS : started h0 i) by (apply ST; left; auto). unfold started in SS. unfold kind_in in K0.
      destruct (nth_error h0 i) as [z|]; [|discriminate]. inversion K0 as [Kz]. cbn. rewrite Kz. destruct SS as [-> _]. reflexivity.
    + intros j Hj Hji Hjs Hk. destruct Hj as [Hj|Hj]; [congruence|]. unfold is_complete. rewrite nth_on_node.
      destruct (Nat.eqb i j) eqn:Ei; [apply Nat.eqb_eq in Ei; congruence|].
      destruct (finish_subs_nth t acc h0 j ND) as [_ F2]. rewrite F2.
      2:{ rewrite in_map_iff. intros ((k & x) & Ej & Hk'). cbn in Ej. subst k. destruct (O1 j x Hk') as (s & Hs & Er & _).
          apply Hjs. rewrite <- Er. apply in_map. exact Hs. }
      assert (SS : started h0 j) by (apply ST; right; auto). unfold started in SS. rewrite <- KE in Hk. unfold kind_in in Hk.
      destruct (nth_error h0 j) as [z|]; [|reflexivity]. destruct SS as [-> ->]. destruct (x_kind z); try reflexivity. congruence.
    + intros j Hk. unfold is_complete. rewrite nth_on_node. pose proof (PR j) as P. pose proof (KE j) as K.
      destruct (finish_subs_nth t acc h0 j ND) as [F1 F2].
      assert (FJ : exists f, nth_error (finish_subs t acc h0) j = match nth_error h0 j with Some y => Some (f y) | None => None end /\
        forall y, x_kind (f y) = x_kind y /\ x_processed (f y) = x_processed y).
      { destruct (in_dec Nat.eq_dec j (map fst acc)) as [I|I].
        - apply in_map_iff in I. destruct I as ((k & x) & Ek & Hx). cbn in Ek. subst k.
          exists (finish1 (Qleb x t)). split; [apply F1; exact Hx|auto].
        - exists (fun y => y). split; [|auto]. rewrite F2 by exact I. destruct (nth_error h0 j); reflexivity. }
      destruct FJ as (f & EF & Hf). rewrite EF. unfold kind_in in *.
      destruct (nth_error h0 j) as [x|], (nth_error h j) as [y|]; try contradiction; try discriminate.
      destruct (Hf x) as [Hf1 Hf2].
      inversion Hk as [Hk']. inversion K as [K']. rewrite Hk' in *. destruct (Nat.eqb i j); cbn; rewrite Hf1, K', Hf2; exact P.
Qed.

(** ** No negative times *)
Lemma nonneg_node i f h : (forall x, x_time (f x) = x_time x) -> no_negative h -> no_negative (on_node i f h).
Proof.
  intros Hf N j. specialize (N j). unfold time_in in *. rewrite nth_on_node. destruct (Nat.eqb i j); [|exact N].
  destruct (nth_error h j) as [x|]; [rewrite Hf|]; exact N.
Qed.
Lemma nonneg_alike h h' : alike h h' -> no_negative h -> no_negative h'.
Proof. intros A N i. destruct (A i) as [_ ->]. apply N. Qed.
Definition good_time (r : rheap * (Q + rerr)) : Prop :=
  no_negative (fst r) /\ match snd r with inl t => 0 <= t | inr _ => True end.
Lemma calc_leaf_nonneg i h : no_negative h -> good_time (calc_leaf i h).
Proof.
  intro N. unfold calc_leaf, good_time. pose proof (N i) as Ni. unfold time_in in Ni.
  destruct (nth_error h i) as [x|]; [|cbn; auto].
  destruct (x_kind x); try (destruct released); cbn [fst snd]; (split; [try exact N; apply nonneg_node; auto|auto; try lra]).
Qed.
Definition pos_dict (acc : list (nat * Q)) : Prop := Forall (fun p => 0 <= snd p) acc.
Lemma dset_pos i t acc : 0 <= t -> pos_dict acc -> pos_dict (dset i t acc).
Proof.
  intros Ht H. induction H as [|[j x] l Hx H IH]; cbn [dset]; [repeat constructor; exact Ht|].
  destruct (Nat.eqb j i); constructor; auto.
Qed.
Lemma agg_pos any acc t : pos_dict acc -> agg any (map snd acc) = Some t -> 0 <= t.
Proof.
  intros P A. apply agg_ok in A. destruct A as [I _]. apply in_map_iff in I. destruct I as ((j & x) & <- & Hx).
  unfold pos_dict in P. rewrite Forall_forall in P. exact (P _ Hx).
Qed.
Lemma calc_subs_nonneg l : Forall (fun e => forall h, no_negative h -> good_time (calc e h)) l ->
  forall h acc, no_negative h -> pos_dict acc ->
  no_negative (fst (calc_subs l h acc)) /\ match snd (calc_subs l h acc) with inl a => pos_dict a | inr _ => True end.
Proof.
  induction 1 as [|e l He F IH]; intros h acc N P; cbn [calc_subs]; [cbn; auto|].
  specialize (He h N). destruct (calc e h) as [h1 [t|x]]; destruct He as [N1 T]; cbn [fst snd] in *; [|auto].
  apply IH; [exact N1|apply dset_pos; auto].
Qed.
Lemma calc_nonneg e : forall h, no_negative h -> good_time (calc e h).
Proof.
  induction e as [i|i a subs IH] using rt_ind2; intros h N; [apply calc_leaf_nonneg; exact N|].
  rewrite calc_multi, calc_list_subs. destruct (calc_subs_nonneg subs IH h [] N) as [N1 P1]; [constructor|].
  destruct (calc_subs subs h []) as [h1 [acc|x]]; cbn [fst snd] in *; [|split; auto].
  destruct (agg a (map snd acc)) as [t|] eqn:E; split; cbn [fst snd]; auto. eapply agg_pos; eauto.
Qed.
Lemma rehearse_nonneg e h : no_negative h ->
  no_negative (fst (rehearse e h)) /\ match snd (rehearse e h) with inl (t, _) => 0 <= t | inr _ => True end.
Proof.
  intro N. unfold rehearse. assert (N0 : no_negative (start e h)).
  { eapply nonneg_alike; [apply (proj1 (start_ok e h))|exact N]. }
  destruct e as [i|i any subs].
  - destruct (calc_nonneg (RL i) _ N0) as [N1 T]. destruct (calc (RL i) (start (RL i) h)) as [h1 [t|x]]; cbn [fst snd] in *; [|auto].
    split; [apply nonneg_node; auto|exact T].
  - destruct (calc_subs_nonneg subs) with (h := start (RM i any subs) h) (acc := @nil (nat * Q)) as [N1 P1]; auto.
    { apply Forall_forall. intros e _. apply calc_nonneg. }
    { constructor. }
    destruct (calc_subs subs (start (RM i any subs) h) []) as [h1 [acc|x]]; cbn [fst snd] in *; [|auto].
    destruct (agg any (map snd acc)) as [t|] eqn:E; cbn [fst snd]; [|auto]. split; [|eapply agg_pos; eauto].
    apply nonneg_node; auto. eapply nonneg_alike; [apply alike_finish|exact N1].
Qed.

(** ** Tasks *)
Lemma total_cons c i t l : total ((c, i, t) :: l) == t + total l.
Proof. reflexivity. Qed.
Lemma total_nil : total [] == 0.
Proof. reflexivity. Qed.
Lemma rehearse_all_total real es : forall h acc h' t l, rehearse_all real es h acc = (h', inl t, l) -> t == acc + total l.
Proof.
  induction es as [|e es IH]; intros h acc h' t l; cbn [rehearse_all].
  - intro H. inversion H; subst. rewrite ?total_cons, total_nil. lra.
  - destruct (rehearse e h) as [h1 [[x a]|x]]; [|discriminate].
    destruct (rehearse_all real es h1 (acc + x)) as [[h2 r2] l2] eqn:E. intro H. inversion H; subst.
    apply IH in E. rewrite total_cons. lra.
Qed.
Lemma rehearse_all_nonneg real es : forall h acc, no_negative h -> 0 <= acc ->
  no_negative (fst (fst (rehearse_all real es h acc))) /\
  match snd (fst (rehearse_all real es h acc)) with inl t => 0 <= t | inr _ => True end.
Proof.
  induction es as [|e es IH]; intros h acc N P; cbn [rehearse_all]; [cbn; auto|].
  pose proof (rehearse_nonneg e h N) as R. destruct (rehearse e h) as [h1 [[x a]|x]]; cbn [fst snd] in R; [|cbn; tauto].
  destruct R as [N1 Px]. specialize (IH h1 (acc + x) N1 ltac:(lra)).
  destruct (rehearse_all real es h1 (acc + x)) as [[h2 r2] l2]. cbn in *. exact IH.
Qed.

Section T.
Variable task : rbody.
Variable real : Q.
Lemma total_app l l' : total (l ++ l') == total l + total l'.
Proof. unfold total. rewrite map_app. apply Qsum_app. Qed.
Lemma total_one c i t : total [(c, i, t)] == t.
Proof. rewrite total_cons, total_nil. lra. Qed.
Lemma rstep_clock s v s' v' l : rstep task real s v = (s', v', l) -> failed (rr_phase s') = false ->
  rr_clock s' == rr_clock s + total l /\ failed (rr_phase s) = false.
Proof.
  unfold rstep. destruct (rr_phase s) eqn:Ep.
  2,3: intro H; inversion H; subst; rewrite Ep; intro F; split; [rewrite ?total_cons, total_nil; lra|exact F].
  intros H F. split; [|reflexivity]. revert H F.
  destruct (task (rr_got s ++ [(rr_clock s, v)])) as [e|es|e| |].
  - destruct (rehearse e (rr_heap s)) as [h1 [[t a]|x]]; intro H; inversion H; subst; cbn [rr_clock rr_phase rr_got rr_heap failed in_order fst snd]; [intros _; rewrite ?total_cons, total_nil; lra|discriminate].
  - destruct (rehearse_all real es (rr_heap s) 0) as [[h1 [t|x]] l1] eqn:E; intro H; inversion H; subst; cbn [rr_clock rr_phase rr_got rr_heap failed in_order fst snd]; [|discriminate].
    intros _. apply rehearse_all_total in E. lra.
  - destruct (rehearse e (rr_heap s)) as [h1 [[t a]|x]]; intro H; inversion H; subst; cbn [rr_clock rr_phase rr_got rr_heap failed in_order fst snd]; [intros _; rewrite ?total_cons, total_nil; lra|discriminate].
  - intro H; inversion H; subst; cbn [rr_clock rr_phase rr_got rr_heap failed in_order fst snd]. intros _. rewrite ?total_cons, total_nil. lra.
  - intro H; inversion H; subst; cbn [rr_clock rr_phase rr_got rr_heap failed in_order fst snd]. discriminate.
Qed.
Lemma rruns_clock n : forall s v s' v' l, rruns task real n s v = (s', v', l) -> failed (rr_phase s') = false ->
  rr_clock s' == rr_clock s + total l /\ failed (rr_phase s) = false.
Proof.
  induction n as [|n IH]; intros s v s' v' l; cbn [rruns].
  - intro H. inversion H; subst. intro F. split; [rewrite ?total_cons, total_nil; lra|exact F].
  - destruct (rstep task real s v) as [[s1 v1] l1] eqn:E1. destruct (rruns task real n s1 v1) as [[s2 v2] l2] eqn:E2.
    intro H. inversion H; subst. intro F. destruct (IH _ _ _ _ _ E2 F) as [C1 F1].
    destruct (rstep_clock _ _ _ _ _ E1 F1) as [C0 F0]. split; [|exact F0]. rewrite total_app. lra.
Qed.
Lemma in_order_proper l : forall c c', c == c' -> in_order c l -> in_order c' l.
Proof.
  induction l as [|[[c0 i] t] l IH]; intros c c' E; cbn [in_order]; [auto|]. intros [H1 H2]. split; [lra|].
  eapply IH; [|exact H2]. lra.
Qed.
Lemma rstep_order s v s' v' l : no_routines task -> rstep task real s v = (s', v', l) ->
  in_order (rr_clock s) l /\ (rr_phase s' = RRunning -> rr_clock s' == rr_clock s + total l) /\
  (rr_phase s <> RRunning -> l = [] /\ rr_phase s' = rr_phase s).
Proof.
  intro NR. unfold rstep. destruct (rr_phase s) eqn:Ep.
  2,3: intro H; inversion H; subst; rewrite Ep; cbn [rr_clock rr_phase rr_got rr_heap failed in_order fst snd]; split; [auto|split; [discriminate|auto]].
  pose proof (NR (rr_got s ++ [(rr_clock s, v)])) as NE. destruct (task (rr_got s ++ [(rr_clock s, v)])) as [e|es|e| |].
  - destruct (rehearse e (rr_heap s)) as [h1 [[t a]|x]]; intro H; inversion H; subst; cbn [rr_clock rr_phase rr_got rr_heap failed in_order fst snd];
      (split; [auto|split; [try discriminate|congruence]]); [split; [reflexivity|auto]|intros _; rewrite ?total_cons, total_nil; lra].
  - exfalso. apply (NE es). reflexivity.
  - destruct (rehearse e (rr_heap s)) as [h1 [[t a]|x]]; intro H; inversion H; subst; cbn [rr_clock rr_phase rr_got rr_heap failed in_order fst snd];
      (split; [auto|split; [try discriminate|congruence]]); [split; [reflexivity|auto]|intros _; rewrite ?total_cons, total_nil; lra].
  - intro H; inversion H; subst; cbn [rr_clock rr_phase rr_got rr_heap failed in_order fst snd]. split; [auto|split; [discriminate|congruence]].
  - intro H; inversion H; subst; cbn [rr_clock rr_phase rr_got rr_heap failed in_order fst snd]. split; [auto|split; [discriminate|congruence]].
Qed.
Lemma rruns_stuck n s v : rr_phase s <> RRunning -> snd (rruns task real n s v) = [].
Proof.
  revert s v. induction n as [|n IH]; intros s v P; cbn [rruns]; [reflexivity|].
  assert (E : rstep task real s v = (s, RNone, [])) by (unfold rstep; destruct (rr_phase s); congruence).
  rewrite E. specialize (IH s RNone P). destruct (rruns task real n s RNone) as [[s2 v2] l2]. exact IH.
Qed.
Lemma in_order_app l : forall c l', in_order c l -> in_order (c + total l) l' -> in_order c (l ++ l').
Proof.
  induction l as [|[[c0 i] t] l IH]; intros c l'; cbn [in_order app].
  - intros _ H. eapply in_order_proper; [|exact H]. rewrite ?total_cons, total_nil. lra.
  - intros [H1 H2] H. split; [exact H1|]. apply IH; [exact H2|]. eapply in_order_proper; [|exact H]. rewrite total_cons. lra.
Qed.
Lemma rruns_order n : no_routines task -> forall s v s' v' l, rruns task real n s v = (s', v', l) -> in_order (rr_clock s) l.
Proof.
  intro NR. induction n as [|n IH]; intros s v s' v' l; cbn [rruns].
  - intro H. inversion H. exact I.
  - destruct (rstep task real s v) as [[s1 v1] l1] eqn:E1. destruct (rruns task real n s1 v1) as [[s2 v2] l2] eqn:E2.
    intro H. inversion H; subst. destruct (rstep_order _ _ _ _ _ NR E1) as (O1 & C1 & _).
    apply in_order_app; [exact O1|]. destruct (rr_phase s1) eqn:Ep.
    + eapply in_order_proper; [apply C1; reflexivity|]. eapply IH; eauto.
    + pose proof (rruns_stuck n s1 v1) as ST. rewrite E2 in ST. cbn in ST. rewrite ST by (rewrite Ep; discriminate). exact I.
    + pose proof (rruns_stuck n s1 v1) as ST. rewrite E2 in ST. cbn in ST. rewrite ST by (rewrite Ep; discriminate). exact I.
Qed.
Lemma rstep_mono s v s' v' l : no_negative (rr_heap s) -> rstep task real s v = (s', v', l) ->
  rr_clock s <= rr_clock s' /\ no_negative (rr_heap s').
Proof.
  intro N. unfold rstep. destruct (rr_phase s); [|intro H; inversion H; subst; split; [lra|exact N]|intro H; inversion H; subst; split; [lra|exact N]].
  destruct (task (rr_got s ++ [(rr_clock s, v)])) as [e|es|e| |].
  - pose proof (rehearse_nonneg e _ N) as R. destruct (rehearse e (rr_heap s)) as [h1 [[t a]|x]]; intro H; inversion H; subst; cbn [rr_clock rr_phase rr_got rr_heap failed in_order fst snd] in *; destruct R; (split; [lra|assumption]).
  - pose proof (rehearse_all_nonneg real es _ 0 N ltac:(lra)) as R. destruct (rehearse_all real es (rr_heap s) 0) as [[h1 [t|x]] l1]; intro H; inversion H; subst; cbn [rr_clock rr_phase rr_got rr_heap failed in_order fst snd] in *; destruct R; (split; [lra|assumption]).
  - pose proof (rehearse_nonneg e _ N) as R. destruct (rehearse e (rr_heap s)) as [h1 [[t a]|x]]; intro H; inversion H; subst; cbn [rr_clock rr_phase rr_got rr_heap failed in_order fst snd] in *; destruct R; (split; [lra|assumption]).
  - intro H; inversion H; subst; cbn [rr_clock rr_phase rr_got rr_heap failed in_order fst snd]. split; [lra|exact N].
  - intro H; inversion H; subst; cbn [rr_clock rr_phase rr_got rr_heap failed in_order fst snd]. split; [lra|exact N].
Qed.
Lemma rruns_mono n : forall s v s' v' l, no_negative (rr_heap s) -> rruns task real n s v = (s', v', l) ->
  rr_clock s <= rr_clock s' /\ no_negative (rr_heap s').
Proof.
  induction n as [|n IH]; intros s v s' v' l N; cbn [rruns].
  - intro H. inversion H; subst. split; [lra|exact N].
  - destruct (rstep task real s v) as [[s1 v1] l1] eqn:E1. destruct (rruns task real n s1 v1) as [[s2 v2] l2] eqn:E2.
    intro H. inversion H; subst. destruct (rstep_mono _ _ _ _ _ N E1) as [M1 N1].
    destruct (IH _ _ _ _ _ N1 E2) as [M2 N2]. split; [lra|exact N2].
Qed.
Lemma rstep_sees s v s' v' l : rr_phase s = RRunning -> rstep task real s v = (s', v', l) ->
  rr_got s' = rr_got s ++ [(rr_clock s, v)].
Proof.
  unfold rstep. intros ->. destruct (task (rr_got s ++ [(rr_clock s, v)])) as [e|es|e| |].
  - destruct (rehearse e (rr_heap s)) as [h1 [[t a]|x]]; intro H; inversion H; reflexivity.
  - destruct (rehearse_all real es (rr_heap s) 0) as [[h1 [t|x]] l1]; intro H; inversion H; reflexivity.
  - destruct (rehearse e (rr_heap s)) as [h1 [[t a]|x]]; intro H; inversion H; reflexivity.
  - intro H; inversion H; reflexivity.
  - intro H; inversion H; reflexivity.
Qed.
(** The clocks at which the body was resumed never go back. *)
Lemma rruns_sees n : forall s v s' v' l, no_negative (rr_heap s) ->
  (forall c, In c (map fst (rr_got s)) -> c <= rr_clock s) -> rising (map fst (rr_got s)) ->
  rruns task real n s v = (s', v', l) -> rising (map fst (rr_got s')).
Proof.
  induction n as [|n IH]; intros s v s' v' l N B R; cbn [rruns].
  - intro H. inversion H; subst. exact R.
  - destruct (rstep task real s v) as [[s1 v1] l1] eqn:E1. destruct (rruns task real n s1 v1) as [[s2 v2] l2] eqn:E2.
    intro H. inversion H; subst. destruct (rstep_mono _ _ _ _ _ N E1) as [M1 N1].
    destruct (rr_phase s) eqn:Ep.
    2,3: assert (EQ : s1 = s) by (unfold rstep in E1; rewrite Ep in E1; congruence); subst s1; eapply IH; eauto.
    pose proof (rstep_sees _ _ _ _ _ Ep E1) as G. eapply IH; [exact N1| | |exact E2]; rewrite G, map_app; cbn [map fst].
    + intros c Hc. apply in_app_or in Hc. destruct Hc as [Hc|[<-|[]]]; [apply B in Hc; lra|exact M1].
    + clear - B R. induction (map fst (rr_got s)) as [|c cs IHc]; [cbn; auto|].
      destruct R as [R1 R2]. cbn [app rising]. split.
      * apply Forall_app. split; [exact R1|]. constructor; [|constructor]. apply B. left. reflexivity.
      * apply IHc; [|exact R2]. intros c' Hc'. apply B. right. exact Hc'.
Qed.
End T.
Lemma hold_twice h i x : nth_error h i = Some x -> x_kind x = RHold false ->
  let '(h1, r1) := rehearse (RL i) h in
  r1 = inl (x_time x, RNone) /\ snd (rehearse (RL i) h1) = inl (0, RNone).
Proof.
  intros E K. destruct x as [k t rh dn pr]. cbn in K. subst k.
  unfold rehearse. cbn [start calc]. unfold calc_leaf, answer_of.
  repeat (rewrite !nth_on_node, Nat.eqb_refl; rewrite E; cbn [x_kind x_time start1 finish1 x_reh x_done x_processed]).
  split; [reflexivity|].
  repeat (rewrite !nth_on_node, Nat.eqb_refl; rewrite E; cbn [x_kind x_time start1 finish1 x_reh x_done x_processed]).
  reflexivity.
Qed.
