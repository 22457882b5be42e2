From Verif Require Import Common ReserveModel ReserveSpec.

Section P.
Variable keyof : Z -> Z.

Local Notation lookup := (lookup keyof).
Local Notation remove := (remove keyof).
Local Notation step := (step keyof).
Local Notation run := (run keyof).

Definition qsumq (l : list entry) : Q := Qsum (map e_qty l).
Definition keys (l : list entry) : list Z := map (fun e => keyof (e_req e)) l.

Lemma lookup_some r q e :
  lookup r q = Some e -> In e q /\ keyof (e_req e) = keyof r.
Proof.
  unfold ReserveModel.lookup. intro H. apply find_some in H.
  destruct H as [H1 H2]. apply Z.eqb_eq in H2. auto.
Qed.

Lemma lookup_none r q : lookup r q = None -> ~ In (keyof r) (keys q).
Proof.
  unfold ReserveModel.lookup, keys. intros H Hin.
  apply in_map_iff in Hin. destruct Hin as [e [He Hin]].
  apply (find_none _ _ H) in Hin. apply Z.eqb_neq in Hin. congruence.
Qed.

Lemma remove_notin r q : ~ In (keyof r) (keys q) -> remove r q = q.
Proof.
  induction q as [|e q IH]; simpl; intro H; [reflexivity|].
  destruct (Z.eqb_spec (keyof (e_req e)) (keyof r)) as [Heq|Hne]; simpl.
  - exfalso. apply H. left. exact Heq.
  - f_equal. apply IH. intro Hin. apply H. right. exact Hin.
Qed.

Lemma remove_sum r q e :
  NoDup (keys q) -> lookup r q = Some e ->
  qsumq (remove r q) == qsumq q - e_qty e.
Proof.
  unfold qsumq. induction q as [|x q IH]; simpl; [discriminate|].
  intros Hnd Hl. inversion Hnd as [|? ? Hni Hnd']; subst.
  destruct (Z.eqb_spec (keyof (e_req x)) (keyof r)) as [Heq|Hne]; simpl.
  - injection Hl as ->. rewrite Heq in Hni.
    rewrite remove_notin by exact Hni. lra.
  - rewrite IH by assumption. lra.
Qed.

Lemma remove_keys_in r q k : In k (keys (remove r q)) <-> In k (keys q) /\ k <> keyof r.
Proof.
  unfold keys. rewrite !in_map_iff. split.
  - intros [e [He Hin]]. unfold ReserveModel.remove in Hin. apply filter_In in Hin.
    destruct Hin as [Hin Hb]. apply negb_true_iff, Z.eqb_neq in Hb.
    split; [exists e; auto | congruence].
  - intros [[e [He Hin]] Hne]. exists e. split; [exact He|].
    apply filter_In. split; [exact Hin|]. apply negb_true_iff, Z.eqb_neq. congruence.
Qed.

Lemma remove_nodup r q : NoDup (keys q) -> NoDup (keys (remove r q)).
Proof.
  induction q as [|x q IH]; simpl; intro H; [constructor|].
  inversion H as [|? ? Hni Hnd]; subst.
  destruct (negb _); simpl; [|auto].
  constructor; [|auto]. intro Hin. apply Hni. apply remove_keys_in in Hin. tauto.
Qed.

Lemma keys_app q e : keys (q ++ [e]) = keys q ++ [keyof (e_req e)].
Proof. unfold keys. rewrite map_app. reflexivity. Qed.

Lemma nodup_snoc (l : list Z) x : NoDup l -> ~ In x l -> NoDup (l ++ [x]).
Proof.
  induction l as [|y l IH]; simpl; intros H Hn; [constructor; auto; constructor|].
  inversion H; subst. constructor.
  - intro Hin. apply in_app_or in Hin. destruct Hin as [|[<-|[]]]; auto.
  - apply IH; auto.
Qed.

Lemma identical_spec r q x l : identical r q = x :: l -> e_req x = r.
Proof.
  intro H. assert (Hin : In x (identical r q)) by (rewrite H; left; reflexivity).
  apply filter_In in Hin. destruct Hin as [_ Hb]. apply Z.eqb_eq in Hb. exact Hb.
Qed.

Lemma qsumq_app q e : qsumq (q ++ [e]) == qsumq q + e_qty e.
Proof. unfold qsumq. rewrite map_app, Qsum_app. simpl. lra. Qed.

(** Cancelling: unchanged, or one entry released in full. *)
Lemma do_cancel_cases s r s' o rel :
  do_cancel keyof s r = (s', (o, rel)) ->
  (s' = s /\ rel = None /\ ((o = OCancelled false /\ lookup r (queued s) = None) \/ (o = OValueError /\ exists e, lookup r (queued s) = Some e /\ identical r (queued s) = []))) \/
  (exists e, lookup r (queued s) = Some e /\ o = OCancelled true /\ rel = Some e /\
     s' = mkSt (cap s) (now s) (level s + e_qty e) (real_level s) (remove r (queued s)) (timers s) (ser s)).
Proof.
  unfold do_cancel. destruct (ReserveModel.lookup keyof r (queued s)) as [e|] eqn:El.
  - destruct (identical r (queued s)) as [|x l] eqn:Ei; intro H; injection H as <- <- <-.
    + left. repeat split; auto. right. split; auto. exists e; auto.
    + right. exists e. apply identical_spec in Ei. rewrite Ei. auto.
  - intro H; injection H as <- <- <-. left. auto.
Qed.

(** Invariant: keys are distinct and the books balance. *)
Definition Inv (s : st) : Prop :=
  NoDup (keys (queued s)) /\ real_level s == level s + qsumq (queued s).

Lemma inv_init l c t : Inv (init l c t).
Proof. split; simpl; [constructor | unfold qsumq; simpl; lra]. Qed.

Lemma cancel_inv s r s' o rel :
  Inv s -> do_cancel keyof s r = (s', (o, rel)) -> Inv s' /\ real_level s' == real_level s.
Proof.
  intros [Hnd Hb] H. apply do_cancel_cases in H.
  destruct H as [[-> _]|[e [El [-> [-> ->]]]]].
  - split; [split; auto|lra].
  - split; [split|]; cbn [queued real_level level].
    + apply remove_nodup; assumption.
    + rewrite (remove_sum _ _ _ Hnd El). rewrite Hb. lra.
    + lra.
Qed.

Lemma step_inv s o s' r :
  Inv s -> step s o = (s', r) ->
  Inv s' /\ real_level s' == real_level s + put_amount (o, r) - taken_amount (o, r).
Proof.
  intros HI H. destruct o as [q amt ex|q|q|a ci| |t]; cbn [ReserveModel.step] in H.
  - unfold do_reserve in H. destruct (Qltb (level s) amt) eqn:Eq.
    { injection H as <- <-. simpl. split; [exact HI | lra]. }
    destruct (ReserveModel.lookup keyof q (queued s)) as [e|] eqn:El.
    { injection H as <- <-. simpl. split; [exact HI | lra]. }
    injection H as <- <-. destruct HI as [Hnd Hb]. split; [split|]; cbn [queued real_level level].
    + rewrite keys_app. apply nodup_snoc; [exact Hnd|]. apply lookup_none in El. exact El.
    + rewrite qsumq_app. cbn [e_qty]. rewrite Hb. lra.
    + simpl. lra.
  - destruct (do_cancel keyof s q) as [s1 [o1 rel]] eqn:Ec. injection H as <- <-.
    pose proof (cancel_inv _ _ _ _ _ HI Ec) as [HI1 Hr]. split; [exact HI1|].
    apply do_cancel_cases in Ec.
    destruct Ec as [[-> [-> [[-> _]|[-> _]]]]|[e [El [-> [-> ->]]]]]; simpl; lra.
  - unfold do_take in H. destruct (ReserveModel.lookup keyof q (queued s)) as [e|] eqn:El.
    + injection H as <- <-. destruct HI as [Hnd Hb]. split; [split|]; cbn [queued real_level level].
      * apply remove_nodup; assumption.
      * rewrite (remove_sum _ _ _ Hnd El). rewrite Hb. lra.
      * simpl. lra.
    + injection H as <- <-. simpl. split; [exact HI|lra].
  - unfold do_put in H. destruct (_ && _).
    + injection H as <- <-. simpl. split; [exact HI|lra].
    + injection H as <- <-. destruct HI as [Hnd Hb]. split; [split|]; cbn [queued real_level level]; simpl; auto; lra.
  - unfold do_fire in H. destruct (timers s) as [|t ts].
    + injection H as <- <-. simpl. split; [exact HI|lra].
    + destruct (do_cancel keyof _ (t_req t)) as [s2 [o2 rel]] eqn:Ec.
      injection H as <- <-. apply cancel_inv in Ec; [|exact HI].
      destruct Ec as [HI2 Hr]. cbn [real_level] in Hr. split; [exact HI2|]. simpl. lra.
  - unfold do_wait in H. destruct (Qltb t (now s)).
    { injection H as <- <-. simpl. split; [exact HI|lra]. }
    destruct (timers s) as [|x ts].
    { injection H as <- <-. split; [exact HI|simpl; lra]. }
    destruct (Qltb (t_at x) t); injection H as <- <-; (split; [exact HI|simpl; lra]).
Qed.

Lemma run_inv os : forall s s' tr,
  Inv s -> run s os = (s', tr) ->
  Inv s' /\ real_level s' == real_level s + total_put tr - total_taken tr.
Proof.
  induction os as [|o os IH]; intros s s' tr HI H; cbn [ReserveModel.run] in H.
  - injection H as <- <-. split; [exact HI|]. unfold total_put, total_taken; simpl. lra.
  - destruct (step s o) as [s1 r] eqn:Es. destruct (run s1 os) as [s2 tr2] eqn:Er.
    injection H as <- <-. pose proof (step_inv _ _ _ _ HI Es) as [HI1 Hr1].
    pose proof (IH _ _ _ HI1 Er) as [HI2 Hr2]. split; [exact HI2|].
    unfold total_put, total_taken in *. cbn [map Qsum fold_right].
    fold (Qsum (map put_amount tr2)). fold (Qsum (map taken_amount tr2)). lra.
Qed.

Lemma conservation lvl c t0 os s tr :
  run (init lvl c t0) os = (s, tr) ->
  level s + reserved s == lvl + total_put tr - total_taken tr /\
  real_level s == lvl + total_put tr - total_taken tr.
Proof.
  intro H. pose proof (run_inv _ _ _ _ (inv_init lvl c t0) H) as [[_ Hb] Hr].
  cbn [real_level init] in Hr. unfold reserved. fold (qsumq (queued s)). split; lra.
Qed.

Lemma rejected_unchanged s o s' r :
  step s o = (s', r) -> rejected r -> s' = s.
Proof.
  intros H Hrej. destruct o as [q amt ex|q|q|a ci| |t]; cbn [ReserveModel.step] in H.
  - unfold do_reserve in H. destruct (Qltb (level s) amt); [congruence|].
    destruct (ReserveModel.lookup keyof q (queued s)); [congruence|].
    injection H as <- <-. destruct Hrej as [?|[?|?]]; discriminate.
  - destruct (do_cancel keyof s q) as [s1 [o1 rel]] eqn:Ec. injection H as <- <-.
    apply do_cancel_cases in Ec. destruct Ec as [[-> _]|[e [_ [-> _]]]]; [reflexivity|].
    destruct Hrej as [?|[?|?]]; discriminate.
  - unfold do_take in H. destruct (ReserveModel.lookup keyof q (queued s)); [|congruence].
    injection H as <- <-. destruct Hrej as [?|[?|?]]; discriminate.
  - unfold do_put in H. destruct (_ && _); [congruence|].
    injection H as <- <-. destruct Hrej as [?|[?|?]]; discriminate.
  - unfold do_fire in H. destruct (timers s) as [|t ts]; [congruence|].
    destruct (do_cancel keyof _ (t_req t)) as [s2 [o2 rel]]. injection H as <- <-.
    destruct Hrej as [?|[?|?]]; discriminate.
  - unfold do_wait in H. destruct (Qltb t (now s)); [congruence|].
    destruct (timers s) as [|x ts]; [|destruct (Qltb (t_at x) t); [congruence|]];
      injection H as <- <-; destruct Hrej as [?|[?|?]]; discriminate.
Qed.

(** ** No over-promising *)
Definition Pos (s : st) : Prop :=
  0 <= level s /\ forall e, In e (queued s) -> 0 <= e_qty e.

Lemma remove_in r q e : In e (remove r q) -> In e q.
Proof. unfold ReserveModel.remove. intro H. apply filter_In in H. tauto. Qed.

Lemma cancel_pos s r s' o rel : Pos s -> do_cancel keyof s r = (s', (o, rel)) -> Pos s'.
Proof.
  intros [Hl Hq] H. apply do_cancel_cases in H.
  destruct H as [[-> _]|[e [El [-> [-> ->]]]]]; [split; assumption|].
  split; cbn [level queued].
  - apply lookup_some in El. destruct El as [Hin _]. apply Hq in Hin. lra.
  - intros x Hx. apply remove_in in Hx. auto.
Qed.

Lemma step_pos s o s' r : Pos s -> nonneg_op o -> step s o = (s', r) -> Pos s'.
Proof.
  intros HP Hn H. destruct o as [q amt ex|q|q|a ci| |t]; cbn [ReserveModel.step nonneg_op] in *.
  - unfold do_reserve in H. destruct (Qltb (level s) amt) eqn:Eq; [congruence|].
    destruct (ReserveModel.lookup keyof q (queued s)); [congruence|].
    injection H as <- <-. qbool. destruct HP as [Hl Hq]. split; cbn [level queued]; [lra|].
    intros e He. apply in_app_or in He. destruct He as [He|[<-|[]]]; auto.
  - destruct (do_cancel keyof s q) as [s1 [o1 rel]] eqn:Ec. injection H as <- <-.
    eapply cancel_pos; eauto.
  - unfold do_take in H. destruct (ReserveModel.lookup keyof q (queued s)); [|congruence].
    injection H as <- <-. destruct HP as [Hl Hq]. split; cbn [level queued]; [exact Hl|].
    intros e0 He. apply remove_in in He. auto.
  - unfold do_put in H. destruct (_ && _); [congruence|].
    injection H as <- <-. destruct HP as [Hl Hq]. split; cbn [level queued]; [lra|exact Hq].
  - unfold do_fire in H. destruct (timers s) as [|t ts]; [congruence|].
    destruct (do_cancel keyof _ (t_req t)) as [s2 [o2 rel]] eqn:Ec. injection H as <- <-.
    eapply cancel_pos; [|exact Ec]. exact HP.
  - unfold do_wait in H. destruct (Qltb t (now s)); [congruence|].
    destruct (timers s) as [|x ts]; [|destruct (Qltb (t_at x) t); [congruence|]];
      injection H as <- <-; exact HP.
Qed.

Lemma run_pos os : forall s s' tr,
  Pos s -> Forall nonneg_op os -> run s os = (s', tr) -> Pos s'.
Proof.
  induction os as [|o os IH]; intros s s' tr HP Hn H; cbn [ReserveModel.run] in H.
  - congruence.
  - destruct (step s o) as [s1 r] eqn:Es. destruct (run s1 os) as [s2 tr2] eqn:Er.
    injection H as <- <-. inversion Hn; subst. eapply IH; [|eassumption|exact Er].
    eapply step_pos; eauto.
Qed.

Lemma available_nonneg lvl c t0 os s tr :
  0 <= lvl -> Forall nonneg_op os -> run (init lvl c t0) os = (s, tr) -> 0 <= level s.
Proof.
  intros Hl Hn H. apply (run_pos _ _ _ _) in H; [apply H| |exact Hn].
  split; simpl; [exact Hl | intros e []].
Qed.

(** ** The history determines what is held *)
Lemma run_app os1 : forall s os2,
  run s (os1 ++ os2) =
  let '(s1, t1) := run s os1 in let '(s2, t2) := run s1 os2 in (s2, t1 ++ t2).
Proof.
  induction os1 as [|o os1 IH]; intros s os2; cbn [ReserveModel.run app].
  - destruct (run s os2); reflexivity.
  - destruct (step s o) as [s1 r]. rewrite IH.
    destruct (run s1 os1) as [s2 t1]. destruct (run s2 os2) as [s3 t2]. reflexivity.
Qed.

Definition qty_of (k : Z) (q : list entry) : option Q :=
  option_map e_qty (find (fun e => Z.eqb (keyof (e_req e)) k) q).

Lemma qty_of_lookup r q : qty_of (keyof r) q = option_map e_qty (lookup r q).
Proof. reflexivity. Qed.

Lemma qty_of_app k q e :
  qty_of k (q ++ [e]) =
  match qty_of k q with
  | Some x => Some x
  | None => if Z.eqb (keyof (e_req e)) k then Some (e_qty e) else None
  end.
Proof.
  unfold qty_of. induction q as [|x q IH]; simpl.
  - destruct (Z.eqb _ _); reflexivity.
  - destruct (Z.eqb (keyof (e_req x)) k); simpl; [reflexivity|exact IH].
Qed.

Lemma qty_of_remove k r q :
  qty_of k (remove r q) = if Z.eqb (keyof r) k then None else qty_of k q.
Proof.
  unfold qty_of. induction q as [|x q IH]; simpl.
  - destruct (Z.eqb _ _); reflexivity.
  - destruct (Z.eqb_spec (keyof (e_req x)) (keyof r)) as [Heq|Hne]; simpl.
    + rewrite IH. destruct (Z.eqb_spec (keyof r) k) as [E|E]; [reflexivity|].
      destruct (Z.eqb_spec (keyof (e_req x)) k); [congruence|reflexivity].
    + destruct (Z.eqb_spec (keyof (e_req x)) k) as [E|E]; simpl.
      * destruct (Z.eqb_spec (keyof r) k); [congruence|reflexivity].
      * exact IH.
Qed.

Lemma step_held k s o s' r :
  step s o = (s', r) ->
  qty_of k (queued s') = held_step keyof k (qty_of k (queued s)) (o, r).
Proof.
  intro H. destruct o as [q amt ex|q|q|a ci| |t]; cbn [ReserveModel.step] in H.
  - unfold do_reserve in H. destruct (Qltb (level s) amt); [injection H as <- <-; reflexivity|].
    destruct (ReserveModel.lookup keyof q (queued s)) eqn:El; [injection H as <- <-; reflexivity|].
    injection H as <- <-. cbn [queued held_step]. rewrite qty_of_app. cbn [e_req e_qty].
    destruct (Z.eqb_spec (keyof q) k) as [E|E].
    + subst k. rewrite qty_of_lookup. rewrite El. reflexivity.
    + destruct (qty_of k (queued s)); reflexivity.
  - destruct (do_cancel keyof s q) as [s1 [o1 rel]] eqn:Ec. injection H as <- <-.
    apply do_cancel_cases in Ec.
    destruct Ec as [[-> [_ [[-> _]|[-> _]]]]|[e [El [-> [-> ->]]]]]; cbn [held_step queued]; try reflexivity.
    rewrite qty_of_remove. reflexivity.
  - unfold do_take in H. destruct (ReserveModel.lookup keyof q (queued s)); injection H as <- <-; [|reflexivity].
    cbn [held_step queued]. rewrite qty_of_remove. reflexivity.
  - unfold do_put in H. destruct (_ && _); injection H as <- <-; reflexivity.
  - unfold do_fire in H. destruct (timers s) as [|t ts]; [injection H as <- <-; reflexivity|].
    destruct (do_cancel keyof _ (t_req t)) as [s2 [o2 rel]] eqn:Ec. injection H as <- <-.
    apply do_cancel_cases in Ec.
    destruct Ec as [[-> [-> _]]|[e [El [-> [-> ->]]]]]; cbn [held_step queued]; try reflexivity.
    rewrite qty_of_remove. reflexivity.
  - unfold do_wait in H. destruct (Qltb t (now s)); [injection H as <- <-; reflexivity|].
    destruct (timers s) as [|x ts]; [|destruct (Qltb (t_at x) t)]; injection H as <- <-; reflexivity.
Qed.

Lemma run_held k os : forall s s' tr,
  run s os = (s', tr) ->
  qty_of k (queued s') = fold_left (held_step keyof k) tr (qty_of k (queued s)).
Proof.
  induction os as [|o os IH]; intros s s' tr H; cbn [ReserveModel.run] in H.
  - injection H as <- <-. reflexivity.
  - destruct (step s o) as [s1 r] eqn:Es. destruct (run s1 os) as [s2 tr2] eqn:Er.
    injection H as <- <-. cbn [fold_left]. rewrite <- (step_held k _ _ _ _ Es). eauto.
Qed.

Lemma held_correct k lvl c t0 os s tr :
  run (init lvl c t0) os = (s, tr) -> qty_of k (queued s) = held keyof k tr.
Proof. intro H. apply run_held with (k := k) in H. exact H. Qed.

Lemma take_result lvl c t0 os s tr r s' o :
  run (init lvl c t0) os = (s, tr) -> step s (Take r) = (s', o) ->
  o = match held keyof (keyof r) tr with Some q => OTaken q | None => OValueError end /\
  held keyof (keyof r) (tr ++ [(Take r, o)]) = None /\
  level s' = level s.
Proof.
  intros H Ht. rewrite <- (held_correct _ _ _ _ _ _ _ H). rewrite qty_of_lookup.
  assert (Hf : held keyof (keyof r) (tr ++ [(Take r, o)]) = qty_of (keyof r) (queued s')).
  { rewrite (step_held (keyof r) _ _ _ _ Ht). unfold held. rewrite fold_left_app. cbn [fold_left].
    rewrite (held_correct _ _ _ _ _ _ _ H). reflexivity. }
  rewrite Hf. cbn [ReserveModel.step] in Ht. unfold do_take in Ht.
  destruct (ReserveModel.lookup keyof r (queued s)) as [e|] eqn:El; injection Ht as <- <-; cbn [option_map].
  - split; [reflexivity|]. split; [|reflexivity]. cbn [queued]. rewrite qty_of_remove.
    rewrite Z.eqb_refl. reflexivity.
  - split; [reflexivity|]. split; [|reflexivity]. rewrite qty_of_lookup, El. reflexivity.
Qed.

Lemma reserve_result lvl c t0 os s tr r q ex s' o :
  run (init lvl c t0) os = (s, tr) -> step s (Reserve r q ex) = (s', o) ->
  (o = OReserved true <-> held keyof (keyof r) tr = None /\ q <= level s) /\
  (o = OReserved true -> level s' == level s - q /\ held keyof (keyof r) (tr ++ [(Reserve r q ex, o)]) = Some q) /\
  (o <> OReserved true -> o = OReserved false /\ s' = s).
Proof.
  intros H Ht.
  assert (Hf : held keyof (keyof r) (tr ++ [(Reserve r q ex, o)]) = qty_of (keyof r) (queued s')).
  { rewrite (step_held (keyof r) _ _ _ _ Ht). unfold held. rewrite fold_left_app. cbn [fold_left].
    rewrite (held_correct _ _ _ _ _ _ _ H). reflexivity. }
  rewrite Hf. rewrite <- (held_correct _ _ _ _ _ _ _ H). rewrite qty_of_lookup.
  cbn [ReserveModel.step] in Ht. unfold do_reserve in Ht.
  destruct (Qltb (level s) q) eqn:Eq; qbool.
  { injection Ht as <- <-. split; [split; [discriminate | intros [_ Hle]; exfalso; lra]|].
    split; [discriminate | auto]. }
  destruct (ReserveModel.lookup keyof r (queued s)) as [e|] eqn:El; injection Ht as <- <-; cbn [option_map].
  { split; [split; [discriminate | intros [? _]; discriminate]|]. split; [discriminate | auto]. }
  split; [split; auto|]. split; [|congruence]. intros _. split.
  - cbn [level]. lra.
  - cbn [queued]. rewrite qty_of_app, qty_of_lookup, El. cbn [option_map e_req e_qty].
    rewrite Z.eqb_refl. reflexivity.
Qed.

(** ** Capacity *)
Definition le_cap (x : Q) (c : option Q) : Prop :=
  match c with Some c => x <= c | None => True end.

Lemma step_cap s o s' r : step s o = (s', r) -> cap s' = cap s.
Proof.
  intro H. destruct o as [q amt ex|q|q|a ci| |t]; cbn [ReserveModel.step] in H.
  - unfold do_reserve in H. destruct (Qltb (level s) amt); [injection H as <- <-; reflexivity|].
    destruct (ReserveModel.lookup keyof q (queued s)) eqn:El; injection H as <- <-; reflexivity.
  - destruct (do_cancel keyof s q) as [s1 [o1 rel]] eqn:Ec. injection H as <- <-.
    apply do_cancel_cases in Ec. destruct Ec as [[-> _]|[e [El [-> [-> ->]]]]]; reflexivity.
  - unfold do_take in H. destruct (ReserveModel.lookup keyof q (queued s)); injection H as <- <-; reflexivity.
  - unfold do_put in H. destruct (_ && _); injection H as <- <-; reflexivity.
  - unfold do_fire in H. destruct (timers s) as [|t ts]; [injection H as <- <-; reflexivity|].
    destruct (do_cancel keyof _ (t_req t)) as [s2 [o2 rel]] eqn:Ec. injection H as <- <-.
    apply do_cancel_cases in Ec. destruct Ec as [[-> _]|[e [El [-> [-> ->]]]]]; reflexivity.
  - unfold do_wait in H. destruct (Qltb t (now s)); [injection H as <- <-; reflexivity|].
    destruct (timers s) as [|x ts]; [|destruct (Qltb (t_at x) t)]; injection H as <- <-; reflexivity.
Qed.

Lemma taken_nonneg s o s' r : Pos s -> step s o = (s', r) -> 0 <= taken_amount (o, r).
Proof.
  intros [_ Hq] H. destruct r; cbn [taken_amount]; try lra.
  destruct o as [q amt ex|q|q|a ci| |t]; cbn [ReserveModel.step] in H.
  - unfold do_reserve in H. destruct (Qltb (level s) amt); [discriminate|].
    destruct (ReserveModel.lookup keyof q (queued s)); discriminate.
  - destruct (do_cancel keyof s q) as [s1 [o1 rel]] eqn:Ec. injection H as <- ->.
    apply do_cancel_cases in Ec. destruct Ec as [[_ [_ [[Hx _]|[Hx _]]]]|[e [_ [Hx _]]]]; discriminate.
  - unfold do_take in H. destruct (ReserveModel.lookup keyof q (queued s)) as [e|] eqn:El; [|discriminate].
    injection H as <- <-. apply Hq. apply lookup_some in El. tauto.
  - unfold do_put in H. destruct (_ && _); discriminate.
  - unfold do_fire in H. destruct (timers s) as [|t ts]; [discriminate|].
    destruct (do_cancel keyof _ (t_req t)) as [s2 [o2 rel]]. discriminate.
  - unfold do_wait in H. destruct (Qltb t (now s)); [discriminate|].
    destruct (timers s) as [|x ts]; [|destruct (Qltb (t_at x) t)]; discriminate.
Qed.

Lemma put_only s o s' r :
  step s o = (s', r) -> r <> OPut -> put_amount (o, r) == 0.
Proof. intros _ H. destruct o, r; cbn [put_amount]; try reflexivity. congruence. Qed.

Lemma run_capacity os : forall s s' tr c d,
  Inv s -> Pos s -> cap s = Some c -> real_level s <= c + d ->
  Forall nonneg_op os -> Forall no_capacity_increase os ->
  run s os = (s', tr) ->
  real_level s' <= c + reserved_at_last_put keyof s os d.
Proof.
  induction os as [|o os IH]; intros s s' tr c d HI HP Hc Hle Hn Hci H;
    cbn [ReserveModel.run reserved_at_last_put] in *.
  - injection H as <- <-. exact Hle.
  - destruct (step s o) as [s1 r] eqn:Es. destruct (run s1 os) as [s2 tr2] eqn:Er.
    injection H as <- <-. inversion Hn; subst. inversion Hci; subst.
    pose proof (step_inv _ _ _ _ HI Es) as [HI1 Hr].
    pose proof (taken_nonneg _ _ _ _ HP Es) as Ht.
    eapply IH; [exact HI1 | eapply step_pos; eauto | rewrite (step_cap _ _ _ _ Es); exact Hc | | assumption | assumption | exact Er].
    destruct r; try (pose proof (put_only _ _ _ _ Es) as Hp; rewrite Hp in Hr by discriminate; lra).
    (* put *)
    clear Ht Hr. destruct o as [q amt ex|q|q|a ci| |t]; cbn [ReserveModel.step] in Es.
    + unfold do_reserve in Es. destruct (Qltb (level s) amt); [discriminate|].
      destruct (ReserveModel.lookup keyof q (queued s)); discriminate.
    + destruct (do_cancel keyof s q) as [s3 [o1 rel]] eqn:Ec. injection Es as <- ->.
      apply do_cancel_cases in Ec. destruct Ec as [[_ [_ [[Hx _]|[Hx _]]]]|[e [_ [Hx _]]]]; discriminate.
    + unfold do_take in Es. destruct (ReserveModel.lookup keyof q (queued s)); discriminate.
    + unfold do_put in Es. destruct (exceeds (level s + a) (cap s)) eqn:Ee.
      * destruct ci; cbn [no_capacity_increase] in *; [contradiction|]. discriminate.
      * cbn [andb] in Es. injection Es as <-. rewrite Hc in Ee. cbn [exceeds] in Ee. qbool.
        cbn [real_level]. destruct HI as [_ Hb]. unfold reserved. fold (qsumq (queued s)). lra.
    + unfold do_fire in Es. destruct (timers s) as [|t ts]; [discriminate|].
      destruct (do_cancel keyof _ (t_req t)) as [s3 [o2 rel]]. discriminate.
    + unfold do_wait in Es. destruct (Qltb t (now s)); [discriminate|].
      destruct (timers s) as [|x ts]; [|destruct (Qltb (t_at x) t)]; discriminate.
Qed.

Lemma capacity_bound lvl c t0 os s tr :
  0 <= lvl -> lvl <= c ->
  Forall nonneg_op os -> Forall no_capacity_increase os ->
  run (init lvl (Some c) t0) os = (s, tr) ->
  real_level s <= c + reserved_at_last_put keyof (init lvl (Some c) t0) os 0.
Proof.
  intros H0 Hc Hn Hci H. eapply run_capacity; eauto.
  - apply inv_init.
  - split; simpl; [exact H0|intros e []].
  - simpl. lra.
Qed.

(** ** Expiry *)
Definition TInv (s : st) : Prop :=
  (forall t e, In t (timers s) -> In e (queued s) ->
     keyof (t_req t) = keyof (e_req e) -> t_ser t = e_ser e /\ t_req t = e_req e) /\
  (forall t, In t (timers s) -> (t_ser t < ser s)%nat) /\
  (forall e, In e (queued s) -> (e_ser e < ser s)%nat).

Lemma add_timer_in t l x : In x (add_timer t l) <-> x = t \/ In x l.
Proof.
  induction l as [|y l IH]; simpl; [intuition|].
  destruct (Qltb (t_at t) (t_at y)); simpl; [intuition|]. rewrite IH. intuition.
Qed.

Lemma nodup_key_unique q e1 e2 :
  NoDup (keys q) -> In e1 q -> In e2 q -> keyof (e_req e1) = keyof (e_req e2) -> e1 = e2.
Proof.
  induction q as [|x q IH]; simpl; [intros _ []|].
  intros Hnd H1 H2 Hk. inversion Hnd as [|? ? Hni Hnd']; subst.
  assert (Haux : forall e, In e q -> keyof (e_req e) = keyof (e_req x) -> False).
  { intros e He Hke. apply Hni. rewrite <- Hke. unfold keys. apply in_map_iff. exists e; auto. }
  destruct H1 as [<-|H1], H2 as [<-|H2]; auto.
  - exfalso. eapply Haux; eauto.
  - exfalso. eapply Haux; eauto.
Qed.

Lemma cancel_tinv s r s' o rel :
  TInv s -> do_cancel keyof s r = (s', (o, rel)) -> TInv s'.
Proof.
  intros (H1 & H2 & H3) H. apply do_cancel_cases in H.
  destruct H as [[-> _]|[e [El [-> [-> ->]]]]]; [repeat split; auto; eapply H1; eauto|].
  split; [|split]; cbn [queued timers ser].
  - intros t x Ht Hx. apply remove_in in Hx. auto.
  - auto.
  - intros x Hx. apply remove_in in Hx. auto.
Qed.

Lemma step_tinv s o s' r :
  Inv s -> TInv s -> step s o = (s', r) ->
  (match o, r with
   | Reserve q _ _, OReserved true => forall t, In t (timers s) -> keyof (t_req t) <> keyof q
   | _, _ => True
   end) -> TInv s'.
Proof.
  intros HI HT H Hno. destruct o as [q amt ex|q|q|a ci| |t]; cbn [ReserveModel.step] in H.
  - unfold do_reserve in H. destruct (Qltb (level s) amt); [injection H as <- <-; exact HT|].
    destruct (ReserveModel.lookup keyof q (queued s)) eqn:El; injection H as <- <-; [exact HT|].
    destruct HT as (H1 & H2 & H3).
    assert (Htm : forall t, In t (match ex with
                     | Some d => if Qltb d 0 then timers s
                                 else add_timer (mkTimer (now s + d) q (ser s)) (timers s)
                     | None => timers s end) ->
                   In t (timers s) \/ (t_req t = q /\ t_ser t = ser s)).
    { intros t Ht. destruct ex as [d|]; auto. destruct (Qltb d 0); auto.
      apply add_timer_in in Ht. destruct Ht as [->|Ht]; auto. }
    split; [|split]; cbn [queued timers ser].
    + intros t e Ht He Hk. apply Htm in Ht. apply in_app_or in He.
      destruct He as [He|[<-|[]]]; destruct Ht as [Ht|[Htr Hts]]; cbn [e_req e_ser] in *.
      * auto.
      * exfalso. apply lookup_none in El. apply El. rewrite <- Htr, Hk.
        unfold keys. apply in_map_iff. exists e; auto.
      * exfalso. apply (Hno t Ht). exact Hk.
      * split; [rewrite Hts; reflexivity | exact Htr].
    + intros t Ht. apply Htm in Ht. destruct Ht as [Ht|[_ ->]]; [apply H2 in Ht|]; lia.
    + intros e He. apply in_app_or in He. destruct He as [He|[<-|[]]]; [apply H3 in He|cbn [e_ser]]; lia.
  - destruct (do_cancel keyof s q) as [s1 [o1 rel]] eqn:Ec. injection H as <- <-.
    eapply cancel_tinv; eauto.
  - unfold do_take in H. destruct (ReserveModel.lookup keyof q (queued s)); injection H as <- <-; [|exact HT].
    destruct HT as (H1 & H2 & H3). split; [|split]; cbn [queued timers ser].
    + intros t x Ht Hx. apply remove_in in Hx. auto.
    + auto.
    + intros x Hx. apply remove_in in Hx. auto.
  - unfold do_put in H. destruct (_ && _); injection H as <- <-; exact HT.
  - unfold do_fire in H. destruct (timers s) as [|t ts] eqn:Et; [injection H as <- <-; exact HT|].
    destruct (do_cancel keyof _ (t_req t)) as [s2 [o2 rel]] eqn:Ec. injection H as <- <-.
    eapply cancel_tinv; [|exact Ec]. destruct HT as (H1 & H2 & H3). rewrite Et in *.
    split; [|split]; cbn [queued timers ser].
    + intros t0 e Ht0. apply H1. right. exact Ht0.
    + intros t0 Ht0. apply H2. right. exact Ht0.
    + exact H3.
  - unfold do_wait in H. destruct (Qltb t (now s)); [injection H as <- <-; exact HT|].
    destruct (timers s) as [|x ts] eqn:Et; [|destruct (Qltb (t_at x) t)]; injection H as <- <-;
      destruct HT as (H1 & H2 & H3); rewrite Et in *; split; [|split| |split| |split];
      cbn [queued timers ser]; try rewrite Et; auto.
Qed.

Lemma run_tinv os : forall s s' tr,
  Inv s -> TInv s -> no_overlap keyof s os -> run s os = (s', tr) -> Inv s' /\ TInv s'.
Proof.
  induction os as [|o os IH]; intros s s' tr HI HT Hno H; cbn [ReserveModel.run no_overlap] in *.
  - injection H as <- <-. auto.
  - destruct (step s o) as [s1 r] eqn:Es. destruct (run s1 os) as [s2 tr2] eqn:Er.
    injection H as <- <-. destruct Hno as [Hh Hno].
    pose proof (step_inv _ _ _ _ HI Es) as [HI1 _].
    pose proof (step_tinv _ _ _ _ HI HT Es Hh) as HT1. eauto.
Qed.

Lemma identical_in r q e : In e q -> e_req e = r -> identical r q <> [].
Proof.
  intros Hin He Hn. assert (In e (identical r q)).
  { apply filter_In. split; [exact Hin|]. apply Z.eqb_eq. exact He. }
  rewrite Hn in H. destruct H.
Qed.

(** The reservation with serial [n] is in force. *)
Definition in_force (s : st) (n : nat) : Prop := exists e, In e (queued s) /\ e_ser e = n.

Lemma fire_exact s t ts s' r :
  Inv s -> TInv s -> timers s = t :: ts -> step s Fire = (s', r) ->
  now s' = t_at t /\
  ((exists e, In e (queued s) /\ e_ser e = t_ser t /\ keyof (e_req e) = keyof (t_req t)) ->
     exists e, r = OExpired t (Some e) /\ In e (queued s) /\ e_ser e = t_ser t /\
               level s' == level s + e_qty e /\
               (forall x, In x (queued s') <-> In x (queued s) /\ x <> e)) /\
  (~ (exists e, In e (queued s) /\ e_ser e = t_ser t /\ keyof (e_req e) = keyof (t_req t)) ->
     r = OExpired t None /\ queued s' = queued s /\ level s' = level s).
Proof.
  intros [Hnd Hb] (H1 & H2 & H3) Et H. cbn [ReserveModel.step] in H. unfold do_fire in H. rewrite Et in *.
  destruct (do_cancel keyof _ (t_req t)) as [s2 [o2 rel]] eqn:Ec. injection H as <- <-.
  apply do_cancel_cases in Ec.
  destruct Ec as [[-> [-> Hc]]|[e [El [-> [-> ->]]]]]; cbn [now queued level cap real_level timers ser] in *.
  - split; [reflexivity|]. split.
    + intros [e [Hin [Hs Hk]]]. exfalso. destruct Hc as [[_ Hl]|[_ [e0 [Hl Hi]]]].
      * apply lookup_none in Hl. apply Hl. rewrite <- Hk. unfold keys. apply in_map_iff. exists e; auto.
      * assert (He : t_req t = e_req e) by (apply (H1 t e); [left; reflexivity|exact Hin|congruence]).
        apply (identical_in (t_req t) (queued s) e); auto.
    + auto.
  - split; [reflexivity|]. pose proof (lookup_some _ _ _ El) as [Hin Hk]. split.
    + intros [x [Hx [Hxs Hxk]]].
      assert (x = e) by (eapply nodup_key_unique; eauto; congruence). subst x.
      exists e. split; [reflexivity|]. split; [exact Hin|]. split; [exact Hxs|].
      split; [reflexivity|]. intro y; split.
      * intro Hy. split; [eapply remove_in; eauto|]. intros ->.
        unfold ReserveModel.remove in Hy. apply filter_In in Hy.
        destruct Hy as [_ Hf]. apply negb_true_iff, Z.eqb_neq in Hf. congruence.
      * intros [Hxi Hne]. unfold ReserveModel.remove. apply filter_In. split; [exact Hxi|].
        apply negb_true_iff, Z.eqb_neq. intro Hkk. apply Hne.
        eapply nodup_key_unique; eauto. congruence.
    + intro Hno. exfalso. apply Hno. exists e. split; [exact Hin|]. split; [|exact Hk].
      assert (Hx : t_ser t = e_ser e) by (apply (H1 t e); [left; reflexivity|exact Hin|congruence]).
      congruence.
Qed.

Lemma init_tinv l c t : TInv (init l c t).
Proof. repeat split; simpl; intros; contradiction. Qed.

Lemma expiry_exact lvl c t0 os s tr t ts s' r :
  no_overlap keyof (init lvl c t0) os ->
  run (init lvl c t0) os = (s, tr) -> timers s = t :: ts -> step s Fire = (s', r) ->
  now s' = t_at t /\
  ((exists e, In e (queued s) /\ e_ser e = t_ser t /\ keyof (e_req e) = keyof (t_req t)) ->
     exists e, r = OExpired t (Some e) /\ In e (queued s) /\ e_ser e = t_ser t /\
               level s' == level s + e_qty e /\
               (forall x, In x (queued s') <-> In x (queued s) /\ x <> e)) /\
  (~ (exists e, In e (queued s) /\ e_ser e = t_ser t /\ keyof (e_req e) = keyof (t_req t)) ->
     r = OExpired t None /\ queued s' = queued s /\ level s' = level s).
Proof.
  intros Hno Hr Et Hs.
  pose proof (run_tinv _ _ _ _ (inv_init lvl c t0) (init_tinv lvl c t0) Hno Hr) as [HI HT].
  eapply fire_exact; eauto.
Qed.

(** A granted reservation with expiry [d] is scheduled for [now + d]; the
    clock cannot pass a pending expiry. *)
Lemma reserve_schedules s r q d s' :
  0 <= d -> step s (Reserve r q (Some d)) = (s', OReserved true) ->
  exists t e, In t (timers s') /\ t_at t = now s + d /\ t_req t = r /\
    In e (queued s') /\ e_req e = r /\ e_qty e = q /\ e_ser e = t_ser t.
Proof.
  intros Hd H. cbn [ReserveModel.step] in H. unfold do_reserve in H.
  destruct (Qltb (level s) q); [discriminate|].
  destruct (ReserveModel.lookup keyof r (queued s)); [discriminate|].
  destruct (Qltb d 0) eqn:E; qbool; [lra|]. injection H as <-. cbn [timers queued].
  exists (mkTimer (now s + d) r (ser s)), (mkEntry r q (now s) (ser s)).
  repeat split; auto.
  - apply add_timer_in. auto.
  - apply in_or_app. right. left. reflexivity.
Qed.

(** Timers are kept sorted, so no operation moves the clock past one. *)
Fixpoint tsorted (l : list timer) : Prop :=
  match l with
  | [] => True
  | t :: l' => (forall x, In x l' -> t_at t <= t_at x) /\ tsorted l'
  end.
Definition ClkInv (s : st) : Prop :=
  tsorted (timers s) /\ forall t, In t (timers s) -> now s <= t_at t.

Lemma add_timer_sorted t l : tsorted l -> tsorted (add_timer t l).
Proof.
  induction l as [|y l IH]; simpl; [intros _; split; [intros x []|exact I]|].
  intros [Hy Hs]. destruct (Qltb (t_at t) (t_at y)) eqn:E; qbool; simpl.
  - split; [|split; assumption]. intros x [<-|Hx]; [lra|]. apply Hy in Hx. lra.
  - split; [|auto]. intros x Hx. apply add_timer_in in Hx. destruct Hx as [->|Hx]; auto.
Qed.

Lemma cancel_timers s r s' o rel :
  do_cancel keyof s r = (s', (o, rel)) -> timers s' = timers s /\ now s' = now s.
Proof.
  intro H. apply do_cancel_cases in H.
  destruct H as [[-> _]|[e [El [-> [-> ->]]]]]; auto.
Qed.

Lemma step_clk s o s' r : ClkInv s -> step s o = (s', r) -> ClkInv s' /\ now s <= now s'.
Proof.
  intros HC H. destruct o as [q amt ex|q|q|a ci| |t]; cbn [ReserveModel.step] in H.
  - unfold do_reserve in H. destruct (Qltb (level s) amt); [injection H as <- <-; split; [exact HC|lra]|].
    destruct (ReserveModel.lookup keyof q (queued s)); injection H as <- <-; (split; [|simpl; lra]); [exact HC|].
    destruct HC as [Hs Ht]. unfold ClkInv; cbn [timers now].
    destruct ex as [d|]; [|split; assumption]. destruct (Qltb d 0) eqn:E; qbool; [split; assumption|].
    split; [apply add_timer_sorted; exact Hs|].
    intros t Hin. apply add_timer_in in Hin. destruct Hin as [->|Hin]; [simpl; lra|auto].
  - destruct (do_cancel keyof s q) as [s1 [o1 rel]] eqn:Ec. injection H as <- <-.
    apply cancel_timers in Ec. destruct Ec as [E1 E2]. unfold ClkInv in *. rewrite E1, E2. split; [exact HC|lra].
  - unfold do_take in H. destruct (ReserveModel.lookup keyof q (queued s)); injection H as <- <-; (split; [exact HC|simpl; lra]).
  - unfold do_put in H. destruct (_ && _); injection H as <- <-; (split; [exact HC|simpl; lra]).
  - unfold do_fire in H. destruct (timers s) as [|t ts] eqn:Et; [injection H as <- <-; split; [exact HC|lra]|].
    destruct (do_cancel keyof _ (t_req t)) as [s2 [o2 rel]] eqn:Ec. injection H as <- <-.
    apply cancel_timers in Ec. destruct Ec as [E1 E2]. destruct HC as [Hs Ht]. rewrite Et in *.
    unfold ClkInv. rewrite E1, E2. cbn [timers now]. destruct Hs as [Hs1 Hs2].
    repeat split; auto. apply Ht. left; reflexivity.
  - unfold do_wait in H. destruct (Qltb t (now s)) eqn:E; [injection H as <- <-; split; [exact HC|lra]|].
    qbool. destruct HC as [Hs Ht]. destruct (timers s) as [|x ts] eqn:Et.
    + injection H as <- <-. unfold ClkInv; cbn [timers now]. rewrite ?Et. repeat split; simpl; auto. intros ? [].
    + destruct (Qltb (t_at x) t) eqn:E2; injection H as <- <-.
      * split; [|lra]. unfold ClkInv. rewrite Et. split; assumption.
      * qbool. unfold ClkInv; cbn [timers now]. rewrite ?Et. repeat split; auto.
        -- apply Hs.
        -- apply Hs.
        -- intros y [<-|Hy]; [exact E2|]. destruct Hs as [Hs _]. apply Hs in Hy. lra.
Qed.

Lemma run_clk os : forall s s' tr,
  ClkInv s -> run s os = (s', tr) -> ClkInv s' /\ now s <= now s'.
Proof.
  induction os as [|o os IH]; intros s s' tr HC H; cbn [ReserveModel.run] in H.
  - injection H as <- <-. split; [exact HC|lra].
  - destruct (step s o) as [s1 r] eqn:Es. destruct (run s1 os) as [s2 tr2] eqn:Er.
    injection H as <- <-. pose proof (step_clk _ _ _ _ HC Es) as [HC1 Hn1].
    pose proof (IH _ _ _ HC1 Er) as [HC2 Hn2]. split; [exact HC2|lra].
Qed.

Lemma never_overdue lvl c t0 os s tr t :
  run (init lvl c t0) os = (s, tr) -> In t (timers s) -> now s <= t_at t.
Proof.
  intros H Hin. apply run_clk in H; [apply H; exact Hin|].
  split; simpl; [exact I | intros ? []].
Qed.

(** What a timer does, from the history. *)
Lemma timer_releases lvl c t0 os s tr t ts s' r :
  run (init lvl c t0) os = (s, tr) ->
  timers s = t :: ts -> step s Fire = (s', r) ->
  now s' = t_at t /\ timers s' = ts /\
  (held keyof (keyof (t_req t)) tr = None ->
     r = OExpired t None /\ queued s' = queued s /\ level s' = level s) /\
  (forall q, held keyof (keyof (t_req t)) tr = Some q ->
     (forall e, In e (queued s) -> keyof (e_req e) = keyof (t_req t) -> e_req e = t_req t) ->
     (exists e, r = OExpired t (Some e) /\ e_qty e = q) /\ level s' = level s + q /\
     held keyof (keyof (t_req t)) (tr ++ [(Fire, r)]) = None /\
     forall k, k <> keyof (t_req t) -> held keyof k (tr ++ [(Fire, r)]) = held keyof k tr).
Proof.
  intros H Ht Hs. pose proof (held_correct (keyof (t_req t)) _ _ _ _ _ _ H) as Hk.
  rewrite qty_of_lookup in Hk. rewrite <- Hk. clear Hk.
  cbn [ReserveModel.step] in Hs. unfold do_fire in Hs. rewrite Ht in Hs.
  match type of Hs with context [do_cancel ?a ?b ?d] => destruct (do_cancel a b d) as [s2 [o rel]] eqn:Ec end.
  injection Hs as <- <-. pose proof Ec as Ec'. apply do_cancel_cases in Ec. cbn [queued now timers level] in Ec.
  destruct Ec as [[-> [-> Hcase]]|(e & El & -> & -> & ->)]; cbn [queued now timers level].
  - split; [reflexivity|]. split; [reflexivity|]. split; [auto|].
    intros q Hq Hid. exfalso. destruct Hcase as [[_ El]|[_ (e & El & Hi)]]; rewrite El in Hq; [discriminate|].
    apply lookup_some in El. destruct El as [Hin Hkey]. pose proof (Hid _ Hin Hkey) as He.
    assert (HI : In e (identical (t_req t) (queued s))).
    { apply filter_In. split; [exact Hin|]. apply Z.eqb_eq. exact He. }
    rewrite Hi in HI. exact HI.
  - split; [reflexivity|]. split; [reflexivity|]. rewrite El. cbn [option_map]. split; [discriminate|].
    intros q Hq _. injection Hq as <-. split; [eauto|]. split; [reflexivity|].
    unfold ReserveSpec.held. split.
    + rewrite fold_left_app. cbn [fold_left ReserveSpec.held_step]. rewrite Z.eqb_refl. reflexivity.
    + intros k Hne. rewrite fold_left_app. cbn [fold_left ReserveSpec.held_step].
      destruct (Z.eqb_spec (keyof (t_req t)) k); [congruence|reflexivity].
Qed.

End P.
