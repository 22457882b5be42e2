From Coq Require Import Permutation Sorted.
From Verif Require Import Common StoreModel StoreSpec StoreProofs ContainerModel ContainerSpec ContainerProofs FateSpec.

Notation cnt := (count_occ Nat.eq_dec).

Lemma cnt_drop {B} x r (q : list (nat * B)) :
  cnt (map fst (filter (fun p => negb (Nat.eqb (fst p) r)) q)) x = if Nat.eq_dec r x then 0%nat else cnt (map fst q) x.
Proof.
  induction q as [|[n b] q IH]; cbn [filter map count_occ fst]; [destruct (Nat.eq_dec r x); reflexivity|].
  destruct (Nat.eqb n r) eqn:E; cbn [negb].
  - apply Nat.eqb_eq in E. subst n. rewrite IH. destruct (Nat.eq_dec r x); reflexivity.
  - apply Nat.eqb_neq in E. cbn [map count_occ fst]. rewrite IH.
    destruct (Nat.eq_dec r x), (Nat.eq_dec n x); subst; try reflexivity. congruence.
Qed.
Lemma cnt_exists {B} r (q : list (nat * B)) :
  existsb (fun p => Nat.eqb (fst p) r) q = true <-> (cnt (map fst q) r > 0)%nat.
Proof.
  rewrite <- (count_occ_In Nat.eq_dec), existsb_exists, in_map_iff. split.
  - intros (p & Hin & E). apply Nat.eqb_eq in E. exists p. auto.
  - intros (p & E & Hin). exists p. rewrite E, Nat.eqb_refl. auto.
Qed.
Lemma cnt_exists_false {B} r (q : list (nat * B)) :
  existsb (fun p => Nat.eqb (fst p) r) q = false <-> cnt (map fst q) r = 0%nat.
Proof.
  pose proof (cnt_exists r q) as H. destruct (existsb _ q); split; intro G; try discriminate; auto.
  - assert (cnt (map fst q) r > 0)%nat by (apply H; reflexivity). lia.
  - destruct (cnt (map fst q) r); [reflexivity|]. assert (false = true) by (apply H; lia). discriminate.
Qed.
Lemma cnt_seq n x : cnt (seq 0 n) x = if Nat.ltb x n then 1%nat else 0%nat.
Proof.
  destruct (Nat.ltb x n) eqn:E.
  - apply Nat.ltb_lt in E. apply NoDup_count_occ'; [apply seq_NoDup|]. apply in_seq. lia.
  - apply Nat.ltb_ge in E. apply count_occ_not_In. rewrite in_seq. lia.
Qed.

(** Four places a request number can be, and the numbers given out. *)
Definition places (a b c d e : list nat) (n : nat) : Prop :=
  forall x, (cnt a x + cnt b x + cnt c x + cnt d x + cnt e x = if Nat.ltb x n then 1 else 0)%nat.
Lemma places_perm a b c d e n : places a b c d e n -> Permutation (a ++ b ++ c ++ d ++ e) (seq 0 n).
Proof.
  intro H. apply (Permutation_count_occ Nat.eq_dec). intro x. specialize (H x).
  rewrite cnt_seq, !count_occ_app. lia.
Qed.
Lemma places_new a b c d e n : places a b c d e n ->
  places a b c (d ++ [n]) e (S n) /\ places a b c d (e ++ [n]) (S n).
Proof.
  intro H. split; intro x; specialize (H x); rewrite count_occ_app; cbn [count_occ];
    destruct (Nat.ltb x n) eqn:E1, (Nat.ltb x (S n)) eqn:E2, (Nat.eq_dec n x);
    rewrite ?Nat.ltb_lt, ?Nat.ltb_ge in *; lia.
Qed.
Lemma places_cancel {B C} a b c (p : list (nat * B)) (g : list (nat * C)) n r :
  places a b c (map fst p) (map fst g) n ->
  places a b (c ++ if existsb (fun p => Nat.eqb (fst p) r) p || existsb (fun p => Nat.eqb (fst p) r) g then [r] else [])
    (map fst (filter (fun p => negb (Nat.eqb (fst p) r)) p))
    (map fst (filter (fun p => negb (Nat.eqb (fst p) r)) g)) n.
Proof.
  intros H x. pose proof (H x) as Hx. rewrite count_occ_app, !cnt_drop.
  destruct (existsb _ p) eqn:Ep; destruct (existsb _ g) eqn:Eg;
    rewrite ?cnt_exists, ?cnt_exists_false in *; cbn [orb];
    cbn [count_occ]; destruct (Nat.eq_dec r x); subst; destruct (Nat.ltb x n); lia.
Qed.

Section Store.
Variable A : Type.
Variable eqb : A -> A -> bool.
Variable truthy : A -> bool.
Variable item_func : list A -> Z.
Local Notation step := (step A eqb truthy item_func).
Local Notation run := (run A eqb truthy item_func).
Local Notation cancelled := (cancelled A).

Definition SF (s : st A) (h : list (happening A)) : Prop :=
  places (map fst (stored A h)) (map fst (taken A h)) (cancelled h) (map fst (s_putq s)) (map fst (s_getq s)) (s_next s).

Lemma cancelled_app h1 h2 : cancelled (h1 ++ h2) = cancelled h1 ++ cancelled h2.
Proof. apply flat_map_app. Qed.
Lemma cancelled_map gr : cancelled (map (fun rx : nat * A => HTaken (fst rx) (snd rx)) gr) = [].
Proof. induction gr as [|[r x] gr IH]; cbn; auto. Qed.
Lemma served_cnt q q' gr : served A q q' gr -> forall x, (cnt (map fst q) x = cnt (map fst gr) x + cnt (map fst q') x)%nat.
Proof.
  induction 1 as [|r g y q q' gr H IH|r g q q' gr H IH]; intro x; cbn [map fst count_occ]; [reflexivity| |];
    specialize (IH x); destruct (Nat.eq_dec r x); lia.
Qed.

Lemma SF_put s h s' h' : SF s h -> trig_put A item_func s = (s', h') -> SF s' (h ++ h').
Proof.
  intros H E. apply trig_put_cases in E.
  destruct E as [(r & x & q & Eq & _ & -> & _ & _ & _ & _ & E1 & E2 & _ & _ & E3)|(-> & (_&_&_&_&E1&E2&_&_&E3) & _)];
    unfold SF in *; rewrite E1, E2, E3.
  - rewrite stored_app, taken_app, cancelled_app. cbn. rewrite !app_nil_r, map_app. cbn. intro y. specialize (H y).
    rewrite Eq in H. rewrite count_occ_app. cbn [count_occ map fst] in *. destruct (Nat.eq_dec r y); lia.
  - rewrite app_nil_r. exact H.
Qed.
Lemma SF_get s h s' h' : SF s h -> trig_get A eqb truthy item_func s = (s', h') -> SF s' (h ++ h').
Proof.
  intros H E. apply trig_get_cases in E. destruct E as (gr & qn & EL & -> & _ & _ & _ & E1 & _ & _ & E2 & _).
  apply get_loop_served in EL. unfold SF in *. rewrite E1, E2, stored_app, taken_app, cancelled_app.
  rewrite stored_map, taken_map, cancelled_map, !app_nil_r, map_app. intro y. specialize (H y).
  pose proof (served_cnt _ _ _ EL y). rewrite count_occ_app. lia.
Qed.
Lemma SF_same (s s' : st A) h h' : SF s h -> s_putq s' = s_putq s -> s_getq s' = s_getq s -> s_next s' = s_next s ->
  stored A h' = [] -> taken A h' = [] -> cancelled h' = [] -> SF s' (h ++ h').
Proof.
  intros H E1 E2 E3 E4 E5 E6. unfold SF in *. rewrite E1, E2, E3, stored_app, taken_app, cancelled_app, E4, E5, E6, !app_nil_r.
  exact H.
Qed.
Lemma SF_step s h o s' h' : SF s h -> step s o = (s', h') -> SF s' (h ++ h').
Proof.
  intros H E. destruct o as [x|g|r| |t]; cbn [StoreModel.step] in E.
  - unfold op_put in E. eapply SF_put; [|exact E]. unfold SF. cbn. rewrite map_app. apply places_new. exact H.
  - unfold op_get in E. eapply SF_get; [|exact E]. unfold SF. cbn. rewrite map_app. apply places_new. exact H.
  - unfold op_cancel in E. injection E as <- <-. unfold SF in *. cbn [s_putq s_getq s_next].
    rewrite stored_app, taken_app, cancelled_app.
    pose proof (places_cancel _ _ _ (s_putq s) (s_getq s) _ r H) as HP.
    unfold drop_rid, is_rid. cbn beta in *.
    destruct (_ || _); cbn in *; rewrite ?app_nil_r in *; exact HP.
  - unfold op_process in E. destruct (s_agenda s) as [|e ag].
    + injection E as <- <-. apply (SF_same s s); auto.
    + set (s1 := mkSt _ _ _ _ _ _ _ _ _ _) in E.
      assert (H1 : SF s1 h) by exact H. destruct e as [r x|r x].
      * destruct (trig_get A eqb truthy item_func s1) as [s2 h2] eqn:E2. injection E as <- <-. rewrite app_assoc.
        apply (SF_same s2 s2); auto. eapply SF_get; eassumption.
      * destruct (trig_put A item_func s1) as [s2 h2] eqn:E2. injection E as <- <-. rewrite app_assoc.
        apply (SF_same s2 s2); auto; [eapply SF_put; eassumption| | |]; destruct (existsb _ _); reflexivity.
  - unfold op_time in E. destruct (s_agenda s).
    + destruct (Qleb _ _); injection E as <- <-; eapply SF_same; eauto.
    + injection E as <- <-. eapply SF_same; eauto.
Qed.
Lemma store_one_fate k c t0 os s h :
  run (StoreModel.init A item_func k c t0) os = (s, h) ->
  Permutation (map fst (stored A h) ++ map fst (taken A h) ++ cancelled h ++ map fst (s_putq s) ++ map fst (s_getq s))
              (seq 0 (s_next s)).
Proof.
  intro H. apply places_perm. change (SF s h). revert os s h H.
  apply (run_inv A eqb truthy item_func SF).
  - intro x. cbn. reflexivity.
  - intros. eapply SF_step; eassumption.
Qed.
End Store.

(** *** Containers *)
Definition CF (s : cst) (h : list chap) : Prop :=
  places (map fst (c_in h)) (map fst (c_out h)) (c_cancelled h) (map fst (c_putq s)) (map fst (c_getq s)) (c_next s).

Lemma ccancelled_app h1 h2 : c_cancelled (h1 ++ h2) = c_cancelled h1 ++ c_cancelled h2.
Proof. apply flat_map_app. Qed.
Lemma ccancelled_in gr : c_cancelled (map (fun p : nat * Q => CIn (fst p) (snd p)) gr) = [].
Proof. induction gr as [|[r x] gr IH]; cbn; auto. Qed.
Lemma ccancelled_out gr : c_cancelled (map (fun p : nat * Q => COut (fst p) (snd p)) gr) = [].
Proof. induction gr as [|[r x] gr IH]; cbn; auto. Qed.

Lemma cput_loop_split cap now : forall q lvl quant q' l gr qn,
  cput_loop cap now q lvl quant = (q', l, gr, qn) -> q = gr ++ q'.
Proof.
  induction q as [|[r a] q IH]; intros lvl quant q' l gr qn H; cbn [cput_loop] in H.
  - injection H as <- <- <- <-. reflexivity.
  - destruct (fits cap lvl a).
    + destruct (cput_loop _ _ q _ _) as [[[qq ll] g0] qn0] eqn:E. injection H as <- <- <- <-.
      apply IH in E. cbn. congruence.
    + injection H as <- <- <- <-. reflexivity.
Qed.
Lemma cget_loop_split now : forall q lvl quant q' l gr qn,
  cget_loop now q lvl quant = (q', l, gr, qn) -> q = gr ++ q'.
Proof.
  induction q as [|[r a] q IH]; intros lvl quant q' l gr qn H; cbn [cget_loop] in H.
  - injection H as <- <- <- <-. reflexivity.
  - destruct (Qleb a lvl).
    + destruct (cget_loop _ q _ _) as [[[qq ll] g0] qn0] eqn:E. injection H as <- <- <- <-.
      apply IH in E. cbn. congruence.
    + injection H as <- <- <- <-. reflexivity.
Qed.
Lemma CF_put s h s' h' : CF s h -> ctrig_put s = (s', h') -> CF s' (h ++ h').
Proof.
  intros H E. unfold ctrig_put in E. destruct (cput_loop _ _ _ _ _) as [[[qq l] gr] qn] eqn:EL. injection E as <- <-.
  apply cput_loop_split in EL. unfold CF in *. cbn [c_putq c_getq c_next].
  rewrite c_in_app, c_out_app, ccancelled_app, c_in_map, c_out_map0, ccancelled_in, !app_nil_r, map_app.
  intro x. specialize (H x). rewrite EL, map_app, count_occ_app in H. rewrite count_occ_app. lia.
Qed.
Lemma CF_get s h s' h' : CF s h -> ctrig_get s = (s', h') -> CF s' (h ++ h').
Proof.
  intros H E. unfold ctrig_get in E. destruct (cget_loop _ _ _ _) as [[[qq l] gr] qn] eqn:EL. injection E as <- <-.
  apply cget_loop_split in EL. unfold CF in *. cbn [c_putq c_getq c_next].
  rewrite c_in_app, c_out_app, ccancelled_app, c_out_map, c_in_map0, ccancelled_out, !app_nil_r, map_app.
  intro x. specialize (H x). rewrite EL, map_app, count_occ_app in H. rewrite count_occ_app. lia.
Qed.
Lemma CF_same (s s' : cst) h h' : CF s h -> c_putq s' = c_putq s -> c_getq s' = c_getq s -> c_next s' = c_next s ->
  c_in h' = [] -> c_out h' = [] -> c_cancelled h' = [] -> CF s' (h ++ h').
Proof.
  intros H E1 E2 E3 E4 E5 E6. unfold CF in *. rewrite E1, E2, E3, c_in_app, c_out_app, ccancelled_app, E4, E5, E6, !app_nil_r.
  exact H.
Qed.
Lemma CF_step s h o s' h' : CF s h -> cstep s o = (s', h') -> CF s' (h ++ h').
Proof.
  intros H E. destruct o as [a|a|r| |t]; cbn [cstep] in E.
  - destruct (Qleb a 0); [injection E as <- <-; apply (CF_same s s); auto|].
    eapply CF_put; [|exact E]. unfold CF. cbn. rewrite map_app. apply places_new. exact H.
  - destruct (Qleb a 0); [injection E as <- <-; apply (CF_same s s); auto|].
    eapply CF_get; [|exact E]. unfold CF. cbn. rewrite map_app. apply places_new. exact H.
  - injection E as <- <-. unfold CF in *. cbn [c_putq c_getq c_next].
    rewrite c_in_app, c_out_app, ccancelled_app.
    pose proof (places_cancel _ _ _ (c_putq s) (c_getq s) _ r H) as HP.
    unfold cdrop. destruct (_ || _); cbn in *; rewrite ?app_nil_r in *; exact HP.
  - destruct (c_agenda s) as [|e ag].
    + injection E as <- <-. apply (CF_same s s); auto.
    + set (s1 := mkC _ _ _ _ _ _ _ _ _) in E. assert (H1 : CF s1 h) by exact H. destruct e as [r x|r x].
      * destruct (ctrig_get s1) as [s2 h2] eqn:E2. injection E as <- <-. rewrite app_assoc.
        apply (CF_same s2 s2); auto. eapply CF_get; eassumption.
      * destruct (ctrig_put s1) as [s2 h2] eqn:E2. injection E as <- <-. rewrite app_assoc.
        apply (CF_same s2 s2); auto; [eapply CF_put; eassumption| | |]; destruct (existsb _ _); reflexivity.
  - destruct (c_agenda s).
    + destruct (Qleb _ _); injection E as <- <-; eapply CF_same; eauto.
    + injection E as <- <-. eapply CF_same; eauto.
Qed.
Lemma container_one_fate cap lvl t0 os s h :
  crun (cinit cap lvl t0) os = (s, h) ->
  Permutation (map fst (c_in h) ++ map fst (c_out h) ++ c_cancelled h ++ map fst (c_putq s) ++ map fst (c_getq s))
              (seq 0 (c_next s)).
Proof.
  intro H. apply places_perm. change (CF s h). revert os s h H.
  apply (crun_inv CF).
  - intro x. cbn. reflexivity.
  - intros. eapply CF_step; eassumption.
Qed.
