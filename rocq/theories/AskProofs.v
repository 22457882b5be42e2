(** Proofs about the answers a store gives. *)
From Coq Require Import Permutation.
From Verif Require Import Common StoreModel StoreSpec StoreProofs AskSpec.

Local Arguments Nat.eq_dec : simpl never.
Notation cnt r l := (count_occ Nat.eq_dec l r).
Section Ask.
Variable A : Type.
Variable eqb : A -> A -> bool.
Variable truthy : A -> bool.
Variable item_func : list A -> Z.
Local Notation happening := (happening A).
Local Notation st := (st A).
Local Notation do_get := (do_get A eqb truthy).
Local Notation get_loop := (get_loop A eqb truthy item_func).
Local Notation trig_get := (trig_get A eqb truthy item_func).
Local Notation trig_put := (trig_put A item_func).
Local Notation step := (step A eqb truthy item_func).
Local Notation run := (run A eqb truthy item_func).
Local Notation init := (init A item_func).

Lemma cnt_app r l m : cnt r (l ++ m) = (cnt r l + cnt r m)%nat.
Proof. apply count_occ_app. Qed.
Lemma answers_app (h1 h2 : list happening) : answers (h1 ++ h2) = answers h1 ++ answers h2.
Proof. apply flat_map_app. Qed.
Lemma answers_taken (gr : list (nat * A)) : answers (map (fun p : nat * A => HTaken (fst p) (snd p)) gr) = [].
Proof. induction gr; auto. Qed.
Lemma of_gets (gr : list (nat * A)) : map of_event (map (fun p : nat * A => EGet (fst p) (snd p)) gr) = map fst gr.
Proof. induction gr as [|p gr IH]; cbn; congruence. Qed.
Lemma served_cnt q q' gr r : served A q q' gr -> cnt r (map fst q) = (cnt r (map fst q') + cnt r (map fst gr))%nat.
Proof. induction 1; cbn; try destruct (Nat.eq_dec _ _); lia. Qed.
Lemma put_open s s' h r : trig_put s = (s', h) -> cnt r (open_requests s') = cnt r (open_requests s) /\ answers h = [] /\ s_next s' = s_next s /\ s_gone s' = s_gone s /\ s_kind s' = s_kind s.
Proof.
  intro H. apply trig_put_cases in H as [(x & y & q & Q & _ & -> & K & _ & _ & _ & P & G & AG & GO & N)|(-> & (K & _ & _ & _ & P & G & AG & GO & N) & _)].
  - split; [|auto]. unfold open_requests. rewrite P, G, AG, Q, !map_app, !cnt_app. cbn. destruct (Nat.eq_dec x r); lia.
  - split; [|auto]. unfold open_requests. rewrite P, G, AG. reflexivity.
Qed.
Lemma get_open s s' h r : trig_get s = (s', h) -> cnt r (open_requests s') = cnt r (open_requests s) /\ answers h = [] /\ s_next s' = s_next s /\ s_gone s' = s_gone s /\ s_kind s' = s_kind s.
Proof.
  intro H. apply trig_get_cases in H as (gr & qn & L & -> & K & _ & _ & P & AG & GO & N & _). apply get_loop_served in L.
  split; [|split; [apply answers_taken|auto]]. unfold open_requests. rewrite P, AG, map_app, of_gets, !cnt_app, (served_cnt _ _ _ r L). lia.
Qed.
Definition numbered (s : st) : Prop := forall r, (cnt r (open_requests s) <= 1)%nat /\ ((s_next s <= r)%nat -> cnt r (open_requests s) = 0%nat).
Lemma cnt_drop {B} r (q : list (nat * B)) x : cnt x (map fst (drop_rid r q)) = if Nat.eqb x r then 0%nat else cnt x (map fst q).
Proof.
  unfold drop_rid, is_rid. induction q as [|[j a] q IH]; cbn; [destruct (Nat.eqb x r); reflexivity|]. destruct (Nat.eqb_spec j r) as [->|N]; cbn [negb].
  - rewrite IH. destruct (Nat.eqb_spec x r); [reflexivity|]. destruct (Nat.eq_dec r x); [congruence|reflexivity].
  - cbn [map fst]. cbn [count_occ]. destruct (Nat.eq_dec j x) as [->|]; rewrite IH; [|reflexivity]. destruct (Nat.eqb_spec x r); [congruence|reflexivity].
Qed.
Lemma queued_cnt {B} r (q : list (nat * B)) : existsb (is_rid r) q = true <-> (0 < cnt r (map fst q))%nat.
Proof.
  change ((0 < cnt r (map fst q))%nat) with ((cnt r (map fst q) > 0)%nat). rewrite existsb_exists, <- count_occ_In, in_map_iff. unfold is_rid. split; intros (x & X & Y); exists x; [apply Nat.eqb_eq in Y|apply Nat.eqb_eq in X]; auto.
Qed.
Lemma not_queued {B} r (q : list (nat * B)) : existsb (is_rid r) q = false -> cnt r (map fst q) = 0%nat.
Proof. intro X. destruct (cnt r (map fst q)) eqn:Y; [reflexivity|]. assert (Z : (0 < cnt r (map fst q))%nat) by lia. apply queued_cnt in Z. congruence. Qed.
Lemma step_once s o s1 h1 : numbered s -> step s o = (s1, h1) ->
  (forall r, (cnt r (open_requests s) + cnt r (map fst (asked (s_next s) [o])) = cnt r (open_requests s1) + cnt r (answers h1))%nat) /\
  s_next s1 = (s_next s + List.length (asked (s_next s) [o]))%nat /\ s_kind s1 = s_kind s.
Proof.
  intros N H. destruct o as [x|g|r0| |t]; cbn [StoreModel.step asked] in *.
  - unfold op_put in H. split.
    + intro r. destruct (put_open _ _ _ r H) as (C & E & _). rewrite E, C. unfold open_requests. cbn. rewrite map_app, !cnt_app. cbn. lia.
    + apply (put_open _ _ _ 0%nat) in H as (_ & _ & C & _ & K). rewrite C, K. cbn. split; [lia|reflexivity].
  - unfold op_get in H. split.
    + intro r. destruct (get_open _ _ _ r H) as (C & E & _). rewrite E, C. unfold open_requests. cbn. rewrite map_app, !cnt_app. cbn. lia.
    + apply (get_open _ _ _ 0%nat) in H as (_ & _ & C & _ & K). rewrite C, K. cbn. split; [lia|reflexivity].
  - unfold op_cancel in H. injection H as <- <-. split; [|cbn; split; [lia|reflexivity]]. intro r. unfold open_requests. cbn [s_putq s_getq s_agenda map]. rewrite !cnt_app, !cnt_drop. destruct (N r0) as [N1 _]. unfold open_requests in N1. rewrite !cnt_app in N1.
    destruct (existsb (is_rid r0) (s_putq s) || existsb (is_rid r0) (s_getq s)) eqn:E.
    + cbn [answers flat_map app count_occ]. apply orb_prop in E. rewrite !queued_cnt in E. destruct (Nat.eqb_spec r r0) as [->|NE]; destruct (Nat.eq_dec r0 _); try congruence; lia.
    + apply orb_false_iff in E as [E1 E2]. apply not_queued in E1, E2. cbn. destruct (Nat.eqb_spec r r0) as [->|NE]; lia.
  - unfold op_process in H. destruct (s_agenda s) as [|e ag] eqn:EA; [injection H as <- <-; cbn; split; [intro r|split; [|reflexivity]]; lia|]. set (s1' := mkSt _ _ _ _ _ _ _ _ _ _) in H.
    assert (O : forall r, cnt r (open_requests s) = (cnt r (open_requests s1') + cnt r [of_event e])%nat) by (intro r; unfold open_requests; rewrite EA; cbn; rewrite !cnt_app; cbn; destruct (Nat.eq_dec (of_event e) r); lia).
    destruct e as [r x|r x].
    + destruct (trig_get s1') as [s2 h] eqn:E. injection H as <- <-. split; [intro y|]; [|apply (get_open _ _ _ 0%nat) in E as (_ & _ & C & _ & K); rewrite C, K; cbn; split; [lia|reflexivity]].
      destruct (get_open _ _ _ y E) as (C & F & _). rewrite answers_app, F, C, O. cbn. lia.
    + destruct (trig_put s1') as [s2 h] eqn:E. injection H as <- <-. split; [intro y|]; [|apply (put_open _ _ _ 0%nat) in E as (_ & _ & C & _ & K); rewrite C, K; cbn; split; [lia|reflexivity]].
      destruct (put_open _ _ _ y E) as (C & F & _). rewrite answers_app, F, C, O. destruct (existsb (Nat.eqb r) (s_gone s)); cbn; lia.
  - unfold op_time in H. destruct (s_agenda s) as [|e ag] eqn:EA; [|injection H as <- <-; cbn; split; [intro r|split; [|reflexivity]]; lia].
    destruct (Qleb (s_now s) t); injection H as <- <-; (split; [intro r|cbn; split; [lia|reflexivity]]); [unfold open_requests; rewrite EA|]; cbn; lia.
Qed.
Lemma asked_one k (o : op A) os : asked k (o :: os) = asked k [o] ++ asked (k + List.length (asked k [o])) os.
Proof. destruct o as [a|a|r| |t]; cbn; rewrite ?Nat.add_0_r, ?Nat.add_1_r; reflexivity. Qed.
Lemma asked_at k (o : op A) r : cnt r (map fst (asked k [o])) = if Nat.eqb r k then List.length (asked k [o]) else 0%nat.
Proof. destruct o as [a|a|x| |t]; cbn; try (destruct (Nat.eqb r k); reflexivity); destruct (Nat.eq_dec k r), (Nat.eqb_spec r k); congruence. Qed.
Lemma asked_le k (o : op A) : (List.length (asked k [o]) <= 1)%nat.
Proof. destruct o as [a|a|x| |t]; cbn; lia. Qed.
Lemma step_numbered s o s1 h1 : numbered s -> step s o = (s1, h1) -> numbered s1.
Proof.
  intros N H r. destruct (step_once s o s1 h1 N H) as (C & K & _). specialize (C r). rewrite asked_at in C. destruct (N r) as [N1 N2]. pose proof (asked_le (s_next s) o) as L.
  rewrite K. destruct (Nat.eqb_spec r (s_next s)) as [EQ|NE].
  - assert (G : (s_next s <= r)%nat) by lia. specialize (N2 G). split; lia.
  - split; [lia|]. intro G. assert (G2 : (s_next s <= r)%nat) by lia. specialize (N2 G2). lia.
Qed.
Lemma run_once : forall os s s' h, numbered s -> run s os = (s', h) -> numbered s' /\
  forall r, (cnt r (open_requests s) + cnt r (map fst (asked (s_next s) os)) = cnt r (open_requests s') + cnt r (answers h))%nat.
Proof.
  induction os as [|o os IH]; intros s s' h N H; cbn [StoreModel.run] in H.
  - injection H as <- <-. split; [exact N|]. intro r. cbn. lia.
  - destruct (step s o) as [s1 h1] eqn:E1. destruct (run s1 os) as [s2 h2] eqn:E2. injection H as <- <-.
    destruct (step_once s o s1 h1 N E1) as (C & K & _). destruct (IH s1 s2 h2 (step_numbered _ _ _ _ N E1) E2) as [N2 C2]. split; [exact N2|].
    intro r. specialize (C r). specialize (C2 r). rewrite asked_one, map_app, cnt_app, answers_app, cnt_app, <- K. lia.
Qed.
Lemma init_numbered k c t0 : numbered (init k c t0).
Proof. intro r. cbn. split; [lia|reflexivity]. Qed.
Lemma once k c t0 os s h : run (init k c t0) os = (s, h) -> Permutation (map fst (asked 0 os)) (open_requests s ++ answers h).
Proof.
  intro H. apply (Permutation_count_occ Nat.eq_dec). intro r. rewrite cnt_app. destruct (run_once os _ _ _ (init_numbered k c t0) H) as [_ C]. specialize (C r). cbn in C. exact C.
Qed.
Lemma asked_nodup (os : list (op A)) : forall k, NoDup (map fst (asked k os)) /\ forall r x, In (r, x) (asked k os) -> (k <= r)%nat.
Proof.
  induction os as [|o os IH]; intro k; [cbn; split; [constructor|contradiction]|].
  assert (G : forall x, NoDup (map fst ((k, x) :: asked (S k) os)) /\ forall r y, In (r, y) ((k, x) :: asked (S k) os) -> (k <= r)%nat).
  { intro x. destruct (IH (S k)) as [I1 I2]. split.
    - cbn. constructor; [|exact I1]. intro I. apply in_map_iff in I as ([r y] & <- & I). specialize (I2 _ _ I). cbn in I2. lia.
    - intros r y [E|I]; [injection E as <- <-; lia|]. specialize (I2 _ _ I). lia. }
  destruct o as [a|a|x| |t]; cbn [asked]; auto.
Qed.

(** ** Every answer is about what was asked *)
Lemma scan_filter g : forall (l : list A) best x k, sorted_scan A g l best = Some (x, k) -> (forall y j, best = Some (y, j) -> g_filter g y = true) -> g_filter g x = true.
Proof.
  induction l as [|y l IH]; intros best x k H B; cbn [sorted_scan] in H; [subst; eapply B; reflexivity|].
  destruct (g_filter g y) eqn:F; [|eapply IH; [exact H|exact B]].
  destruct best as [[z j]|]; destruct (g_sorter g) as [key|]; repeat (match type of H with context [if ?b then _ else _] => destruct b | context [match ?b with Some _ => _ | None => _ end] => destruct b end);
    try (eapply IH; [exact H|]; intros y0 j0 E; first [injection E as <- <-; exact F|eapply B; exact E]); try (injection H as <- <-; first [exact F|eapply B; reflexivity]).
Qed.
Lemma do_get_suits k g items x rest : do_get k g items = Some (x, rest) -> suits k g x.
Proof.
  destruct k; cbn [StoreModel.do_get]; [left; reflexivity| |]; intro H; right.
  - unfold do_get_filter in H. destruct (find _ _) eqn:F; [|discriminate]. injection H as <- _. apply find_some in F as [_ F]. exact F.
  - unfold do_get_sorted in H. destruct (sorted_scan A g items None) as [[y j]|] eqn:E; [|discriminate]. destruct (truthy y); [|discriminate]. injection H as <- _.
    eapply scan_filter; [exact E|discriminate].
Qed.
Definition given (L : list (nat * request A)) (k : kind) (r : nat) (x : A) : Prop := exists g, In (r, RGet g) L /\ suits k g x.
Lemma loop_given L k now : forall q items quant q' items' gr qn, get_loop k now q items quant = (q', items', gr, qn) ->
  (forall r g, In (r, g) q -> In (r, RGet g) L) -> (forall r g, In (r, g) q' -> In (r, RGet g) L) /\ forall r x, In (r, x) gr -> given L k r x.
Proof.
  induction q as [|[r g] q IH]; intros items quant q' items' gr qn H F; cbn [StoreModel.get_loop] in H.
  - injection H as <- <- <- <-. split; intros ? ? [].
  - assert (F' : forall r g, In (r, g) q -> In (r, RGet g) L) by (intros; apply F; right; assumption). destruct (do_get k g items) as [[x it]|] eqn:D.
    + assert (X : given L k r x) by (exists g; split; [apply F; left; reflexivity|eapply do_get_suits; exact D]). destruct (proceed k).
      * destruct (get_loop k now q it _) as [[[qq ii] g0] qn0] eqn:E. injection H as <- <- <- <-. destruct (IH _ _ _ _ _ _ E F') as [I1 I2]. split; [exact I1|].
        intros a b [I|I]; [injection I as <- <-; exact X|exact (I2 _ _ I)].
      * injection H as <- <- <- <-. split; [exact F'|]. intros a b [I|[]]. injection I as <- <-. exact X.
    + destruct (proceed k).
      * destruct (get_loop k now q items _) as [[[qq ii] g0] qn0] eqn:E. injection H as <- <- <- <-. destruct (IH _ _ _ _ _ _ E F') as [I1 I2]. split; [|exact I2].
        intros a b [I|I]; [injection I as <- <-; apply F; left; reflexivity|exact (I1 _ _ I)].
      * injection H as <- <- <- <-. split; [exact F|intros ? ? []].
Qed.
Definition fair (L : list (nat * request A)) (s : st) : Prop :=
  (forall r a, In (r, a) (s_putq s) -> In (r, RPut a) L) /\ (forall r g, In (r, g) (s_getq s) -> In (r, RGet g) L) /\
  (forall r a, In (EPut r a) (s_agenda s) -> In (r, RPut a) L) /\ (forall r a, In (EGet r a) (s_agenda s) -> given L (s_kind s) r a).
Definition fair_hap (L : list (nat * request A)) (k : kind) (h : list happening) : Prop :=
  (forall r a, In (HStored r a) h \/ In (HPutDone r a) h -> In (r, RPut a) L) /\
  (forall r a, In (HTaken r a) h \/ In (HDelivered r a) h \/ In (HLost r a) h -> given L k r a).
Lemma fair_app L k h1 h2 : fair_hap L k h1 -> fair_hap L k h2 -> fair_hap L k (h1 ++ h2).
Proof. intros [X Y] [C D]. split; intros r a; rewrite !in_app_iff; intuition eauto. Qed.
Lemma fair_quiet L k h : (forall e, In e h -> match e with HCancelled _ | HIllegal => True | _ => False end) -> fair_hap L k h.
Proof. intro H. split; intros r a I; exfalso; intuition; match goal with X : In _ h |- _ => exact (H _ X) end. Qed.
Lemma put_fair L s s' h : fair L s -> trig_put s = (s', h) -> fair L s' /\ fair_hap L (s_kind s) h.
Proof.
  intros (X & B & C & D) H. apply trig_put_cases in H as [(x & y & q & Q & _ & -> & K & _ & _ & _ & P & G & AG & GO & N)|(-> & (K & _ & _ & _ & P & G & AG & GO & N) & _)].
  - assert (Y : In (x, RPut y) L) by (apply X; rewrite Q; left; reflexivity). split; [split; [|split; [|split]]|].
    + rewrite P. intros r a I. apply X. rewrite Q. right. exact I.
    + rewrite G. exact B.
    + rewrite AG. intros r a I. apply in_app_or in I as [I|[I|[]]]; [exact (C _ _ I)|]. injection I as <- <-. exact Y.
    + rewrite AG, K. intros r a I. apply in_app_or in I as [I|[I|[]]]; [exact (D _ _ I)|discriminate].
    + split; intros r a I; cbn in I; intuition (try discriminate). injection H0 as <- <-. exact Y.
  - split; [|apply fair_quiet; intros e []]. unfold fair. rewrite P, G, AG, K. auto.
Qed.
Lemma get_fair L s s' h : fair L s -> trig_get s = (s', h) -> fair L s' /\ fair_hap L (s_kind s) h.
Proof.
  intros (X & B & C & D) H. apply trig_get_cases in H as (gr & qn & Lo & -> & K & _ & _ & P & AG & GO & N & _). destruct (loop_given L _ _ _ _ _ _ _ _ _ Lo B) as [G1 G2].
  split; [split; [|split; [|split]]|].
  - rewrite P. exact X.
  - exact G1.
  - rewrite AG. intros r a I. apply in_app_or in I as [I|I]; [exact (C _ _ I)|]. apply in_map_iff in I as ([x y] & E & I). discriminate.
  - rewrite AG, K. intros r a I. apply in_app_or in I as [I|I]; [exact (D _ _ I)|]. apply in_map_iff in I as ([x y] & E & I). injection E as <- <-. exact (G2 _ _ I).
  - split; intros r a; rewrite !in_map_iff.
    + intros [([x y] & E & I)|([x y] & E & I)]; discriminate.
    + intros [([x y] & E & I)|[([x y] & E & I)|([x y] & E & I)]]; try discriminate. injection E as <- <-. exact (G2 _ _ I).
Qed.
Lemma step_fair L s o s1 h1 : (forall x, In x (asked (s_next s) [o]) -> In x L) -> fair L s -> step s o = (s1, h1) -> fair L s1 /\ fair_hap L (s_kind s) h1.
Proof.
  intros S F H. destruct o as [a|a|r0| |t]; cbn [StoreModel.step asked] in *.
  - unfold op_put in H. apply (put_fair L) in H; [exact H|]. destruct F as (X & B & C & D). split; [|split; [|split]]; cbn; try assumption. intros r x I. apply in_app_or in I as [I|[I|[]]]; [exact (X _ _ I)|]. injection I as <- <-. apply S. left. reflexivity.
  - unfold op_get in H. apply (get_fair L) in H; [exact H|]. destruct F as (X & B & C & D). split; [|split; [|split]]; cbn; try assumption. intros r x I. apply in_app_or in I as [I|[I|[]]]; [exact (B _ _ I)|]. injection I as <- <-. apply S. left. reflexivity.
  - unfold op_cancel in H. injection H as <- <-. destruct F as (X & B & C & D). split.
    + split; [|split; [|split]]; cbn; try assumption; intros r x I; unfold drop_rid in I; apply filter_In in I as [I _]; auto.
    + apply fair_quiet. intros e I. destruct (_ || _); [destruct I as [<-|[]]; exact Logic.I|destruct I].
  - unfold op_process in H. destruct (s_agenda s) as [|e ag] eqn:EA; [injection H as <- <-; split; [exact F|]; apply fair_quiet; intros e [<-|[]]; exact I|].
    destruct F as (X & B & C & D). rewrite EA in C, D. destruct e as [r a|r a].
    + match type of H with (let '(_, _) := ?x in _) = _ => destruct x as [s2 h] eqn:E end. injection H as <- <-.
      apply (get_fair L) in E as [F2 H2]; [|split; [|split; [|split]]; cbn; try assumption; intros; [apply C|apply D]; right; assumption]. split; [exact F2|]. apply fair_app; [exact H2|].
      split; intros x y I; cbn in I; [|intuition discriminate]. destruct I as [[I|[]]|[I|[]]]; [discriminate|]. injection I as <- <-. apply C. left. reflexivity.
    + match type of H with (let '(_, _) := ?x in _) = _ => destruct x as [s2 h] eqn:E end. injection H as <- <-.
      apply (put_fair L) in E as [F2 H2]; [|split; [|split; [|split]]; cbn; try assumption; intros; [apply C|apply D]; right; assumption]. split; [exact F2|]. apply fair_app; [exact H2|].
      assert (G : given L (s_kind s) r a) by (apply D; left; reflexivity).
      destruct (existsb (Nat.eqb r) (s_gone s)); split; intros x y I; cbn in I; intuition (try discriminate); match goal with X : _ = _ |- _ => injection X as <- <-; exact G end.
  - unfold op_time in H. destruct (s_agenda s) as [|e ag] eqn:EA; [|injection H as <- <-; split; [exact F|]; apply fair_quiet; intros x [<-|[]]; exact I].
    destruct (Qleb (s_now s) t); injection H as <- <-; (split; [|apply fair_quiet; intros x I; cbn in I; intuition (subst; exact Logic.I)]); [|exact F].
    destruct F as (X & B & C & D). rewrite EA in C, D. split; [|split; [|split]]; assumption.
Qed.
Lemma run_fair L : forall os s s' h, (forall x, In x (asked (s_next s) os) -> In x L) -> numbered s -> fair L s -> run s os = (s', h) -> fair L s' /\ fair_hap L (s_kind s) h.
Proof.
  induction os as [|o os IH]; intros s s' h S N F H; cbn [StoreModel.run] in H.
  - injection H as <- <-. split; [exact F|]. split; intros r a I; cbn in I; intuition.
  - destruct (step s o) as [s1 h1] eqn:E1. destruct (run s1 os) as [s2 h2] eqn:E2. injection H as <- <-. rewrite asked_one in S.
    destruct (step_fair L s o s1 h1) as [F1 G1]; [intros x I; apply S, in_or_app; auto|exact F|exact E1|].
    destruct (step_once s o s1 h1 N E1) as (_ & K & KK). destruct (IH s1 s2 h2) as [F2 G2]; [intros x I; apply S, in_or_app; right; rewrite <- K; exact I|exact (step_numbered _ _ _ _ N E1)|exact F1|exact E2|].
    rewrite KK in G2. split; [exact F2|apply fair_app; assumption].
Qed.

(** ** Granted before answered *)
Definition granted (s : st) (h : list happening) : Prop :=
  (forall r a, In (EPut r a) (s_agenda s) \/ In (HPutDone r a) h -> In (HStored r a) h) /\
  (forall r a, In (EGet r a) (s_agenda s) \/ In (HDelivered r a) h \/ In (HLost r a) h -> In (HTaken r a) h).
Lemma granted_more s s' h h' : granted s h -> s_agenda s' = s_agenda s -> (forall e, In e h' -> match e with HPutDone _ _ | HDelivered _ _ | HLost _ _ => False | _ => True end) -> granted s' (h ++ h').
Proof.
  intros [X B] E Q. split; intros r a; rewrite E, !in_app_iff.
  - intros [I|[I|I]]; [auto|auto|destruct (Q _ I)].
  - intros [I|[[I|I]|[I|I]]]; auto; destruct (Q _ I).
Qed.
Lemma put_granted s s' h h0 : granted s h0 -> trig_put s = (s', h) -> granted s' (h0 ++ h).
Proof.
  intros G0 H. apply trig_put_cases in H as [(x & y & q & Q & _ & -> & K & _ & _ & _ & P & G & AG & GO & N)|(-> & (K & _ & _ & _ & P & G & AG & GO & N) & _)].
  - destruct G0 as [X B]. split; intros r a; rewrite AG, !in_app_iff; cbn.
    + intros [[I|[I|[]]]|[I|[I|[]]]]; try discriminate; auto. injection I as <- <-. auto.
    + intros [[I|[I|[]]]|[[I|[I|[]]]|[I|[I|[]]]]]; try discriminate; left; apply B; auto.
  - apply (granted_more s); [exact G0|exact AG|intros e []].
Qed.
Lemma get_granted s s' h h0 : granted s h0 -> trig_get s = (s', h) -> granted s' (h0 ++ h).
Proof.
  intros [X B] H. apply trig_get_cases in H as (gr & qn & Lo & -> & K & _ & _ & P & AG & GO & N & _). split; intros r a; rewrite AG, !in_app_iff, !in_map_iff.
  - intros [[I|([x y] & E & I)]|[I|([x y] & E & I)]]; try discriminate; left; apply X; auto.
  - intros [[I|([x y] & E & I)]|[[I|([x y] & E & I)]|[I|([x y] & E & I)]]]; try discriminate; auto. injection E as <- <-. right. exists (x, y). auto.
Qed.
Lemma step_granted s h o s' h' : granted s h -> step s o = (s', h') -> granted s' (h ++ h').
Proof.
  intros G H. destruct o as [a|a|r0| |t]; cbn [StoreModel.step] in H.
  - eapply put_granted; [|exact H]. exact G.
  - eapply get_granted; [|exact H]. exact G.
  - unfold op_cancel in H. injection H as <- <-. apply (granted_more s); [exact G|reflexivity|]. intros e I. destruct (_ || _); [destruct I as [<-|[]]; exact Logic.I|destruct I].
  - unfold op_process in H. destruct (s_agenda s) as [|e ag] eqn:EA; [injection H as <- <-; apply (granted_more s); [exact G|reflexivity|intros e [<-|[]]; exact I]|].
    destruct G as [X B]. rewrite EA in X, B. destruct e as [r a|r a]; match type of H with (let '(_, _) := ?x in _) = _ => destruct x as [s2 h2] eqn:E end; injection H as <- <-; rewrite app_assoc.
    + apply (get_granted _ _ _ h) in E; [|split; cbn; intros x y [I|I]; [apply X; left; right; exact I|apply X; right; exact I|apply B; left; right; exact I|apply B; right; exact I]].
      destruct E as [A2 B2]. split; intros x y; rewrite !in_app_iff.
      * intros [I|[[I|I]|[I|[]]]]; [left; apply in_app_or; apply A2; auto|left; apply in_app_or, A2; right; apply in_or_app; auto|left; apply in_app_or, A2; right; apply in_or_app; auto|].
        injection I as <- <-. left. left. apply X. left. left. reflexivity.
      * intros [I|[[[I|I]|[I|[]]]|[[I|I]|[I|[]]]]]; try discriminate; left; apply in_app_or, B2; rewrite ?in_app_iff; auto.
    + apply (put_granted _ _ _ h) in E; [|split; cbn; intros x y [I|I]; [apply X; left; right; exact I|apply X; right; exact I|apply B; left; right; exact I|apply B; right; exact I]].
      assert (G : In (HTaken r a) h) by (apply B; left; left; reflexivity). destruct E as [A2 B2]. split; intros x y; rewrite !in_app_iff.
      * intros [I|[[I|I]|[I|[]]]]; [left; apply in_app_or; apply A2; auto|left; apply in_app_or, A2; right; apply in_or_app; auto|left; apply in_app_or, A2; right; apply in_or_app; auto|].
        destruct (existsb _ _); discriminate.
      * intros [I|[[[I|I]|[I|[]]]|[[I|I]|[I|[]]]]]; try (left; apply in_app_or, B2; rewrite ?in_app_iff; auto; fail); destruct (existsb _ _); try discriminate; injection I as <- <-; left; left; exact G.
  - unfold op_time in H. destruct (s_agenda s) as [|e ag] eqn:EA; [|injection H as <- <-; apply (granted_more s); [exact G|reflexivity|intros x [<-|[]]; exact I]].
    destruct (Qleb (s_now s) t); injection H as <- <-; apply (granted_more s); try exact G; cbn; try congruence; intros e I; cbn in I; intuition (subst; exact Logic.I).
Qed.

(** ** Giving up *)
Lemma gone_step s o s' h : step s o = (s', h) -> forall r, In r (s_gone s') <-> In r (s_gone s) \/ (o = OpCancel r /\ exists a, In (EGet r a) (s_agenda s)).
Proof.
  intros H r. assert (P : forall x, (exists a, In (EGet x a) (s_agenda s)) <-> existsb (is_get_of A x) (s_agenda s) = true).
  { intro x. rewrite existsb_exists. split; [intros (a & I); exists (EGet x a); split; [exact I|apply Nat.eqb_refl]|].
    intros ([y b|y b] & I & E); cbn in E; [discriminate|]. apply Nat.eqb_eq in E. subst. eauto. }
  destruct o as [a|a|r0| |t]; cbn [StoreModel.step] in H.
  - apply (put_open _ _ _ 0%nat) in H as (_ & _ & _ & -> & _). cbn. intuition discriminate.
  - apply (get_open _ _ _ 0%nat) in H as (_ & _ & _ & -> & _). cbn. intuition discriminate.
  - unfold op_cancel in H. injection H as <- <-. cbn. destruct (existsb (is_get_of A r0) (s_agenda s)) eqn:E.
    + cbn. split; [intros [->|I]; [right; split; [reflexivity|apply P; exact E]|left; exact I]|intros [I|[X _]]; [auto|injection X as ->; auto]].
    + split; [auto|]. intros [I|[X Y]]; [exact I|]. injection X as ->. apply P in Y. congruence.
  - unfold op_process in H. destruct (s_agenda s) as [|e ag]; [injection H as <- <-; intuition discriminate|]. destruct e as [x a|x a]; match type of H with (let '(_, _) := ?y in _) = _ => destruct y as [s2 h2] eqn:E end; injection H as <- <-.
    + apply (get_open _ _ _ 0%nat) in E as (_ & _ & _ & -> & _). cbn. intuition discriminate.
    + apply (put_open _ _ _ 0%nat) in E as (_ & _ & _ & -> & _). cbn. intuition discriminate.
  - unfold op_time in H. destruct (s_agenda s); [destruct (Qleb (s_now s) t)|]; injection H as <- <-; cbn; intuition discriminate.
Qed.
Lemma quiet_put s s' h r a : trig_put s = (s', h) -> ~ In (HDelivered r a) h /\ ~ In (HLost r a) h.
Proof. intro H. apply trig_put_cases in H as [(x & y & q & _ & _ & -> & _)|(-> & _)]; cbn; intuition discriminate. Qed.
Lemma quiet_get s s' h r a : trig_get s = (s', h) -> ~ In (HDelivered r a) h /\ ~ In (HLost r a) h.
Proof. intro H. apply trig_get_cases in H as (gr & qn & _ & -> & _). rewrite !in_map_iff. split; intros (p & E & _); discriminate. Qed.
Lemma got_step s o s' h r a : step s o = (s', h) -> (In (HDelivered r a) h -> ~ In r (s_gone s)) /\ (In (HLost r a) h -> In r (s_gone s)).
Proof.
  intro H. destruct o as [b|b|r0| |t]; cbn [StoreModel.step] in H.
  - destruct (quiet_put _ _ _ r a H). tauto.
  - destruct (quiet_get _ _ _ r a H). tauto.
  - unfold op_cancel in H. injection H as <- <-. destruct (_ || _); cbn; intuition discriminate.
  - unfold op_process in H. destruct (s_agenda s) as [|e ag]; [injection H as <- <-; cbn; intuition discriminate|]. destruct e as [x y|x y]; match type of H with (let '(_, _) := ?z in _) = _ => destruct z as [s2 h2] eqn:E end; injection H as <- <-.
    + destruct (quiet_get _ _ _ r a E). rewrite !in_app_iff. cbn. intuition discriminate.
    + destruct (quiet_put _ _ _ r a E) as [Y1 Y2]. rewrite !in_app_iff. destruct (existsb (Nat.eqb x) (s_gone s)) eqn:EG; cbn.
      * split; [intros [I|[I|[]]]; [tauto|discriminate]|]. intros [I|[I|[]]]; [tauto|]. injection I as <- <-. apply existsb_exists in EG as (z & I & Z). apply Nat.eqb_eq in Z. congruence.
      * split; [|intros [I|[I|[]]]; [tauto|discriminate]]. intros [I|[I|[]]]; [tauto|]. injection I as <- <-. intro I. assert (T : existsb (Nat.eqb x) (s_gone s) = true) by (apply existsb_exists; exists x; split; [exact I|apply Nat.eqb_refl]). congruence.
  - unfold op_time in H. destruct (s_agenda s); [destruct (Qleb (s_now s) t)|]; injection H as <- <-; cbn; intuition discriminate.
Qed.
Lemma never_lost : forall os s s' h r a, run s os = (s', h) -> ~ In r (s_gone s) -> ~ In (OpCancel r) os -> ~ In (HLost r a) h.
Proof.
  induction os as [|o os IH]; intros s s' h r a H N C; cbn [StoreModel.run] in H; [injection H as <- <-; auto|].
  destruct (step s o) as [s1 h1] eqn:E1. destruct (run s1 os) as [s2 h2] eqn:E2. injection H as <- <-. intro I. apply in_app_or in I as [I|I].
  - exact (N (proj2 (got_step _ _ _ _ r a E1) I)).
  - refine (IH _ _ _ r a E2 _ _ I); [|intro X; apply C; right; exact X]. rewrite (gone_step _ _ _ _ E1). intros [X|[-> _]]; [exact (N X)|]. apply C. left. reflexivity.
Qed.
Lemma never_got : forall os s s' h r a, run s os = (s', h) -> In r (s_gone s) -> ~ In (HDelivered r a) h.
Proof.
  induction os as [|o os IH]; intros s s' h r a H N; cbn [StoreModel.run] in H; [injection H as <- <-; auto|].
  destruct (step s o) as [s1 h1] eqn:E1. destruct (run s1 os) as [s2 h2] eqn:E2. injection H as <- <-. intro I. apply in_app_or in I as [I|I].
  - exact (proj1 (got_step _ _ _ _ r a E1) I N).
  - refine (IH _ _ _ r a E2 _ I). rewrite (gone_step _ _ _ _ E1). left. exact N.
Qed.
Lemma never_cancelled : forall os s s' h r, run s os = (s', h) -> ~ In (OpCancel r) os -> ~ In (HCancelled r) h.
Proof.
  induction os as [|o os IH]; intros s s' h r H C; cbn [StoreModel.run] in H; [injection H as <- <-; auto|].
  destruct (step s o) as [s1 h1] eqn:E1. destruct (run s1 os) as [s2 h2] eqn:E2. injection H as <- <-. intro I. apply in_app_or in I as [I|I].
  - destruct o as [b|b|r0| |t]; cbn [StoreModel.step] in E1.
    + apply trig_put_cases in E1 as [(x & y & q & _ & _ & -> & _)|(-> & _)]; cbn in I; intuition discriminate.
    + apply trig_get_cases in E1 as (gr & qn & _ & -> & _). apply in_map_iff in I as (p & E & _). discriminate.
    + unfold op_cancel in E1. injection E1 as <- <-. destruct (_ || _); cbn in I; [|contradiction]. destruct I as [I|[]]. injection I as ->. apply C. left. reflexivity.
    + unfold op_process in E1. destruct (s_agenda s) as [|e ag]; [injection E1 as <- <-; cbn in I; intuition discriminate|].
      destruct e as [x a|x a]; match type of E1 with (let '(_, _) := ?y in _) = _ => destruct y as [s3 h3] eqn:E end; injection E1 as <- <-; apply in_app_or in I as [I|I].
      * apply trig_get_cases in E as (gr & qn & _ & -> & _). apply in_map_iff in I as (p & E & _). discriminate.
      * cbn in I; intuition discriminate.
      * apply trig_put_cases in E as [(x' & y & q & _ & _ & -> & _)|(-> & _)]; cbn in I; intuition discriminate.
      * destruct (existsb _ _); cbn in I; intuition discriminate.
    + unfold op_time in E1. destruct (s_agenda s); [destruct (Qleb (s_now s) t)|]; injection E1 as <- <-; cbn in I; intuition discriminate.
  - refine (IH _ _ _ r E2 _ I). intro X; apply C; right; exact X.
Qed.
Lemma run_app : forall os1 os2 s, run s (os1 ++ os2) = let '(s1, h1) := run s os1 in let '(s2, h2) := run s1 os2 in (s2, h1 ++ h2).
Proof.
  induction os1 as [|o os1 IH]; intros os2 s; cbn [app StoreModel.run]; [destruct (run s os2); reflexivity|]. destruct (step s o) as [s1 h1]. rewrite IH.
  destruct (run s1 os1) as [s2 h2]. destruct (run s2 os2) as [s3 h3]. rewrite app_assoc. reflexivity.
Qed.
Lemma given_up k c t0 os1 s1 h1 os2 s2 h2 r a : run (init k c t0) os1 = (s1, h1) -> In (EGet r a) (s_agenda s1) ->
  run (init k c t0) (os1 ++ OpCancel r :: os2) = (s2, h2) -> forall b, ~ In (HDelivered r b) h2.
Proof.
  intros H1 P H2 b I. rewrite run_app, H1 in H2. cbn [StoreModel.run] in H2. destruct (step s1 (OpCancel r)) as [s3 h3] eqn:E3. destruct (run s3 os2) as [s4 h4] eqn:E4. injection H2 as <- <-.
  apply in_app_or in I as [I|I]; [|apply in_app_or in I as [I|I]].
  - destruct (run_once os1 _ _ _ (init_numbered k c t0) H1) as [N C]. specialize (C r). cbn [StoreModel.init s_next] in C. destruct (asked_nodup os1 0) as [ND _]. pose proof (proj1 (NoDup_count_occ Nat.eq_dec _) ND r) as L.
    assert (O : (0 < cnt r (open_requests s1))%nat) by (apply count_occ_In; unfold open_requests; rewrite !in_app_iff; right; right; apply in_map_iff; exists (EGet r a); auto).
    assert (E : (0 < cnt r (answers h1))%nat) by (apply count_occ_In; unfold answers; apply in_flat_map; exists (HDelivered r b); cbn; auto). cbn in C. lia.
  - unfold StoreModel.step, op_cancel in E3. injection E3 as <- <-. destruct (_ || _); cbn in I; intuition discriminate.
  - refine (never_got _ _ _ _ r b E4 _ I). rewrite (gone_step _ _ _ _ E3). right. split; [reflexivity|]. exists a. exact P.
Qed.
(** A request taken back while waiting is out of the queue and not heard of again. *)
Lemma taken_back k c t0 os1 s1 h1 os2 s2 h2 r : run (init k c t0) os1 = (s1, h1) -> In r (map fst (s_putq s1) ++ map fst (s_getq s1)) ->
  run (init k c t0) (os1 ++ OpCancel r :: os2) = (s2, h2) -> In (HCancelled r) h2 /\ ~ In r (open_requests s2) /\ forall x, ~ In (HPutDone r x) h2 /\ ~ In (HDelivered r x) h2 /\ ~ In (HLost r x) h2.
Proof.
  intros H1 P H2. pose proof H2 as H3. rewrite run_app, H1 in H2. cbn [StoreModel.run] in H2. destruct (step s1 (OpCancel r)) as [s3 h3] eqn:E3. destruct (run s3 os2) as [s4 h4] eqn:E4. injection H2 as <- <-.
  assert (Q : In (HCancelled r) h3).
  { unfold StoreModel.step, op_cancel in E3. injection E3 as _ <-. assert (X : existsb (is_rid r) (s_putq s1) || existsb (is_rid r) (s_getq s1) = true).
    { apply orb_true_iff. rewrite !queued_cnt. apply in_app_or in P as [P|P]; apply (count_occ_In Nat.eq_dec) in P; [left|right]; lia. }
    rewrite X. left. reflexivity. }
  assert (Q2 : In (HCancelled r) (h1 ++ h3 ++ h4)) by (rewrite !in_app_iff; auto).
  split; [exact Q2|]. destruct (run_once _ _ _ _ (init_numbered k c t0) H3) as [_ C]. specialize (C r). cbn [StoreModel.init s_next] in C.
  destruct (asked_nodup (os1 ++ OpCancel r :: os2) 0) as [ND _]. pose proof (proj1 (NoDup_count_occ Nat.eq_dec _) ND r) as L.
  assert (Z : cnt r (open_requests (init k c t0)) = 0%nat) by reflexivity. rewrite Z in C.
  apply in_split in Q2 as (u & v & EQ). rewrite EQ, answers_app in C. cbn [answers flat_map app] in C. change (flat_map _ v) with (answers v) in C. rewrite cnt_app in C. cbn [count_occ] in C. destruct (Nat.eq_dec r r); [|congruence].
  split; [intro I; apply (count_occ_In Nat.eq_dec) in I; lia|].
  assert (W : forall e, In e (h1 ++ h3 ++ h4) -> e <> HCancelled r -> answers [e] = [r] -> False).
  { intros ee I NE AE. rewrite EQ in I. assert (J : In ee u \/ In ee v) by (apply in_app_or in I as [I|[I|I]]; auto; congruence).
    assert (K : forall w, In ee w -> (0 < cnt r (answers w))%nat). { intros w J'. apply in_split in J' as (w1 & w2 & ->). rewrite answers_app. change (ee :: w2) with ([ee] ++ w2). rewrite answers_app, AE, !cnt_app. cbn. destruct (Nat.eq_dec r r); [lia|congruence]. }
    destruct J as [J|J]; apply K in J; lia. }
  intro x. repeat split; intro I; (eapply W; [exact I|discriminate|reflexivity]).
Qed.
End Ask.
