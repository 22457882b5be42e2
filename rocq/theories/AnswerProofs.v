(** Proofs about the answers a container gives. *)
From Coq Require Import Permutation.
From Verif Require Import Common ContainerModel ContainerSpec ContainerProofs AnswerSpec.

Local Arguments Nat.eq_dec : simpl never.
Notation cnt r l := (count_occ Nat.eq_dec l r).
Lemma cnt_app r l m : cnt r (l ++ m) = (cnt r l + cnt r m)%nat.
Proof. apply count_occ_app. Qed.
Lemma answers_app h1 h2 : answers (h1 ++ h2) = answers h1 ++ answers h2.
Proof. apply flat_map_app. Qed.
Lemma answers_in gr : answers (map (fun p : nat * Q => CIn (fst p) (snd p)) gr) = [].
Proof. induction gr; auto. Qed.
Lemma answers_out gr : answers (map (fun p : nat * Q => COut (fst p) (snd p)) gr) = [].
Proof. induction gr; auto. Qed.
Lemma of_puts gr : map of_event (map (fun p : nat * Q => CEPut (fst p) (snd p)) gr) = map fst gr.
Proof. induction gr as [|p gr IH]; cbn; congruence. Qed.
Lemma of_gets gr : map of_event (map (fun p : nat * Q => CEGet (fst p) (snd p)) gr) = map fst gr.
Proof. induction gr as [|p gr IH]; cbn; congruence. Qed.
Lemma put_open s s' h r : ctrig_put s = (s', h) -> cnt r (open_requests s') = cnt r (open_requests s) /\ answers h = [] /\ c_next s' = c_next s /\ c_gone s' = c_gone s.
Proof.
  intro H. apply cput_put_head in H as (gr & Q & -> & _ & _ & G & N & GO & A & _). split; [|split; [apply answers_in|split; assumption]].
  unfold open_requests. rewrite G, A, Q, !map_app, of_puts, !cnt_app. lia.
Qed.
Lemma get_open s s' h r : ctrig_get s = (s', h) -> cnt r (open_requests s') = cnt r (open_requests s) /\ answers h = [] /\ c_next s' = c_next s /\ c_gone s' = c_gone s.
Proof.
  intro H. apply cget_get_head in H as (gr & Q & -> & _ & _ & G & N & GO & A & _). split; [|split; [apply answers_out|split; assumption]].
  unfold open_requests. rewrite G, A, Q, !map_app, of_gets, !cnt_app. lia.
Qed.
Definition numbered (s : cst) : Prop := forall r, (cnt r (open_requests s) <= 1)%nat /\ ((c_next s <= r)%nat -> cnt r (open_requests s) = 0%nat).
Lemma cnt_drop r q x : cnt x (map fst (cdrop r q)) = if Nat.eqb x r then 0%nat else cnt x (map fst q).
Proof.
  induction q as [|[j a] q IH]; cbn; [destruct (Nat.eqb x r); reflexivity|]. destruct (Nat.eqb_spec j r) as [->|N]; cbn [negb].
  - unfold cdrop in IH. rewrite IH. destruct (Nat.eqb_spec x r); [reflexivity|]. destruct (Nat.eq_dec r x); [congruence|reflexivity].
  - cbn [map fst]. cbn [count_occ]. destruct (Nat.eq_dec j x) as [->|].
    + unfold cdrop in IH. rewrite IH. destruct (Nat.eqb_spec x r); [congruence|reflexivity].
    + unfold cdrop in IH. rewrite IH. reflexivity.
Qed.
Lemma queued_cnt r (q : list (nat * Q)) : existsb (fun p => Nat.eqb (fst p) r) q = true <-> (0 < cnt r (map fst q))%nat.
Proof.
  change ((0 < cnt r (map fst q))%nat) with ((cnt r (map fst q) > 0)%nat). rewrite existsb_exists, <- count_occ_In, in_map_iff. split; intros (x & A & B); exists x; [apply Nat.eqb_eq in B|apply Nat.eqb_eq in A]; auto.
Qed.
Lemma step_once s o s1 h1 : numbered s -> cstep s o = (s1, h1) ->
  (forall r, (cnt r (open_requests s) + cnt r (map fst (asked (c_next s) [o])) = cnt r (open_requests s1) + cnt r (answers h1))%nat) /\
  c_next s1 = (c_next s + List.length (asked (c_next s) [o]))%nat.
Proof.
  intros N H. destruct o as [a|a|r0| |t]; cbn [cstep asked] in *.
  - destruct (Qleb a 0); [injection H as <- <-; split; [intro r|]; cbn; lia|]. split.
    + intro r. destruct (put_open _ _ _ r H) as (C & A & _). rewrite A, C. unfold open_requests. cbn. rewrite map_app, !cnt_app. cbn. lia.
    + apply (put_open _ _ _ 0%nat) in H as (_ & _ & C & _). rewrite C. cbn. lia.
  - destruct (Qleb a 0); [injection H as <- <-; split; [intro r|]; cbn; lia|]. split.
    + intro r. destruct (get_open _ _ _ r H) as (C & A & _). rewrite A, C. unfold open_requests. cbn. rewrite map_app, !cnt_app. cbn. lia.
    + apply (get_open _ _ _ 0%nat) in H as (_ & _ & C & _). rewrite C. cbn. lia.
  - injection H as <- <-. split; [|cbn; lia]. intro r. unfold open_requests. cbn. rewrite !cnt_app, !cnt_drop. destruct (N r0) as [N1 _]. unfold open_requests in N1. rewrite !cnt_app in N1.
    destruct (existsb (fun p => Nat.eqb (fst p) r0) (c_putq s) || existsb (fun p => Nat.eqb (fst p) r0) (c_getq s)) eqn:E.
    + cbn [answers flat_map app count_occ]. apply orb_prop in E. rewrite !queued_cnt in E. destruct (Nat.eqb_spec r r0) as [->|NE]; destruct (Nat.eq_dec r0 _); try congruence; lia.
    + apply orb_false_iff in E as [E1 E2]. assert (P : forall q, existsb (fun p : nat * Q => Nat.eqb (fst p) r0) q = false -> cnt r0 (map fst q) = 0%nat).
      { intros q X. destruct (cnt r0 (map fst q)) eqn:Y; [reflexivity|]. assert (Z : (0 < cnt r0 (map fst q))%nat) by lia. apply queued_cnt in Z. congruence. }
      apply P in E1, E2. cbn. destruct (Nat.eqb_spec r r0) as [->|NE]; lia.
  - destruct (c_agenda s) as [|e ag] eqn:EA; [injection H as <- <-; cbn; split; [intro r|]; lia|]. set (s1' := mkC _ _ _ _ _ _ _ _ _) in H.
    assert (O : forall r, cnt r (open_requests s) = (cnt r (open_requests s1') + cnt r [of_event e])%nat) by (intro r; unfold open_requests; rewrite EA; cbn; rewrite !cnt_app; cbn; destruct (Nat.eq_dec (of_event e) r); lia).
    destruct e as [r a|r a].
    + destruct (ctrig_get s1') as [s2 h] eqn:E. injection H as <- <-. split; [intro x|]; [|apply (get_open _ _ _ 0%nat) in E as (_ & _ & C & _); rewrite C; cbn; lia].
      destruct (get_open _ _ _ x E) as (C & A & _). rewrite answers_app, A, C, O. cbn. lia.
    + destruct (ctrig_put s1') as [s2 h] eqn:E. injection H as <- <-. split; [intro x|]; [|apply (put_open _ _ _ 0%nat) in E as (_ & _ & C & _); rewrite C; cbn; lia].
      destruct (put_open _ _ _ x E) as (C & A & _). rewrite answers_app, A, C, O. destruct (existsb (Nat.eqb r) (c_gone s)); cbn; lia.
  - destruct (c_agenda s) as [|e ag] eqn:EA; [|injection H as <- <-; cbn; split; [intro r|]; lia].
    destruct (Qleb (c_now s) t); injection H as <- <-; (split; [intro r|cbn; lia]); [unfold open_requests; rewrite EA|]; cbn; lia.
Qed.
Lemma asked_one k o os : asked k (o :: os) = asked k [o] ++ asked (k + List.length (asked k [o])) os.
Proof. destruct o as [a|a|r| |t]; cbn; try (destruct (Qleb a 0); cbn); rewrite ?Nat.add_0_r, ?Nat.add_1_r; reflexivity. Qed.
Lemma asked_at k o r : cnt r (map fst (asked k [o])) = if Nat.eqb r k then List.length (asked k [o]) else 0%nat.
Proof.
  destruct o as [a|a|x| |t]; cbn; try (destruct (Qleb a 0); cbn); try (destruct (Nat.eqb r k); reflexivity);
    destruct (Nat.eq_dec k r), (Nat.eqb_spec r k); congruence.
Qed.
Lemma asked_le k o : (List.length (asked k [o]) <= 1)%nat.
Proof. destruct o as [a|a|x| |t]; cbn; try (destruct (Qleb a 0); cbn); lia. Qed.
Lemma step_numbered s o s1 h1 : numbered s -> cstep s o = (s1, h1) -> numbered s1.
Proof.
  intros N H r. destruct (step_once s o s1 h1 N H) as [C K]. specialize (C r). rewrite asked_at in C. destruct (N r) as [N1 N2]. pose proof (asked_le (c_next s) o) as L.
  rewrite K. destruct (Nat.eqb_spec r (c_next s)) as [EQ|NE].
  - assert (G : (c_next s <= r)%nat) by lia. specialize (N2 G). split; lia.
  - split; [lia|]. intro G. assert (G2 : (c_next s <= r)%nat) by lia. specialize (N2 G2). lia.
Qed.
Lemma run_once : forall os s s' h, numbered s -> crun s os = (s', h) -> numbered s' /\
  forall r, (cnt r (open_requests s) + cnt r (map fst (asked (c_next s) os)) = cnt r (open_requests s') + cnt r (answers h))%nat.
Proof.
  induction os as [|o os IH]; intros s s' h N H; cbn [crun] in H.
  - injection H as <- <-. split; [exact N|]. intro r. cbn. lia.
  - destruct (cstep s o) as [s1 h1] eqn:E1. destruct (crun s1 os) as [s2 h2] eqn:E2. injection H as <- <-.
    destruct (step_once s o s1 h1 N E1) as [C K]. destruct (IH s1 s2 h2 (step_numbered _ _ _ _ N E1) E2) as [N2 C2]. split; [exact N2|].
    intro r. specialize (C r). specialize (C2 r). rewrite asked_one, map_app, cnt_app, answers_app, cnt_app, <- K. lia.
Qed.
Lemma init_numbered cap lvl t0 : numbered (cinit cap lvl t0).
Proof. intro r. cbn. split; [lia|reflexivity]. Qed.
Lemma once cap lvl t0 os s h : crun (cinit cap lvl t0) os = (s, h) -> Permutation (map fst (asked 0 os)) (open_requests s ++ answers h).
Proof.
  intro H. apply (Permutation_count_occ Nat.eq_dec). intro r. rewrite cnt_app. destruct (run_once os _ _ _ (init_numbered cap lvl t0) H) as [_ C]. specialize (C r). cbn in C. exact C.
Qed.
Lemma asked_nodup os : forall k, NoDup (map fst (asked k os)) /\ forall r x, In (r, x) (asked k os) -> (k <= r)%nat.
Proof.
  induction os as [|o os IH]; intro k; [cbn; split; [constructor|contradiction]|].
  assert (G : forall x, NoDup (map fst ((k, x) :: asked (S k) os)) /\ forall r y, In (r, y) ((k, x) :: asked (S k) os) -> (k <= r)%nat).
  { intro x. destruct (IH (S k)) as [I1 I2]. split.
    - cbn. constructor; [|exact I1]. intro I. apply in_map_iff in I as ([r y] & <- & I). specialize (I2 _ _ I). cbn in I2. lia.
    - intros r y [E|I]; [injection E as <- <-; lia|]. specialize (I2 _ _ I). lia. }
  destruct o as [a|a|x| |t]; cbn [asked]; try (destruct (Qleb a 0)); auto.
Qed.

(** ** Every answer is about what was asked *)
Definition fair (L : list (nat * request)) (s : cst) : Prop :=
  (forall r a, In (r, a) (c_putq s) -> In (r, RPut a) L) /\ (forall r a, In (r, a) (c_getq s) -> In (r, RGet a) L) /\
  (forall r a, In (CEPut r a) (c_agenda s) -> In (r, RPut a) L) /\ (forall r a, In (CEGet r a) (c_agenda s) -> In (r, RGet a) L).
Definition fair_hap (L : list (nat * request)) (h : list chap) : Prop :=
  (forall r a, In (CIn r a) h \/ In (CPutDone r a) h -> In (r, RPut a) L) /\
  (forall r a, In (COut r a) h \/ In (CGot r a) h \/ In (CLost r a) h -> In (r, RGet a) L).
Lemma fair_app L h1 h2 : fair_hap L h1 -> fair_hap L h2 -> fair_hap L (h1 ++ h2).
Proof. intros [A B] [C D]. split; intros r a; rewrite !in_app_iff; intuition eauto. Qed.
Lemma put_fair L s s' h : fair L s -> ctrig_put s = (s', h) -> fair L s' /\ fair_hap L h.
Proof.
  intros (A & B & C & D) H. apply cput_put_head in H as (gr & Q & -> & _ & _ & G & N & GO & AG & _). rewrite Q in A. split; [split; [|split; [|split]]|split].
  - intros r a I. apply A, in_or_app. auto.
  - rewrite G. exact B.
  - rewrite AG. intros r a I. apply in_app_or in I as [I|I]; [exact (C _ _ I)|]. apply in_map_iff in I as ([x y] & E & I). injection E as <- <-. apply A, in_or_app. auto.
  - rewrite AG. intros r a I. apply in_app_or in I as [I|I]; [exact (D _ _ I)|]. apply in_map_iff in I as ([x y] & E & I). discriminate.
  - intros r a [I|I]; apply in_map_iff in I as ([x y] & E & I); [injection E as <- <-; apply A, in_or_app; auto|discriminate].
  - intros r a [I|[I|I]]; apply in_map_iff in I as ([x y] & E & I); discriminate.
Qed.
Lemma get_fair L s s' h : fair L s -> ctrig_get s = (s', h) -> fair L s' /\ fair_hap L h.
Proof.
  intros (A & B & C & D) H. apply cget_get_head in H as (gr & Q & -> & _ & _ & G & N & GO & AG & _). rewrite Q in B. split; [split; [|split; [|split]]|split].
  - rewrite G. exact A.
  - intros r a I. apply B, in_or_app. auto.
  - rewrite AG. intros r a I. apply in_app_or in I as [I|I]; [exact (C _ _ I)|]. apply in_map_iff in I as ([x y] & E & I). discriminate.
  - rewrite AG. intros r a I. apply in_app_or in I as [I|I]; [exact (D _ _ I)|]. apply in_map_iff in I as ([x y] & E & I). injection E as <- <-. apply B, in_or_app. auto.
  - intros r a [I|I]; apply in_map_iff in I as ([x y] & E & I); discriminate.
  - intros r a [I|[I|I]]; apply in_map_iff in I as ([x y] & E & I); try discriminate. injection E as <- <-. apply B, in_or_app. auto.
Qed.
Lemma fair_quiet L h : (forall e, In e h -> match e with CCancelled _ | CValueError | CIllegal => True | _ => False end) -> fair_hap L h.
Proof. intro H. split; intros r a I; exfalso; intuition; match goal with X : In _ h |- _ => exact (H _ X) end. Qed.
Lemma step_fair L s o s1 h1 : (forall x, In x (asked (c_next s) [o]) -> In x L) -> fair L s -> cstep s o = (s1, h1) -> fair L s1 /\ fair_hap L h1.
Proof.
  intros S F H. destruct o as [a|a|r0| |t]; cbn [cstep asked] in *.
  - destruct (Qleb a 0); [injection H as <- <-; split; [exact F|]; apply fair_quiet; intros e [<-|[]]; exact I|].
    apply (put_fair L) in H; [exact H|]. destruct F as (A & B & C & D). repeat split; cbn; try assumption. intros r x I. apply in_app_or in I as [I|[I|[]]]; [exact (A _ _ I)|]. injection I as <- <-. apply S. left. reflexivity.
  - destruct (Qleb a 0); [injection H as <- <-; split; [exact F|]; apply fair_quiet; intros e [<-|[]]; exact I|].
    apply (get_fair L) in H; [exact H|]. destruct F as (A & B & C & D). repeat split; cbn; try assumption. intros r x I. apply in_app_or in I as [I|[I|[]]]; [exact (B _ _ I)|]. injection I as <- <-. apply S. left. reflexivity.
  - injection H as <- <-. destruct F as (A & B & C & D). split.
    + repeat split; cbn; try assumption; intros r x I; unfold cdrop in I; apply filter_In in I as [I _]; auto.
    + apply fair_quiet. intros e I. destruct (_ || _); [destruct I as [<-|[]]; exact Logic.I|destruct I].
  - destruct (c_agenda s) as [|e ag] eqn:EA; [injection H as <- <-; split; [exact F|]; apply fair_quiet; intros e [<-|[]]; exact I|].
    destruct F as (A & B & C & D). rewrite EA in C, D. destruct e as [r a|r a].
    + match type of H with (let '(_, _) := ?x in _) = _ => destruct x as [s2 h] eqn:E end. injection H as <- <-.
      apply (get_fair L) in E as [F2 H2]; [|repeat split; cbn; try assumption; intros; [apply C|apply D]; right; assumption]. split; [exact F2|]. apply fair_app; [exact H2|].
      split; intros x y I; cbn in I; [|intuition discriminate]. destruct I as [[I|[]]|[I|[]]]; [discriminate|]. injection I as <- <-. apply C. left. reflexivity.
    + match type of H with (let '(_, _) := ?x in _) = _ => destruct x as [s2 h] eqn:E end. injection H as <- <-.
      apply (put_fair L) in E as [F2 H2]; [|repeat split; cbn; try assumption; intros; [apply C|apply D]; right; assumption]. split; [exact F2|]. apply fair_app; [exact H2|].
      assert (G : In (r, RGet a) L) by (apply D; left; reflexivity).
      destruct (existsb (Nat.eqb r) (c_gone s)); split; intros x y I; cbn in I; intuition (try discriminate); match goal with X : _ = _ |- _ => injection X as <- <-; exact G end.
  - destruct (c_agenda s) as [|e ag] eqn:EA; [|injection H as <- <-; split; [exact F|]; apply fair_quiet; intros x [<-|[]]; exact I].
    destruct (Qleb (c_now s) t); injection H as <- <-; (split; [|apply fair_quiet; intros x I; cbn in I; intuition (subst; exact Logic.I)]); [|exact F].
    destruct F as (A & B & C & D). rewrite EA in C, D. repeat split; assumption.
Qed.
Lemma run_fair L : forall os s s' h, (forall x, In x (asked (c_next s) os) -> In x L) -> numbered s -> fair L s -> crun s os = (s', h) -> fair L s' /\ fair_hap L h.
Proof.
  induction os as [|o os IH]; intros s s' h S N F H; cbn [crun] in H.
  - injection H as <- <-. split; [exact F|]. split; intros r a I; cbn in I; intuition.
  - destruct (cstep s o) as [s1 h1] eqn:E1. destruct (crun s1 os) as [s2 h2] eqn:E2. injection H as <- <-. rewrite asked_one in S.
    destruct (step_fair L s o s1 h1) as [F1 G1]; [intros x I; apply S, in_or_app; auto|exact F|exact E1|].
    destruct (step_once s o s1 h1 N E1) as [_ K]. destruct (IH s1 s2 h2) as [F2 G2]; [intros x I; apply S, in_or_app; right; rewrite <- K; exact I|exact (step_numbered _ _ _ _ N E1)|exact F1|exact E2|].
    split; [exact F2|apply fair_app; assumption].
Qed.

(** ** Granted before answered *)
Definition granted (s : cst) (h : list chap) : Prop :=
  (forall r a, In (CEPut r a) (c_agenda s) \/ In (CPutDone r a) h -> In (CIn r a) h) /\
  (forall r a, In (CEGet r a) (c_agenda s) \/ In (CGot r a) h \/ In (CLost r a) h -> In (COut r a) h).
Lemma put_granted s s' h h0 : granted s h0 -> ctrig_put s = (s', h) -> granted s' (h0 ++ h).
Proof.
  intros [A B] H. apply cput_put_head in H as (gr & Q & -> & _ & _ & G & N & GO & AG & _). split; intros r a; rewrite AG, !in_app_iff, !in_map_iff.
  - intros [[I|([x y] & E & I)]|[I|([x y] & E & I)]]; try discriminate; auto. injection E as <- <-. right. exists (x, y). auto.
  - intros [[I|([x y] & E & I)]|[[I|([x y] & E & I)]|[I|([x y] & E & I)]]]; try discriminate; left; apply B; auto.
Qed.
Lemma get_granted s s' h h0 : granted s h0 -> ctrig_get s = (s', h) -> granted s' (h0 ++ h).
Proof.
  intros [A B] H. apply cget_get_head in H as (gr & Q & -> & _ & _ & G & N & GO & AG & _). split; intros r a; rewrite AG, !in_app_iff, !in_map_iff.
  - intros [[I|([x y] & E & I)]|[I|([x y] & E & I)]]; try discriminate; left; apply A; auto.
  - intros [[I|([x y] & E & I)]|[[I|([x y] & E & I)]|[I|([x y] & E & I)]]]; try discriminate; auto. injection E as <- <-. right. exists (x, y). auto.
Qed.
Lemma granted_more s s' h h' : granted s h -> c_agenda s' = c_agenda s -> (forall e, In e h' -> match e with CPutDone _ _ | CGot _ _ | CLost _ _ => False | _ => True end) -> granted s' (h ++ h').
Proof.
  intros [A B] E Q. split; intros r a; rewrite E, !in_app_iff.
  - intros [I|[I|I]]; [auto|auto|destruct (Q _ I)].
  - intros [I|[[I|I]|[I|I]]]; auto; destruct (Q _ I).
Qed.
Lemma step_granted s h o s' h' : granted s h -> cstep s o = (s', h') -> granted s' (h ++ h').
Proof.
  intros G H. destruct o as [a|a|r0| |t]; cbn [cstep] in H.
  - destruct (Qleb a 0); [injection H as <- <-; apply (granted_more s); [exact G|reflexivity|intros e [<-|[]]; exact I]|]. eapply put_granted; [|exact H]. exact G.
  - destruct (Qleb a 0); [injection H as <- <-; apply (granted_more s); [exact G|reflexivity|intros e [<-|[]]; exact I]|]. eapply get_granted; [|exact H]. exact G.
  - injection H as <- <-. apply (granted_more s); [exact G|reflexivity|]. intros e I. destruct (_ || _); [destruct I as [<-|[]]; exact Logic.I|destruct I].
  - destruct (c_agenda s) as [|e ag] eqn:EA; [injection H as <- <-; apply (granted_more s); [exact G|reflexivity|intros e [<-|[]]; exact I]|].
    destruct G as [A B]. rewrite EA in A, B. destruct e as [r a|r a]; match type of H with (let '(_, _) := ?x in _) = _ => destruct x as [s2 h2] eqn:E end; injection H as <- <-; rewrite app_assoc.
    + apply (get_granted _ _ _ h) in E; [|split; cbn; intros x y [I|I]; [apply A; left; right; exact I|apply A; right; exact I|apply B; left; right; exact I|apply B; right; exact I]].
      destruct E as [A2 B2]. split; intros x y; rewrite !in_app_iff.
      * intros [I|[[I|I]|[I|[]]]]; [left; apply in_app_or; apply A2; auto|left; apply in_app_or, A2; right; apply in_or_app; auto|left; apply in_app_or, A2; right; apply in_or_app; auto|].
        injection I as <- <-. left. left. apply A. left. left. reflexivity.
      * intros [I|[[[I|I]|[I|[]]]|[[I|I]|[I|[]]]]]; try discriminate; left; apply in_app_or, B2; rewrite ?in_app_iff; auto.
    + apply (put_granted _ _ _ h) in E; [|split; cbn; intros x y [I|I]; [apply A; left; right; exact I|apply A; right; exact I|apply B; left; right; exact I|apply B; right; exact I]].
      assert (G : In (COut r a) h) by (apply B; left; left; reflexivity). destruct E as [A2 B2]. split; intros x y; rewrite !in_app_iff.
      * intros [I|[[I|I]|[I|[]]]]; [left; apply in_app_or; apply A2; auto|left; apply in_app_or, A2; right; apply in_or_app; auto|left; apply in_app_or, A2; right; apply in_or_app; auto|].
        destruct (existsb _ _); discriminate.
      * intros [I|[[[I|I]|[I|[]]]|[[I|I]|[I|[]]]]]; try (left; apply in_app_or, B2; rewrite ?in_app_iff; auto; fail); destruct (existsb _ _); try discriminate; injection I as <- <-; left; left; exact G.
  - destruct (c_agenda s) as [|e ag] eqn:EA; [|injection H as <- <-; apply (granted_more s); [exact G|reflexivity|intros x [<-|[]]; exact I]].
    destruct (Qleb (c_now s) t); injection H as <- <-; apply (granted_more s); try exact G; cbn; try congruence; intros e I; cbn in I; intuition (subst; exact Logic.I).
Qed.

(** ** Giving up *)
Lemma gone_step s o s' h : cstep s o = (s', h) -> forall r, In r (c_gone s') <-> In r (c_gone s) \/ (o = CCancel r /\ exists a, In (CEGet r a) (c_agenda s)).
Proof.
  intros H r. assert (P : forall x, (exists a, In (CEGet x a) (c_agenda s)) <-> existsb (cis_get_of x) (c_agenda s) = true).
  { intro x. rewrite existsb_exists. split; [intros (a & I); exists (CEGet x a); split; [exact I|apply Nat.eqb_refl]|].
    intros ([y b|y b] & I & E); cbn in E; [discriminate|]. apply Nat.eqb_eq in E. subst. eauto. }
  destruct o as [a|a|r0| |t]; cbn [cstep] in H.
  - destruct (Qleb a 0); [injection H as <- <-; intuition discriminate|]. apply (put_open _ _ _ 0%nat) in H as (_ & _ & _ & ->). cbn. intuition discriminate.
  - destruct (Qleb a 0); [injection H as <- <-; intuition discriminate|]. apply (get_open _ _ _ 0%nat) in H as (_ & _ & _ & ->). cbn. intuition discriminate.
  - injection H as <- <-. cbn. destruct (existsb (cis_get_of r0) (c_agenda s)) eqn:E.
    + cbn. split; [intros [->|I]; [right; split; [reflexivity|apply P; exact E]|left; exact I]|intros [I|[X _]]; [auto|injection X as ->; auto]].
    + split; [auto|]. intros [I|[X Y]]; [exact I|]. injection X as ->. apply P in Y. congruence.
  - destruct (c_agenda s) as [|e ag]; [injection H as <- <-; intuition discriminate|]. destruct e as [x a|x a]; match type of H with (let '(_, _) := ?y in _) = _ => destruct y as [s2 h2] eqn:E end; injection H as <- <-.
    + apply (get_open _ _ _ 0%nat) in E as (_ & _ & _ & ->). cbn. intuition discriminate.
    + apply (put_open _ _ _ 0%nat) in E as (_ & _ & _ & ->). cbn. intuition discriminate.
  - destruct (c_agenda s); [destruct (Qleb (c_now s) t)|]; injection H as <- <-; cbn; intuition discriminate.
Qed.
Lemma got_step s o s' h r a : cstep s o = (s', h) -> (In (CGot r a) h -> ~ In r (c_gone s)) /\ (In (CLost r a) h -> In r (c_gone s)).
Proof.
  intro H. assert (X : forall (gr : list (nat * Q)) (b : bool), In (CGot r a) (map (fun p => if b then CIn (fst p) (snd p) else COut (fst p) (snd p)) gr) \/ In (CLost r a) (map (fun p => if b then CIn (fst p) (snd p) else COut (fst p) (snd p)) gr) -> False).
  { intros gr b [I|I]; apply in_map_iff in I as (p & E & _); destruct b; discriminate. }
  assert (X1 : forall gr, ~ In (CGot r a) (map (fun p : nat * Q => CIn (fst p) (snd p)) gr) /\ ~ In (CLost r a) (map (fun p : nat * Q => CIn (fst p) (snd p)) gr)) by (intro gr; split; intro I; apply in_map_iff in I as (p & E & _); discriminate).
  assert (X2 : forall gr, ~ In (CGot r a) (map (fun p : nat * Q => COut (fst p) (snd p)) gr) /\ ~ In (CLost r a) (map (fun p : nat * Q => COut (fst p) (snd p)) gr)) by (intro gr; split; intro I; apply in_map_iff in I as (p & E & _); discriminate).
  destruct o as [b|b|r0| |t]; cbn [cstep] in H.
  - destruct (Qleb b 0); [injection H as <- <-; cbn; intuition discriminate|]. apply cput_put_head in H as (gr & _ & -> & _). destruct (X1 gr). tauto.
  - destruct (Qleb b 0); [injection H as <- <-; cbn; intuition discriminate|]. apply cget_get_head in H as (gr & _ & -> & _). destruct (X2 gr). tauto.
  - injection H as <- <-. destruct (_ || _); cbn; intuition discriminate.
  - destruct (c_agenda s) as [|e ag]; [injection H as <- <-; cbn; intuition discriminate|]. destruct e as [x y|x y]; match type of H with (let '(_, _) := ?z in _) = _ => destruct z as [s2 h2] eqn:E end; injection H as <- <-.
    + apply cget_get_head in E as (gr & _ & -> & _). rewrite !in_app_iff. destruct (X2 gr). cbn. intuition discriminate.
    + apply cput_put_head in E as (gr & _ & -> & _). rewrite !in_app_iff. destruct (X1 gr) as [Y1 Y2]. destruct (existsb (Nat.eqb x) (c_gone s)) eqn:EG; cbn.
      * split; [intros [I|[I|[]]]; [tauto|discriminate]|]. intros [I|[I|[]]]; [tauto|]. injection I as <- <-. apply existsb_exists in EG as (z & I & Z). apply Nat.eqb_eq in Z. congruence.
      * split; [|intros [I|[I|[]]]; [tauto|discriminate]]. intros [I|[I|[]]]; [tauto|]. injection I as <- <-. intro I. assert (T : existsb (Nat.eqb x) (c_gone s) = true) by (apply existsb_exists; exists x; split; [exact I|apply Nat.eqb_refl]). congruence.
  - destruct (c_agenda s); [destruct (Qleb (c_now s) t)|]; injection H as <- <-; cbn; intuition discriminate.
Qed.
Lemma never_lost : forall os s s' h r a, crun s os = (s', h) -> ~ In r (c_gone s) -> ~ In (CCancel r) os -> ~ In (CLost r a) h.
Proof.
  induction os as [|o os IH]; intros s s' h r a H N C; cbn [crun] in H; [injection H as <- <-; auto|].
  destruct (cstep s o) as [s1 h1] eqn:E1. destruct (crun s1 os) as [s2 h2] eqn:E2. injection H as <- <-. intro I. apply in_app_or in I as [I|I].
  - exact (N (proj2 (got_step _ _ _ _ r a E1) I)).
  - refine (IH _ _ _ r a E2 _ _ I); [|intro X; apply C; right; exact X]. rewrite (gone_step _ _ _ _ E1). intros [X|[-> _]]; [exact (N X)|]. apply C. left. reflexivity.
Qed.
Lemma never_got : forall os s s' h r a, crun s os = (s', h) -> In r (c_gone s) -> ~ In (CGot r a) h.
Proof.
  induction os as [|o os IH]; intros s s' h r a H N; cbn [crun] in H; [injection H as <- <-; auto|].
  destruct (cstep s o) as [s1 h1] eqn:E1. destruct (crun s1 os) as [s2 h2] eqn:E2. injection H as <- <-. intro I. apply in_app_or in I as [I|I].
  - exact (proj1 (got_step _ _ _ _ r a E1) I N).
  - refine (IH _ _ _ r a E2 _ I). rewrite (gone_step _ _ _ _ E1). left. exact N.
Qed.
Lemma crun_app : forall os1 os2 s, crun s (os1 ++ os2) = let '(s1, h1) := crun s os1 in let '(s2, h2) := crun s1 os2 in (s2, h1 ++ h2).
Proof.
  induction os1 as [|o os1 IH]; intros os2 s; cbn [app crun]; [destruct (crun s os2); reflexivity|]. destruct (cstep s o) as [s1 h1]. rewrite IH.
  destruct (crun s1 os1) as [s2 h2]. destruct (crun s2 os2) as [s3 h3]. rewrite app_assoc. reflexivity.
Qed.
Lemma given_up cap lvl t0 os1 s1 h1 os2 s2 h2 r a : crun (cinit cap lvl t0) os1 = (s1, h1) -> In (CEGet r a) (c_agenda s1) ->
  crun (cinit cap lvl t0) (os1 ++ CCancel r :: os2) = (s2, h2) -> forall b, ~ In (CGot r b) h2.
Proof.
  intros H1 P H2 b I. rewrite crun_app, H1 in H2. cbn [crun] in H2. destruct (cstep s1 (CCancel r)) as [s3 h3] eqn:E3. destruct (crun s3 os2) as [s4 h4] eqn:E4. injection H2 as <- <-.
  apply in_app_or in I as [I|I]; [|apply in_app_or in I as [I|I]].
  - destruct (run_once os1 _ _ _ (init_numbered cap lvl t0) H1) as [N C]. specialize (C r). cbn [cinit c_next] in C. destruct (asked_nodup os1 0) as [ND _]. pose proof (proj1 (NoDup_count_occ Nat.eq_dec _) ND r) as L.
    assert (O : (0 < cnt r (open_requests s1))%nat) by (apply count_occ_In; unfold open_requests; rewrite !in_app_iff; right; right; apply in_map_iff; exists (CEGet r a); auto).
    assert (A : (0 < cnt r (answers h1))%nat) by (apply count_occ_In; unfold answers; apply in_flat_map; exists (CGot r b); cbn; auto). cbn in C. lia.
  - injection E3 as <- <-. destruct (_ || _); cbn in I; intuition discriminate.
  - refine (never_got _ _ _ _ r b E4 _ I). rewrite (gone_step _ _ _ _ E3). right. split; [reflexivity|]. exists a. exact P.
Qed.
