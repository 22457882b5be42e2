(** Proofs about windowed gets. *)
From Coq Require Import Permutation Sorted.
From Verif Require Import Common StoreModel StoreSpec StoreProofs FateSpec FateProofs WinModel WinSpec.

Section Win.
Variable A : Type.
Variable eqb : A -> A -> bool.
Variable truthy : A -> bool.
Variable item_func : list A -> Z.
Variable req : greq A.
Variable timeout : Q.
Variable reset : bool.
Local Notation st := (st A).
Local Notation happening := (happening A).
Local Notation step := (step A eqb truthy item_func).
Local Notation trig_put := (trig_put A item_func).
Local Notation trig_get := (trig_get A eqb truthy item_func).
Local Notation stored := (stored A).
Local Notation taken := (taken A).
Local Notation delivered := (delivered A).
Local Notation lost := (lost A).
Local Notation handed_over := (handed_over A).
Local Notation in_flight := (in_flight A).
Local Notation cancelled := (cancelled A).
Local Notation wst := (wst A).
Local Notation wstep := (wstep A eqb truthy item_func req timeout reset).
Local Notation wrun := (wrun A eqb truthy item_func req timeout reset).
Local Notation notice := (notice A).
Local Notation of_requests := (of_requests A).
Local Notation next_get := (next_get A eqb truthy item_func req timeout reset).
Local Notation ids l := (map fst l).

Definition putdone (h : list happening) : list (nat * A) :=
  flat_map (fun e => match e with HPutDone r x => [(r, x)] | _ => [] end) h.
Definition put_events (s : st) : list (nat * A) :=
  flat_map (fun e => match e with EPut r x => [(r, x)] | _ => [] end) (s_agenda s).
Lemma putdone_app a b : putdone (a ++ b) = putdone a ++ putdone b.
Proof. apply flat_map_app. Qed.
Lemma putdone_map (gr : list (nat * A)) : putdone (map (fun rx : nat * A => HTaken (fst rx) (snd rx)) gr) = [].
Proof. induction gr as [|[r x] gr IH]; cbn; auto. Qed.

(** What a trigger does, seen from outside. *)
Lemma put_facts s s' h' : trig_put s = (s', h') ->
  taken h' = [] /\ delivered h' = [] /\ lost h' = [] /\ cancelled h' = [] /\ putdone h' = [] /\
  s_next s' = s_next s /\ s_gone s' = s_gone s /\ s_now s' = s_now s /\ s_getq s' = s_getq s /\
  put_events s' = put_events s ++ stored h' /\ in_flight s' = in_flight s /\
  s_putq s = stored h' ++ s_putq s' /\ (length (stored h') <= 1)%nat.
Proof.
  intro E. apply trig_put_cases in E.
  destruct E as [(r & x & q & Eq & _ & -> & _ & _ & En & _ & E1 & E2 & Ea & Eg & E3)|(-> & (_&_&En&_&E1&E2&Ea&Eg&E3) & _)].
  - cbn. unfold put_events, StoreSpec.in_flight. rewrite Ea, Eq, E1, E2, E3, Eg, En, !flat_map_app. cbn. rewrite app_nil_r.
    intuition.
  - cbn. unfold put_events, StoreSpec.in_flight. rewrite Ea, E1, E2, E3, Eg, En. cbn. rewrite app_nil_r. intuition.
Qed.
Lemma get_facts s s' h' : trig_get s = (s', h') ->
  stored h' = [] /\ delivered h' = [] /\ lost h' = [] /\ cancelled h' = [] /\ putdone h' = [] /\
  s_next s' = s_next s /\ s_gone s' = s_gone s /\ s_now s' = s_now s /\ s_putq s' = s_putq s /\
  put_events s' = put_events s /\ in_flight s' = in_flight s ++ taken h' /\
  (forall r, In r (ids (s_getq s)) <-> In r (ids (s_getq s')) \/ In r (ids (taken h'))).
Proof.
  intro E. pose proof (flight_trig_get _ _ _ _ _ _ _ E) as (F & _). apply trig_get_cases in E.
  destruct E as (gr & qn & EL & -> & _ & _ & En & E1 & Ea & Eg & E2 & _).
  apply get_loop_served in EL. rewrite stored_map, delivered_map, lost_map, FateProofs.cancelled_map, putdone_map.
  repeat (split; [first [reflexivity|assumption]|]). split; [|split; [exact F|]].
  - unfold put_events. rewrite Ea, flat_map_app.
    assert (X : forall g : list (nat * A), flat_map (fun e : ev A => match e with EPut r x => [(r, x)] | _ => [] end)
                  (map (fun rx : nat * A => EGet (fst rx) (snd rx)) g) = []) by (induction g as [|[? ?] g IH]; cbn; auto).
    rewrite X, app_nil_r. reflexivity.
  - rewrite taken_map. exact (served_in _ truthy _ _ _ EL).
Qed.

Record SFull (s : st) (h : list happening) : Prop := mkSFull {
  sf_flight : handed_over h ++ in_flight s = taken h;
  sf_places : SF A s h;
  sf_puts : putdone h ++ put_events s = stored h }.
(** What one store operation does to requests made before. *)
Record facts (s : st) (o : op A) (s' : st) (h' : list happening) : Prop := mkFacts {
  f_next : (s_next s <= s_next s')%nat;
  f_put : forall r x, (r < s_next s)%nat -> In (r, x) (s_putq s') \/ In (r, x) (stored h') -> In (r, x) (s_putq s);
  f_get : forall r, (r < s_next s)%nat -> In r (ids (s_getq s')) \/ In r (ids (taken h')) -> In r (ids (s_getq s));
  f_cancel : forall r, In r (cancelled h') -> o = OpCancel r;
  f_gone : forall r, In r (s_gone s') -> In r (s_gone s) \/ (o = OpCancel r /\ granted_get A s r);
  f_gone_mono : incl (s_gone s) (s_gone s');
  f_del : forall r x, In (r, x) (delivered h') -> In (r, x) (in_flight s) /\ ~ In r (s_gone s);
  f_lost : forall r x, In (r, x) (lost h') -> In (r, x) (in_flight s) /\ In r (s_gone s);
  f_one : (length (delivered h') <= 1)%nat;
  f_done : forall r x, In (r, x) (putdone h') -> In (r, x) (put_events s) }.

Lemma rid_filter {B} r (q : list (nat * B)) p : In p (drop_rid r q) <-> In p q /\ fst p <> r.
Proof. unfold drop_rid, is_rid. rewrite filter_In, negb_true_iff, Nat.eqb_neq. tauto. Qed.
Lemma granted_exists s r : existsb (is_get_of A r) (s_agenda s) = true -> granted_get A s r.
Proof.
  intro Eg. apply existsb_exists in Eg. destruct Eg as ([n x|n x] & Hin & Hn); [discriminate|].
  apply Nat.eqb_eq in Hn. subst n. unfold granted_get, StoreSpec.in_flight.
  apply in_map_iff. exists (r, x). split; [reflexivity|]. apply in_flat_map. exists (EGet r x). split; [exact Hin|left; reflexivity].
Qed.
Lemma existsb_In r l : existsb (Nat.eqb r) l = true <-> In r l.
Proof.
  rewrite existsb_exists. split; [intros (x & H & E); apply Nat.eqb_eq in E; subst; exact H|]. intro H. exists r. split; [exact H|apply Nat.eqb_refl].
Qed.

Lemma step_facts s o s' h' : step s o = (s', h') -> facts s o s' h'.
Proof.
  intro E. destruct o as [x|g|r| |t]; cbn [StoreModel.step] in E.
  - unfold op_put in E. apply put_facts in E. cbn [s_next s_gone s_now s_getq s_putq] in E.
    destruct E as (E1 & E2 & E3 & E4 & E5 & E6 & E7 & E8 & E9 & E10 & E11 & E12 & E13).
    constructor; rewrite ?E1, ?E2, ?E3, ?E4, ?E5, ?E6, ?E7, ?E9; try (intros; contradiction); try (cbn; lia); auto.
    + intros r y L H. assert (I : In (r, y) (s_putq s ++ [(s_next s, x)])) by (rewrite E12; apply in_or_app; tauto).
      apply in_app_or in I. destruct I as [I|[I|[]]]; [exact I|]. inversion I; subst. lia.
    + intros r L [H|[]]. exact H.
    + apply incl_refl.
  - unfold op_get in E. apply get_facts in E. cbn [s_next s_gone s_now s_getq s_putq] in E.
    destruct E as (E1 & E2 & E3 & E4 & E5 & E6 & E7 & E8 & E9 & E10 & E11 & E12).
    constructor; rewrite ?E1, ?E2, ?E3, ?E4, ?E5, ?E6, ?E7, ?E9; try (intros; contradiction); try (cbn; lia); auto.
    + intros r y L [H|[]]. exact H.
    + intros r L H. apply E12 in H. rewrite map_app in H. apply in_app_or in H. destruct H as [H|[H|[]]]; [exact H|]. cbn in H. lia.
    + apply incl_refl.
  - unfold op_cancel in E. injection E as <- <-.
    assert (X : forall b : bool, stored (if b then [HCancelled r] else []) = [] /\ taken (if b then [HCancelled r] else []) = [] /\
      delivered (if b then [HCancelled r] else []) = [] /\ lost (if b then [HCancelled r] else []) = [] /\ putdone (if b then [HCancelled r] else []) = [])
      by (intros []; auto).
    destruct (X (existsb (is_rid r) (s_putq s) || existsb (is_rid r) (s_getq s))) as (X1 & X2 & X3 & X4 & X5).
    constructor; rewrite ?X1, ?X2, ?X3, ?X4, ?X5; cbn [s_next s_putq s_getq s_gone]; try (intros; contradiction); try (cbn; lia).
    + intros n x _ [H|[]]. apply rid_filter in H. apply H.
    + intros n _ [H|[]]. apply in_map_iff in H. destruct H as (p & <- & H). apply rid_filter in H. apply in_map. apply H.
    + intros n H. destruct (_ || _); cbn in H; [|contradiction]. destruct H as [->|[]]. reflexivity.
    + intros n H. destruct (existsb (is_get_of A r) (s_agenda s)) eqn:G; [|auto]. destruct H as [->|H]; [|auto]. right. split; [reflexivity|].
      apply granted_exists. exact G.
    + destruct (existsb (is_get_of A r) (s_agenda s)); [apply incl_tl|]; apply incl_refl.
  - unfold op_process in E. destruct (s_agenda s) as [|e ag] eqn:Ea.
    { injection E as <- <-. constructor; cbn; try (intros; contradiction); try lia; auto; try (intros; tauto). apply incl_refl. }
    set (s1 := mkSt _ _ _ _ _ _ _ _ _ _) in E. destruct e as [r x|r x].
    + destruct (trig_get s1) as [s2 h2] eqn:Et. injection E as <- <-. apply get_facts in Et.
      cbn [s1 s_next s_gone s_now s_getq s_putq] in Et.
      destruct Et as (E1 & E2 & E3 & E4 & E5 & E6 & E7 & E8 & E9 & E10 & E11 & E12).
      constructor; rewrite ?stored_app, ?taken_app, ?delivered_app, ?lost_app, ?cancelled_app, ?putdone_app; rewrite ?E1, ?E2, ?E3, ?E4, ?E5, ?E6, ?E7, ?E9;
        cbn [app StoreSpec.stored StoreSpec.taken StoreSpec.delivered StoreSpec.lost FateSpec.cancelled putdone flat_map]; try (intros; contradiction); try (cbn; lia); auto.
      * intros n y L [H|[]]. exact H.
      * rewrite app_nil_r. intros n L H. apply E12. exact H.
      * apply incl_refl.
      * intros n y [H|[]]. inversion H; subst. unfold put_events. rewrite Ea. left. reflexivity.
    + destruct (trig_put s1) as [s2 h2] eqn:Et. injection E as <- <-. apply put_facts in Et.
      cbn [s1 s_next s_gone s_now s_getq s_putq] in Et.
      destruct Et as (E1 & E2 & E3 & E4 & E5 & E6 & E7 & E8 & E9 & E10 & E11 & E12 & E13).
      assert (FL : In (r, x) (in_flight s)) by (unfold StoreSpec.in_flight; rewrite Ea; left; reflexivity).
      constructor; rewrite ?stored_app, ?taken_app, ?delivered_app, ?lost_app, ?cancelled_app, ?putdone_app; rewrite ?E1, ?E2, ?E3, ?E4, ?E5, ?E6, ?E7, ?E9;
        try (cbn; lia); auto.
      * intros n y L H. assert (I : In (n, y) (stored h2 ++ s_putq s2)); [|rewrite E12; exact I].
        apply in_or_app. destruct H as [H|H]; [auto|]. apply in_app_or in H. destruct H as [H|H]; [auto|].
        destruct (existsb (Nat.eqb r) (s_gone s)); destruct H.
      * intros n L [H|H]; [exact H|]. destruct (existsb (Nat.eqb r) (s_gone s)); destruct H.
      * intros n H. destruct (existsb (Nat.eqb r) (s_gone s)); destruct H.
      * apply incl_refl.
      * intros n y H. destruct (existsb (Nat.eqb r) (s_gone s)) eqn:G; cbn in H; [contradiction|]. destruct H as [H|[]]. inversion H; subst.
        split; [exact FL|]. intro X. apply existsb_In in X. congruence.
      * intros n y H. destruct (existsb (Nat.eqb r) (s_gone s)) eqn:G; cbn in H; [|contradiction]. destruct H as [H|[]]. inversion H; subst.
        split; [exact FL|]. apply existsb_In. exact G.
      * destruct (existsb (Nat.eqb r) (s_gone s)); cbn; lia.
      * intros n y H. destruct (existsb (Nat.eqb r) (s_gone s)); destruct H.
  - unfold op_time in E. assert (X : s' = s \/ s_putq s' = s_putq s /\ s_getq s' = s_getq s /\ s_gone s' = s_gone s /\ s_next s' = s_next s).
    { destruct (s_agenda s); [destruct (Qleb (s_now s) t)|]; injection E as <- <-; auto. }
    assert (Y : h' = [] \/ h' = [HIllegal]) by (destruct (s_agenda s); [destruct (Qleb (s_now s) t)|]; injection E as <- <-; auto).
    assert (Z : s_putq s' = s_putq s /\ s_getq s' = s_getq s /\ s_gone s' = s_gone s /\ s_next s' = s_next s) by (destruct X as [->|X]; auto).
    destruct Z as (Z1 & Z2 & Z3 & Z4).
    constructor; rewrite ?Z1, ?Z2, ?Z3, ?Z4; try lia; destruct Y as [-> | ->]; cbn; try (intros; contradiction); try lia; auto; try (intros; tauto); apply incl_refl.
Qed.
Lemma step_SFull s h o s' h' : SFull s h -> step s o = (s', h') -> SFull s' (h ++ h').
Proof.
  intros [F1 F2 F3] E. constructor.
  - exact (step_flight A eqb truthy item_func s h o s' h' F1 E).
  - exact (SF_step A eqb truthy item_func s h o s' h' F2 E).
  - rewrite putdone_app, stored_app. destruct o as [x|g|r| |t]; cbn [StoreModel.step] in E.
    + unfold op_put in E. apply put_facts in E. destruct E as (_ & _ & _ & _ & E5 & _ & _ & _ & _ & E10 & _). rewrite E5, E10.
      unfold put_events. cbn [s_agenda]. fold (put_events s). rewrite app_nil_r, app_assoc, F3. reflexivity.
    + unfold op_get in E. apply get_facts in E. destruct E as (E1 & _ & _ & _ & E5 & _ & _ & _ & _ & E10 & _). rewrite E1, E5, E10.
      unfold put_events. cbn [s_agenda]. fold (put_events s). rewrite !app_nil_r. exact F3.
    + unfold op_cancel in E. injection E as <- <-. unfold put_events. cbn [s_agenda]. fold (put_events s).
      destruct (_ || _); cbn; rewrite !app_nil_r; exact F3.
    + unfold op_process in E. destruct (s_agenda s) as [|e ag] eqn:Ea.
      { injection E as <- <-. cbn. rewrite !app_nil_r. exact F3. }
      unfold put_events in F3. rewrite Ea in F3. set (s1 := mkSt _ _ _ _ _ _ _ _ _ _) in E. destruct e as [r x|r x].
      * destruct (trig_get s1) as [s2 h2] eqn:Et. injection E as <- <-. apply get_facts in Et.
        destruct Et as (E1 & _ & _ & _ & E5 & _ & _ & _ & _ & E10 & _). rewrite putdone_app, stored_app, E1, E5, E10.
        unfold put_events. cbn [s1 s_agenda]. cbn. rewrite !app_nil_r, <- app_assoc. exact F3.
      * destruct (trig_put s1) as [s2 h2] eqn:Et. injection E as <- <-. apply put_facts in Et.
        destruct Et as (_ & _ & _ & _ & E5 & _ & _ & _ & _ & E10 & _). rewrite putdone_app, stored_app, E5, E10.
        unfold put_events. cbn [s1 s_agenda]. cbn [app flat_map] in *.
        destruct (existsb (Nat.eqb r) (s_gone s)); cbn; rewrite !app_nil_r, app_assoc, F3; reflexivity.
    + unfold op_time in E. assert (X : s_agenda s' = s_agenda s /\ (h' = [] \/ h' = [HIllegal])).
      { destruct (s_agenda s) eqn:Ea; [destruct (Qleb (s_now s) t)|]; injection E as <- <-; auto. }
      destruct X as [Xa X]. unfold put_events. rewrite Xa. fold (put_events s). destruct X as [-> | ->]; cbn; rewrite !app_nil_r; exact F3.
Qed.

(** ** Where a request is *)
Lemma SF_NoDup s h : SFull s h -> NoDup (ids (taken h)) /\ NoDup (ids (stored h)) /\
  (forall r, In r (cancelled h) -> ~ In r (ids (taken h)) /\ ~ In r (ids (s_getq s)) /\ ~ In r (ids (stored h)) /\ ~ In r (ids (s_putq s))) /\
  (forall r, In r (ids (s_getq s)) -> ~ In r (ids (taken h))) /\ (forall r, In r (ids (s_putq s)) -> ~ In r (ids (stored h))) /\
  NoDup (ids (s_putq s)).
Proof.
  intros [_ F _]. unfold SF, places in F. 
  assert (B : forall r, (cnt (ids (stored h)) r + cnt (ids (taken h)) r + cnt (cancelled h) r + cnt (ids (s_putq s)) r + cnt (ids (s_getq s)) r <= 1)%nat)
    by (intro r; rewrite F; destruct (Nat.ltb r (s_next s)); lia).
  split; [|split; [|split; [|split; [|split]]]].
  - apply (NoDup_count_occ Nat.eq_dec). intro r. specialize (B r). lia.
  - apply (NoDup_count_occ Nat.eq_dec). intro r. specialize (B r). lia.
  - intros r H. specialize (B r). rewrite (count_occ_In Nat.eq_dec) in H. rewrite !(count_occ_In Nat.eq_dec). lia.
  - intros r H. specialize (B r). rewrite (count_occ_In Nat.eq_dec) in H. rewrite !(count_occ_In Nat.eq_dec). lia.
  - intros r H. specialize (B r). rewrite (count_occ_In Nat.eq_dec) in H. rewrite !(count_occ_In Nat.eq_dec). lia.
  - apply (NoDup_count_occ Nat.eq_dec). intro r. specialize (B r). lia.
Qed.
Lemma SF_bound s h : SFull s h -> forall r,
  In r (ids (stored h)) \/ In r (ids (taken h)) \/ In r (cancelled h) \/ In r (ids (s_putq s)) \/ In r (ids (s_getq s)) <-> (r < s_next s)%nat.
Proof.
  intros [_ F _] r. unfold SF, places in F. specialize (F r). rewrite !(count_occ_In Nat.eq_dec).
  destruct (Nat.ltb r (s_next s)) eqn:E; [apply Nat.ltb_lt in E|apply Nat.ltb_ge in E]; lia.
Qed.
Lemma handed_in h p : In p (handed_over h) <-> In p (delivered h) \/ In p (lost h).
Proof.
  induction h as [|e h IH]; [cbn; tauto|].
  unfold StoreSpec.handed_over, StoreSpec.delivered, StoreSpec.lost in *. destruct e; cbn; try exact IH; rewrite IH; tauto.
Qed.
Lemma handed_ids h r : In r (ids (handed_over h)) <-> In r (ids (delivered h)) \/ In r (ids (lost h)).
Proof.
  rewrite !in_map_iff. split.
  - intros (p & E & H). apply handed_in in H. destruct H; [left|right]; exists p; auto.
  - intros [(p & E & H)|(p & E & H)]; exists p; (split; [exact E|]); apply handed_in; auto.
Qed.
Lemma taken_ids s h r : SFull s h -> In r (ids (taken h)) <-> In r (ids (handed_over h)) \/ In r (ids (in_flight s)).
Proof. intros [F _ _]. rewrite <- F, map_app, in_app_iff. tauto. Qed.
Lemma handed_not_flight s h r : SFull s h -> In r (ids (handed_over h)) -> ~ In r (ids (in_flight s)).
Proof.
  intros F H1 H2. destruct (SF_NoDup s h F) as (N & _). rewrite <- (sf_flight s h F), map_app in N.
  apply NoDup_app_iff in N || idtac. revert H1 H2 N. generalize (ids (handed_over h)) (ids (in_flight s)). intros a b Ha Hb N.
  induction a as [|y a IH]; [destruct Ha|]. cbn in N. inversion N; subst. destruct Ha as [->|Ha]; [|auto]. apply H1. apply in_or_app. auto.
Qed.

Definition settled (h : list happening) (g : nat) : Prop := In g (ids (handed_over h)).
Definition over_with (s : st) (h : list happening) (g : nat) : Prop :=
  settled h g \/ In g (cancelled h) \/ (In g (ids (in_flight s)) /\ In g (s_gone s)).
Definition getid (s : st) (h : list happening) (g : nat) : Prop :=
  (g < s_next s)%nat /\ ~ In g (ids (s_putq s)) /\ ~ In g (ids (stored h)).
Definition putid (s : st) (h : list happening) (p : nat) : Prop :=
  (p < s_next s)%nat /\ ~ In p (ids (s_getq s)) /\ ~ In p (ids (taken h)).
Lemma settled_app h h' g : settled h g -> settled (h ++ h') g.
Proof. unfold settled. rewrite handed_app, map_app, in_app_iff. auto. Qed.
Lemma in_ids {B} (l : list (nat * B)) r : In r (ids l) <-> exists x, In (r, x) l.
Proof.
  rewrite in_map_iff. split; [intros ([a b] & E & H); cbn in E; subst; eauto|]. intros [x H]. exists (r, x). auto.
Qed.
Lemma getid_step s h o s' h' g : facts s o s' h' -> getid s h g -> getid s' (h ++ h') g.
Proof.
  intros F (L & P & S). split; [pose proof (f_next _ _ _ _ F); lia|]. split.
  - intro H. apply in_ids in H. destruct H as [x H]. apply P. apply in_ids. exists x. eapply (f_put _ _ _ _ F); eauto.
  - rewrite stored_app, map_app, in_app_iff. intros [H|H]; [exact (S H)|]. apply in_ids in H. destruct H as [x H].
    apply P. apply in_ids. exists x. eapply (f_put _ _ _ _ F); eauto.
Qed.
Lemma putid_step s h o s' h' p : facts s o s' h' -> putid s h p -> putid s' (h ++ h') p.
Proof.
  intros F (L & P & S). split; [pose proof (f_next _ _ _ _ F); lia|]. split.
  - intro H. apply P. eapply (f_get _ _ _ _ F); eauto.
  - rewrite taken_app, map_app, in_app_iff. intros [H|H]; [exact (S H)|]. apply P. eapply (f_get _ _ _ _ F); eauto.
Qed.
Lemma over_step s h o s' h' g : SFull s h -> facts s o s' h' -> SFull s' (h ++ h') -> over_with s h g ->
  over_with s' (h ++ h') g /\ ~ In g (ids (delivered h')).
Proof.
  intros F X F' [S|[C|[D G]]].
  - split; [left; apply settled_app; exact S|]. intro H. apply in_ids in H. destruct H as [x H]. apply (f_del _ _ _ _ X) in H.
    apply (handed_not_flight s h g F S). apply in_ids. exists x. apply H.
  - split; [right; left; unfold FateSpec.cancelled; rewrite flat_map_app; apply in_or_app; left; exact C|].
    intro H. apply in_ids in H. destruct H as [x H]. apply (f_del _ _ _ _ X) in H. destruct (SF_NoDup s h F) as (_ & _ & N & _).
    apply (proj1 (N g C)). apply (taken_ids s h g F). right. apply in_ids. exists x. apply H.
  - split.
    + assert (T : In g (ids (taken (h ++ h')))).
      { rewrite taken_app, map_app, in_app_iff. left. apply (taken_ids s h g F). auto. }
      apply (taken_ids s' _ g F') in T. destruct T as [T|T]; [left; exact T|]. right. right. split; [exact T|]. apply (f_gone_mono _ _ _ _ X). exact G.
    + intro H. apply in_ids in H. destruct H as [x H]. apply (f_del _ _ _ _ X) in H. apply H. exact G.
Qed.

(** ** What the routine notices *)
Definition with_got (w : wst) (x : A) : wst :=
  mkW (w_s w) (w_phase w) (w_result w) (Some x) true (w_deadline w) (w_over w) (w_gets w) (w_puts w).
Definition with_phase (w : wst) (p : wphase) : wst :=
  mkW (w_s w) p (w_result w) (w_got w) (w_fired w) (w_deadline w) (w_over w) (w_gets w) (w_puts w).
Lemma fold_wait_none r h' : forall w, w_phase w = PWait r -> ~ In r (ids (delivered h')) -> fold_left notice h' w = w.
Proof.
  induction h' as [|e h' IH]; intros w P N; [reflexivity|]. cbn [fold_left].
  assert (E : notice w e = w).
  { unfold WinModel.notice. rewrite P. destruct e; try reflexivity. destruct (Nat.eqb r0 r) eqn:E; [|reflexivity]. apply Nat.eqb_eq in E. subst.
    exfalso. apply N. left. reflexivity. }
  rewrite E. apply IH; [exact P|]. intro H. apply N. destruct e; cbn; auto.
Qed.
Lemma fold_wait_got r x h' : forall w, w_phase w = PWait r -> delivered h' = [(r, x)] -> fold_left notice h' w = with_got w x.
Proof.
  induction h' as [|e h' IH]; intros w P D; [discriminate|]. cbn [fold_left]. unfold StoreSpec.delivered in D. cbn [flat_map] in D.
  fold (delivered h') in D. destruct e; cbn [app] in D; try (assert (E : forall v, notice w v = w \/ True) by auto;
    unfold WinModel.notice at 2; rewrite P; apply IH; assumption).
  inversion D; subst. unfold WinModel.notice at 2. rewrite P, Nat.eqb_refl. rewrite (fold_wait_none r); [unfold with_got; rewrite P; reflexivity|cbn; auto|].
  match goal with H : delivered h' = [] |- _ => rewrite H end. intros [].
Qed.
Lemma fold_other h' : forall w, (forall r, w_phase w <> PWait r) -> (forall p, w_phase w <> PBack (Some p)) -> fold_left notice h' w = w.
Proof.
  induction h' as [|e h' IH]; intros w P1 P2; [reflexivity|]. cbn [fold_left].
  assert (E : notice w e = w).
  { unfold WinModel.notice. destruct (w_phase w) as [|r| |[p|]| |] eqn:E; try reflexivity; exfalso; [eapply P1|eapply P2]; reflexivity. }
  rewrite E. apply IH; assumption.
Qed.
Lemma fold_back p h' : forall w, w_phase w = PBack (Some p) ->
  fold_left notice h' w = if existsb (Nat.eqb p) (ids (putdone h')) then with_phase w (PBack None) else w.
Proof.
  induction h' as [|e h' IH]; intros w P; [reflexivity|]. cbn [fold_left].
  unfold putdone. cbn [flat_map]. fold (putdone h'). destruct e; cbn [app map fst existsb]; try (unfold WinModel.notice at 2; rewrite P; apply IH; exact P).
  unfold WinModel.notice at 2. rewrite P, (Nat.eqb_sym r p). destruct (Nat.eqb p r) eqn:E; cbn [orb]; [|apply IH; exact P].
  rewrite fold_other; [reflexivity| |]; intros; discriminate.
Qed.
Lemma fold_store h' : forall w s, fold_left notice h' (set_store A w s) = set_store A (fold_left notice h' w) s.
Proof.
  induction h' as [|e h' IH]; intros w s; [reflexivity|]. cbn [fold_left]. rewrite <- IH.
  assert (E : notice (set_store A w s) e = set_store A (notice w e) s); [|rewrite E; reflexivity].
  unfold WinModel.notice. unfold set_store at 1. cbn [w_phase]. destruct (w_phase w) as [|r| |[p|]| |] eqn:Ph; destruct e; try reflexivity;
    match goal with |- context [Nat.eqb ?a ?b] => destruct (Nat.eqb a b) end; unfold set_store; cbn; rewrite ?Ph; reflexivity.
Qed.

(** ** The invariant *)
Lemma of_app g a b : of_requests g (a ++ b) = of_requests g a ++ of_requests g b.
Proof. unfold WinSpec.of_requests. rewrite filter_app, map_app. reflexivity. Qed.
Lemma of_none g l : (forall r, In r g -> ~ In r (ids l)) -> of_requests g l = [].
Proof.
  intro H. unfold WinSpec.of_requests. induction l as [|[r x] l IH]; [reflexivity|]. cbn [filter fst].
  destruct (existsb (Nat.eqb r) g) eqn:E.
  - apply existsb_In in E. exfalso. apply (H r E). left. reflexivity.
  - apply IH. intros n Hn Hi. apply (H n Hn). right. exact Hi.
Qed.
Lemma of_one g r x : In r g -> of_requests g [(r, x)] = [x].
Proof. intro H. unfold WinSpec.of_requests. cbn [filter fst]. rewrite (proj2 (existsb_In r g) H). reflexivity. Qed.
Lemma of_fresh g n l : ~ In n (ids l) -> of_requests (g ++ [n]) l = of_requests g l.
Proof.
  intro H. unfold WinSpec.of_requests. f_equal. induction l as [|[r x] l IH]; [reflexivity|]. cbn [filter fst].
  rewrite existsb_app. cbn [existsb]. assert (E : Nat.eqb r n = false) by (apply Nat.eqb_neq; intro; subst; apply H; left; reflexivity).
  rewrite E, !orb_false_r. rewrite IH; [reflexivity|]. intro Hi. apply H. right. exact Hi.
Qed.
Definition opt (x : option A) : list A := match x with Some y => [y] | None => [] end.

Definition phase_ok (w : wst) (h : list happening) : Prop :=
  let D := of_requests (w_gets w) (delivered h) in
  match w_phase w with
  | PStart => w_gets w = [] /\ w_puts w = [] /\ w_result w = []
  | PWait r => w_puts w = [] /\ (exists old, w_gets w = old ++ [r] /\ (forall g, In g old -> settled h g)) /\
      ~ In r (s_gone (w_s w)) /\ ~ In r (cancelled h) /\ D = w_result w ++ opt (w_got w) /\
      (w_got w = None -> ~ settled h r) /\ (w_got w <> None -> settled h r /\ w_fired w = true)
  | PDone => w_puts w = [] /\ (forall g, In g (w_gets w) -> over_with (w_s w) h g) /\ D = w_result w
  | PBack None => (forall g, In g (w_gets w) -> over_with (w_s w) h g) /\ (forall p, In p (w_puts w) -> In p (ids (stored h))) /\
      of_requests (w_puts w) (stored h) ++ w_result w = D
  | PBack (Some p) => (forall g, In g (w_gets w) -> over_with (w_s w) h g) /\ In p (w_puts w) /\
      (forall q, In q (w_puts w) -> q <> p -> In q (ids (stored h))) /\
      ((exists x, In (p, x) (s_putq (w_s w)) /\ of_requests (w_puts w) (stored h) ++ x :: w_result w = D) \/
       (In p (ids (stored h)) /\ of_requests (w_puts w) (stored h) ++ w_result w = D))
  | PFinished => (forall g, In g (w_gets w) -> over_with (w_s w) h g) /\ (forall p, In p (w_puts w) -> In p (ids (stored h))) /\
      w_result w = [] /\ of_requests (w_puts w) (stored h) = D
  | PBroken => True
  end.
Record WI (w : wst) (h : list happening) : Prop := mkWI {
  wi_s : SFull (w_s w) h;
  wi_gone : forall r, In r (s_gone (w_s w)) -> (r < s_next (w_s w))%nat;
  wi_gets : forall g, In g (w_gets w) -> getid (w_s w) h g;
  wi_puts : forall p, In p (w_puts w) -> putid (w_s w) h p;
  wi_phase : phase_ok w h }.

Lemma gone_step s h o s' h' : SFull s h -> facts s o s' h' -> (forall r, In r (s_gone s) -> (r < s_next s)%nat) ->
  forall r, In r (s_gone s') -> (r < s_next s')%nat.
Proof.
  intros F X B r H. pose proof (f_next _ _ _ _ X) as N. apply (f_gone _ _ _ _ X) in H. destruct H as [H|[_ H]]; [apply B in H; lia|].
  unfold granted_get in H. assert (In r (ids (taken h))) by (apply (taken_ids s h r F); auto).
  assert (r < s_next s)%nat by (apply (SF_bound s h F); auto). lia.
Qed.
Lemma cancelled_app' a b : cancelled (a ++ b) = cancelled a ++ cancelled b.
Proof. apply flat_map_app. Qed.
(** Stored items of settled puts do not change. *)
Lemma stored_mine s h o s' h' P : SFull s h -> facts s o s' h' -> (forall p, In p P -> (p < s_next s)%nat) -> (forall p, In p P -> In p (ids (stored h))) -> of_requests P (stored h') = [].
Proof.
  intros F X B H. apply of_none. intros p Hp Hi. apply in_ids in Hi. destruct Hi as [x Hi].
  destruct (SF_NoDup s h F) as (_ & _ & _ & _ & N & _). apply (N p); [|apply H; exact Hp].
  apply in_ids. exists x. apply (f_put _ _ _ _ X p x (B p Hp)). auto.
Qed.

(** Others' operations. *)
Lemma store_step w h o s' h' : WI w h -> step (w_s w) o = (s', h') ->
  (match o with OpCancel r => mine A w r = false | _ => True end) ->
  WI (fold_left notice h' (set_store A w s')) (h ++ h').
Proof.
  intros [F G IG IP PH] E AL. pose proof (step_facts _ _ _ _ E) as X. pose proof (step_SFull _ _ _ _ _ F E) as F'.
  assert (NC : forall r, In r (w_gets w) \/ In r (w_puts w) -> ~ In r (cancelled h')).
  { intros r Hr Hc. apply (f_cancel _ _ _ _ X) in Hc. subst o. unfold mine in AL. apply orb_false_elim in AL. destruct AL as [A1 A2].
    destruct Hr as [Hr|Hr]; apply existsb_In in Hr; congruence. }
  assert (G' := gone_step _ _ _ _ _ F X G).
  assert (IG' : forall g, In g (w_gets w) -> getid s' (h ++ h') g) by (intros g Hg; eapply getid_step; eauto).
  assert (IP' : forall p, In p (w_puts w) -> putid s' (h ++ h') p) by (intros p Hp; eapply putid_step; eauto).
  assert (OV : (forall g, In g (w_gets w) -> over_with (w_s w) h g) ->
     (forall g, In g (w_gets w) -> over_with s' (h ++ h') g) /\ of_requests (w_gets w) (delivered (h ++ h')) = of_requests (w_gets w) (delivered h)).
  { intro H. split; [intros g Hg; apply (over_step _ _ _ _ _ _ F X F' (H g Hg))|]. rewrite delivered_app, of_app, (of_none (w_gets w) (delivered h')); [apply app_nil_r|].
    intros g Hg. apply (over_step _ _ _ _ _ _ F X F' (H g Hg)). }
  assert (BP : forall p, In p (w_puts w) -> (p < s_next (w_s w))%nat) by (intros p Hp; apply (IP p Hp)).
  unfold phase_ok in PH. rewrite fold_store.
  destruct (w_phase w) as [|r| |[p|]| |] eqn:Ph.
  - rewrite fold_other; [|intros; congruence|intros; congruence]. constructor; cbn [set_store w_s w_gets w_puts]; auto.
    unfold phase_ok. cbn [set_store w_phase w_gets w_puts w_result]. rewrite Ph. exact PH.
  - destruct PH as (P0 & (old & P1 & P2) & P3 & P4 & P5 & P6 & P7).
    assert (RG : In r (w_gets w)) by (rewrite P1; apply in_or_app; right; left; reflexivity).
    assert (NG : ~ In r (s_gone s')).
    { intro H. apply (f_gone _ _ _ _ X) in H. destruct H as [H|[H _]]; [exact (P3 H)|]. subst o. unfold mine in AL. apply orb_false_elim in AL.
      apply existsb_In in RG. destruct AL; congruence. }
    assert (NCr : ~ In r (cancelled (h ++ h'))) by (rewrite cancelled_app', in_app_iff; intros [H|H]; [exact (P4 H)|exact (NC r (or_introl RG) H)]).
    assert (NL : ~ In r (ids (lost h'))) by (intro H; apply in_ids in H; destruct H as [x H]; apply (f_lost _ _ _ _ X) in H; tauto).
    assert (OLD : forall g, In g old -> ~ In g (ids (delivered h'))).
    { intros g Hg. apply (over_step _ _ _ _ _ g F X F'). left. apply P2. exact Hg. }
    pose proof (f_one _ _ _ _ X) as ONE.
    destruct (in_dec Nat.eq_dec r (ids (delivered h'))) as [RD|RD].
    + (* delivered now *)
      assert (DE : exists x, delivered h' = [(r, x)]).
      { destruct (delivered h') as [|[n x] [|? ?]]; [destruct RD| |cbn in ONE; lia]. destruct RD as [RD|[]]. cbn in RD. subst n. eauto. }
      destruct DE as [x DE].
      assert (GN : w_got w = None).
      { destruct (w_got w) eqn:Eg; [|reflexivity]. exfalso. destruct (P7 ltac:(discriminate)) as [S _].
        apply (handed_not_flight _ _ r F S). assert (H : In (r, x) (delivered h')) by (rewrite DE; left; reflexivity).
        apply (f_del _ _ _ _ X) in H. apply in_ids. exists x. apply H. }
      rewrite (fold_wait_got r x h' w Ph DE). constructor; cbn [with_got set_store w_s w_gets w_puts]; auto.
      unfold phase_ok. cbn [with_got set_store w_phase w_gets w_puts w_result w_s w_got w_fired]. rewrite Ph.
      split; [exact P0|]. split; [exists old; split; [exact P1|intros g Hg; apply settled_app; auto]|]. split; [exact NG|]. split; [exact NCr|].
      split; [|split; [discriminate|]].
      * rewrite delivered_app, of_app, P5, GN, DE. cbn [opt]. rewrite app_nil_r, (of_one _ _ _ RG). reflexivity.
      * intros _. split; [|reflexivity]. unfold settled. rewrite handed_app, map_app, in_app_iff. right. apply handed_ids. left. exact RD.
    + rewrite (fold_wait_none r h' w Ph RD). constructor; cbn [set_store w_s w_gets w_puts]; auto.
      unfold phase_ok. cbn [set_store w_phase w_gets w_puts w_result w_s w_got w_fired]. rewrite Ph.
      split; [exact P0|]. split; [exists old; split; [exact P1|intros g Hg; apply settled_app; auto]|]. split; [exact NG|]. split; [exact NCr|].
      split; [|split].
      * rewrite delivered_app, of_app, P5, (of_none (w_gets w) (delivered h')); [apply app_nil_r|]. intros g Hg. rewrite P1 in Hg.
        apply in_app_or in Hg. destruct Hg as [Hg|[<-|[]]]; [apply OLD; exact Hg|exact RD].
      * intros Hn H. unfold settled in H. rewrite handed_app, map_app, in_app_iff in H. destruct H as [H|H]; [exact (P6 Hn H)|].
        apply handed_ids in H. tauto.
      * intro Hn. destruct (P7 Hn) as [S Fi]. split; [apply settled_app; exact S|exact Fi].
  - destruct PH as (P0 & P1 & P2). destruct (OV P1) as [O1 O2].
    rewrite fold_other; [|intros; congruence|intros; congruence]. constructor; cbn [set_store w_s w_gets w_puts]; auto.
    unfold phase_ok. cbn [set_store w_phase w_gets w_puts w_result w_s]. rewrite Ph, O2. auto.
  - destruct PH as (P1 & P2 & P3 & P4). destruct (OV P1) as [O1 O2].
    assert (PS : forall q, In q (w_puts w) -> q <> p -> In q (ids (stored (h ++ h')))) by (intros q Hq Hn; rewrite stored_app, map_app, in_app_iff; left; auto).
    assert (OTH : forall q, In q (w_puts w) -> q <> p -> ~ In q (ids (stored h'))).
    { intros q Hq Hn Hi. apply in_ids in Hi. destruct Hi as [x Hi]. destruct (SF_NoDup _ _ F) as (_ & _ & _ & _ & N & _). apply (N q); [|apply P3; assumption].
      apply in_ids. exists x. apply (f_put _ _ _ _ X q x (BP q Hq)). auto. }
    assert (NEW : (exists x, In (p, x) (s_putq s') /\ of_requests (w_puts w) (stored (h ++ h')) ++ x :: w_result w = of_requests (w_gets w) (delivered (h ++ h'))) \/
                  (In p (ids (stored (h ++ h'))) /\ of_requests (w_puts w) (stored (h ++ h')) ++ w_result w = of_requests (w_gets w) (delivered (h ++ h')))).
    { rewrite O2, stored_app, of_app. destruct P4 as [(x & Q1 & Q2)|[Q1 Q2]].
      - assert (LOC : In (p, x) (s_putq s') \/ stored h' = [(p, x)]).
        { assert (FB : In p (ids (s_putq s')) \/ In p (ids (stored (h ++ h')))).
          { assert (BB : (p < s_next s')%nat) by (apply (IP' p P2)). apply (SF_bound _ _ F') in BB. destruct (IP' p P2) as (_ & NQ & NT).
            destruct BB as [BB|[BB|[BB|[BB|BB]]]]; try tauto.
            rewrite cancelled_app' in BB. apply in_app_or in BB. destruct BB as [BB|BB]; [|exfalso; exact (NC p (or_intror P2) BB)].
            exfalso. destruct (SF_NoDup _ _ F) as (_ & _ & N & _). apply (proj2 (proj2 (proj2 (N p BB)))). apply in_ids. exists x. exact Q1. }
          destruct (SF_NoDup _ _ F) as (_ & _ & _ & _ & ND & NQ).
          assert (UN : forall y, In (p, y) (s_putq (w_s w)) -> y = x).
          { intros y Hy. clear - NQ Hy Q1. induction (s_putq (w_s w)) as [|[a b] l IH]; [destruct Hy|]. cbn in NQ. inversion NQ; subst.
            destruct Hy as [Hy|Hy], Q1 as [Q1|Q1]; try congruence; [| |auto].
            - inversion Hy; subst. exfalso. apply H1. apply in_map_iff. exists (p, x). auto.
            - inversion Q1; subst. exfalso. apply H1. apply in_map_iff. exists (p, y). auto. }
          destruct FB as [FB|FB].
          - left. apply in_ids in FB. destruct FB as [y FB]. rewrite <- (UN y) at 1; [exact FB|]. apply (f_put _ _ _ _ X p y (BP p P2)). auto.
          - rewrite stored_app, map_app, in_app_iff in FB. destruct FB as [FB|FB].
            + exfalso. apply (ND p); [|exact FB]. apply in_ids. exists x. exact Q1.
            + right. assert (L1 : (length (stored h') <= 1)%nat).
              { clear - E. destruct o as [y|g|r| |t]; cbn [StoreModel.step] in E.
                - unfold op_put in E. apply put_facts in E. apply E.
                - unfold op_get in E. apply get_facts in E. destruct E as (-> & _). cbn. lia.
                - unfold op_cancel in E. injection E as _ <-. destruct (_ || _); cbn; lia.
                - unfold op_process in E. destruct (s_agenda (w_s w)) as [|e ag]; [injection E as _ <-; cbn; lia|]. destruct e as [r y|r y].
                  + destruct (trig_get _) as [s2 h2] eqn:Et. injection E as _ <-. apply get_facts in Et. destruct Et as (Et & _).
                    rewrite stored_app, Et. cbn. lia.
                  + destruct (trig_put _) as [s2 h2] eqn:Et. injection E as _ <-. apply put_facts in Et.
                    destruct Et as (_&_&_&_&_&_&_&_&_&_&_&_& Et). rewrite stored_app, app_length. destruct (existsb _ _); cbn; lia.
                - unfold op_time in E. destruct (s_agenda (w_s w)); [destruct (Qleb _ _)|]; injection E as _ <-; cbn; lia. }
              apply in_ids in FB. destruct FB as [y FB]. assert (y = x) by (apply UN; apply (f_put _ _ _ _ X p y (BP p P2)); auto). subst y.
              destruct (stored h') as [|e [|? ?]]; [destruct FB| |cbn in L1; lia]. destruct FB as [FB|[]]. congruence. }
        destruct LOC as [LOC|LOC].
        + destruct (in_dec Nat.eq_dec p (ids (stored h'))) as [Hi|Hi].
          * exfalso. destruct (SF_NoDup _ _ F') as (_ & _ & _ & _ & N & _). apply (N p); [apply in_ids; exists x; exact LOC|].
            rewrite stored_app, map_app, in_app_iff. auto.
          * left. exists x. split; [exact LOC|]. rewrite (of_none (w_puts w) (stored h')); [rewrite app_nil_r; exact Q2|].
            intros q Hq. destruct (Nat.eq_dec q p) as [->|Hn]; [exact Hi|apply OTH; assumption].
        + right. rewrite LOC. split; [rewrite map_app; apply in_or_app; right; left; reflexivity|].
          rewrite (of_one _ _ _ P2), <- app_assoc. exact Q2.
      - right. split; [rewrite map_app; apply in_or_app; left; exact Q1|].
        rewrite (of_none (w_puts w) (stored h')); [rewrite app_nil_r; exact Q2|].
        intros q Hq. destruct (Nat.eq_dec q p) as [->|Hn]; [|apply OTH; assumption].
        intro Hi. apply in_ids in Hi. destruct Hi as [x Hi]. destruct (SF_NoDup _ _ F) as (_ & _ & _ & _ & N & _). apply (N p); [|exact Q1].
        apply in_ids. exists x. apply (f_put _ _ _ _ X p x (BP p P2)). auto. }
    rewrite (fold_back p h' w Ph). destruct (existsb (Nat.eqb p) (ids (putdone h'))) eqn:EX.
    + constructor; cbn [with_phase set_store w_s w_gets w_puts]; auto.
      unfold phase_ok. cbn [with_phase set_store w_phase w_gets w_puts w_result w_s]. split; [exact O1|].
      assert (PSt : In p (ids (stored (h ++ h')))).
      { apply existsb_In in EX. apply in_ids in EX. destruct EX as [x EX]. apply (f_done _ _ _ _ X) in EX. rewrite stored_app, map_app, in_app_iff. left.
        rewrite <- (sf_puts _ _ F), map_app, in_app_iff. right. apply in_ids. eauto. }
      split.
      * intros q Hq. destruct (Nat.eq_dec q p) as [->|Hn]; [exact PSt|apply PS; assumption].
      * destruct NEW as [(x & Q1 & _)|[_ Q2]]; [|exact Q2]. exfalso. destruct (SF_NoDup _ _ F') as (_ & _ & _ & _ & N & _). apply (N p); [|exact PSt].
        apply in_ids. eauto.
    + constructor; cbn [set_store w_s w_gets w_puts]; auto.
      unfold phase_ok. cbn [set_store w_phase w_gets w_puts w_result w_s]. rewrite Ph. auto.
  - destruct PH as (P1 & P2 & P3). destruct (OV P1) as [O1 O2].
    rewrite fold_other; [|intros; congruence|intros; congruence]. constructor; cbn [set_store w_s w_gets w_puts]; auto.
    unfold phase_ok. cbn [set_store w_phase w_gets w_puts w_result w_s]. rewrite Ph, O2. split; [exact O1|]. split.
    + intros p Hp. rewrite stored_app, map_app, in_app_iff. auto.
    + rewrite stored_app, of_app, (stored_mine _ _ _ _ _ _ F X BP P2), app_nil_r. exact P3.
  - destruct PH as (P1 & P2 & P3 & P4). destruct (OV P1) as [O1 O2].
    rewrite fold_other; [|intros; congruence|intros; congruence]. constructor; cbn [set_store w_s w_gets w_puts]; auto.
    unfold phase_ok. cbn [set_store w_phase w_gets w_puts w_result w_s]. rewrite Ph, O2. split; [exact O1|]. split; [|split; [exact P3|]].
    + intros p Hp. rewrite stored_app, map_app, in_app_iff. auto.
    + rewrite stored_app, of_app, (stored_mine _ _ _ _ _ _ F X BP P2), app_nil_r. exact P4.
  - rewrite fold_other; [|intros; congruence|intros; congruence]. constructor; cbn [set_store w_s w_gets w_puts]; auto.
    unfold phase_ok. cbn [set_store w_phase]. rewrite Ph. exact I.
Qed.

(** ** The routine's own moves *)
Lemma get_step w h res first s' h' : WI w h -> op_get A eqb truthy item_func (w_s w) req = (s', h') ->
  (forall g, In g (w_gets w) -> settled h g) -> w_puts w = [] -> of_requests (w_gets w) (delivered h) = res ->
  forall w', next_get w res first = (w', h') -> WI w' (h ++ h').
Proof.
  intros [F G IG IP PH] E ST PU D w' N. assert (E' : step (w_s w) (OpGet req) = (s', h')) by exact E.
  pose proof (step_facts _ _ _ _ E') as X. pose proof (step_SFull _ _ _ _ _ F E') as F'.
  unfold WinModel.next_get in N. rewrite E in N. injection N as <-.
  unfold op_get in E. apply get_facts in E. cbn [s_next s_gone s_now s_getq s_putq] in E.
  destruct E as (E1 & E2 & E3 & E4 & E5 & E6 & E7 & E8 & E9 & E10 & E11 & E12).
  set (n := s_next (w_s w)) in *.
  assert (NB : forall P : Prop, (P -> (n < n)%nat) -> ~ P) by (intros P HP Hp; apply HP in Hp; lia).
  assert (DL : delivered (h ++ h') = delivered h) by (rewrite delivered_app, E2, app_nil_r; reflexivity).
  assert (SN : s_next s' = S n) by (rewrite E6; reflexivity).
  assert (HS : ~ settled (h ++ h') n).
  { unfold settled. rewrite handed_app, map_app, in_app_iff. intros [H|H].
    - assert (T : (n < s_next (w_s w))%nat) by (apply (SF_bound _ _ F); right; left; apply (taken_ids _ _ _ F); auto). fold n in T. lia.
    - apply handed_ids in H. rewrite E2, E3 in H. destruct H as [[]|[]]. }
  constructor; cbn [w_s w_gets w_puts].
  - exact F'.
  - exact (gone_step _ _ _ _ _ F X G).
  - intros g Hg. apply in_app_or in Hg. destruct Hg as [Hg|[<-|[]]]; [eapply getid_step; eauto|].
    split; [lia|]. split.
    + rewrite E9. apply NB. intro H. apply (SF_bound _ _ F). tauto.
    + rewrite stored_app, E1, app_nil_r. apply NB. intro H. apply (SF_bound _ _ F). tauto.
  - intros p Hp. rewrite PU in Hp. destruct Hp.
  - unfold phase_ok. cbn [w_phase w_puts w_gets w_s w_result w_got w_fired]. split; [exact PU|].
    split; [exists (w_gets w); split; [reflexivity|intros g Hg; apply settled_app; auto]|].
    split; [rewrite E7; apply NB; apply G|]. split; [|split; [|split]].
    + rewrite cancelled_app', E4, app_nil_r. apply NB. intro H. apply (SF_bound _ _ F). tauto.
    + rewrite DL, of_fresh, D; [cbn; rewrite app_nil_r; reflexivity|]. intro H. apply HS. apply settled_app. apply handed_ids. auto.
    + intros _. exact HS.
    + intro H. congruence.
Qed.

Lemma cancel_step w h r s' h' ph : WI w h -> w_phase w = PWait r -> w_got w = None -> op_cancel A (w_s w) r = (s', h') ->
  ph = PDone \/ ph = PBack None ->
  WI (mkW s' ph (w_result w) None false (w_deadline w) (w_over w) (w_gets w) (w_puts w)) (h ++ h').
Proof.
  intros [F G IG IP PH] Ph GN E PP. assert (E' : step (w_s w) (OpCancel r) = (s', h')) by exact E.
  pose proof (step_facts _ _ _ _ E') as X. pose proof (step_SFull _ _ _ _ _ F E') as F'.
  unfold phase_ok in PH. rewrite Ph in PH. destruct PH as (P0 & (old & P1 & P2) & P3 & P4 & P5 & P6 & P7).
  assert (DE : delivered h' = []) by (unfold op_cancel in E; injection E as _ <-; destruct (_ || _); reflexivity).
  assert (OV : forall g, In g (w_gets w) -> over_with s' (h ++ h') g).
  { intros g Hg. rewrite P1 in Hg. apply in_app_or in Hg. destruct Hg as [Hg|[<-|[]]].
    - left. apply settled_app. apply P2. exact Hg.
    - assert (RG : In r (w_gets w)) by (rewrite P1; apply in_or_app; right; left; reflexivity).
      destruct (IG r RG) as (B & NQ & NS). apply (SF_bound _ _ F) in B. destruct B as [B|[B|[B|[B|B]]]]; try contradiction.
      + apply (taken_ids _ _ _ F) in B. destruct B as [B|B]; [exfalso; exact (P6 GN B)|].
        right. right. unfold op_cancel in E. injection E as <- _. cbn [s_gone]. split; [unfold StoreSpec.in_flight; cbn [s_agenda]; exact B|].
        assert (EX : existsb (is_get_of A r) (s_agenda (w_s w)) = true).
        { apply existsb_exists. apply in_ids in B. destruct B as [x B]. unfold StoreSpec.in_flight in B. apply in_flat_map in B.
          destruct B as ([n y|n y] & B1 & B2); [destruct B2|]. destruct B2 as [B2|[]]. inversion B2; subst. eexists. split; [exact B1|]. cbn. apply Nat.eqb_refl. }
        rewrite EX. left. reflexivity.
      + right. left. rewrite cancelled_app', in_app_iff. right. unfold op_cancel in E. injection E as _ <-.
        assert (EX : existsb (is_rid r) (s_getq (w_s w)) = true).
        { apply existsb_exists. apply in_ids in B. destruct B as [x B]. exists (r, x). split; [exact B|]. unfold is_rid. cbn. apply Nat.eqb_refl. }
        rewrite EX, orb_true_r. left. reflexivity. }
  assert (DD : of_requests (w_gets w) (delivered (h ++ h')) = w_result w).
  { rewrite delivered_app, DE, app_nil_r, P5, GN. apply app_nil_r. }
  constructor; cbn [w_s w_gets w_puts].
  - exact F'.
  - exact (gone_step _ _ _ _ _ F X G).
  - intros g Hg. eapply getid_step; eauto.
  - intros p Hp. eapply putid_step; eauto.
  - destruct PP as [->| ->]; unfold phase_ok; cbn [w_phase w_puts w_gets w_s w_result]; [auto|].
    rewrite P0, DD. split; [exact OV|]. split; [intros p []|]. rewrite of_none; [reflexivity|]. intros p [].
Qed.

Lemma put_step w h x l s' h' : WI w h -> w_phase w = PBack None -> w_result w = x :: l -> op_put A item_func (w_s w) x = (s', h') ->
  WI (mkW s' (PBack (Some (s_next (w_s w)))) l (w_got w) (w_fired w) (w_deadline w) (w_over w) (w_gets w) (w_puts w ++ [s_next (w_s w)])) (h ++ h').
Proof.
  intros [F G IG IP PH] Ph R E. assert (E' : step (w_s w) (OpPut x) = (s', h')) by exact E.
  pose proof (step_facts _ _ _ _ E') as X. pose proof (step_SFull _ _ _ _ _ F E') as F'.
  unfold phase_ok in PH. rewrite Ph in PH. destruct PH as (P1 & P2 & P3).
  unfold op_put in E. apply put_facts in E. cbn [s_next s_gone s_now s_getq s_putq] in E.
  destruct E as (E1 & E2 & E3 & E4 & E5 & E6 & E7 & E8 & E9 & E10 & E11 & E12 & E13).
  set (n := s_next (w_s w)) in *.
  assert (NB : forall P : Prop, (P -> (n < n)%nat) -> ~ P) by (intros P HP Hp; apply HP in Hp; lia).
  assert (DL : delivered (h ++ h') = delivered h) by (rewrite delivered_app, E2, app_nil_r; reflexivity).
  assert (SN : s_next s' = S n) by (rewrite E6; reflexivity).
  assert (NPQ : ~ In n (ids (s_putq (w_s w)))) by (apply NB; intro H; apply (SF_bound _ _ F); tauto).
  assert (NST : ~ In n (ids (stored h))) by (apply NB; intro H; apply (SF_bound _ _ F); tauto).
  constructor; cbn [w_s w_gets w_puts].
  - exact F'.
  - exact (gone_step _ _ _ _ _ F X G).
  - intros g Hg. eapply getid_step; eauto.
  - intros p Hp. apply in_app_or in Hp. destruct Hp as [Hp|[<-|[]]]; [eapply putid_step; eauto|].
    split; [lia|]. split.
    + rewrite E9. apply NB. intro H. apply (SF_bound _ _ F). tauto.
    + rewrite taken_app, E1, app_nil_r. apply NB. intro H. apply (SF_bound _ _ F). tauto.
  - unfold phase_ok. cbn [w_phase w_puts w_gets w_s w_result]. split; [intros g Hg; apply (over_step _ _ _ _ _ g F X F' (P1 g Hg))|].
    split; [apply in_or_app; right; left; reflexivity|]. split.
    { intros q Hq Hn. apply in_app_or in Hq. destruct Hq as [Hq|[<-|[]]]; [|congruence]. rewrite stored_app, map_app, in_app_iff. auto. }
    rewrite DL, stored_app, of_app, (of_fresh _ _ (stored h)), <- P3, R by exact NST.
    assert (LOC : In (n, x) (stored h' ++ s_putq s')) by (rewrite <- E12; apply in_or_app; right; left; reflexivity).
    apply in_app_or in LOC. destruct LOC as [LOC|LOC].
    + right. destruct (stored h') as [|e [|? ?]]; [destruct LOC| |cbn in E13; lia]. destruct LOC as [LOC|[]]. subst e.
      split; [rewrite map_app; apply in_or_app; right; left; reflexivity|].
      rewrite of_one by (apply in_or_app; right; left; reflexivity). rewrite <- app_assoc. reflexivity.
    + left. exists x. split; [exact LOC|]. rewrite (of_none _ (stored h')); [rewrite app_nil_r; reflexivity|].
      intros q Hq Hi. apply in_app_or in Hq. destruct Hq as [Hq|[<-|[]]].
      * apply in_ids in Hi. destruct Hi as [y Hi]. destruct (SF_NoDup _ _ F) as (_ & _ & _ & _ & N & _). apply (N q); [|apply P2; exact Hq].
        apply in_ids. exists y. apply (f_put _ _ _ _ X q y); [apply (IP q Hq)|auto].
      * destruct (SF_NoDup _ _ F') as (_ & _ & _ & _ & N & _). apply (N n); [apply in_ids; eauto|]. rewrite stored_app, map_app, in_app_iff. auto.
Qed.

Lemma step_WI w o w' h' a h : WI w h -> wstep w o = (w', h', a) -> WI w' (h ++ h').
Proof.
  intros I E. destruct o as [|o| | | |]; cbn [WinModel.wstep] in E.
  - destruct (w_phase w) eqn:Ph; try (injection E as <- <- <-; rewrite app_nil_r; exact I).
    destruct (next_get w [] true) as [w1 h1] eqn:N. injection E as <- <- <-.
    pose proof (wi_phase _ _ I) as PH. unfold phase_ok in PH. rewrite Ph in PH. destruct PH as (G0 & P0 & R0).
    destruct (op_get A eqb truthy item_func (w_s w) req) as [s2 h2] eqn:E2.
    assert (h2 = h1) by (unfold WinModel.next_get in N; rewrite E2 in N; congruence). subst h2.
    apply (get_step w h [] true s2 h1 I E2); [| |  |exact N].
    + rewrite G0. intros g [].
    + exact P0.
    + rewrite G0. apply of_none. intros g [].
  - destruct (match o with OpCancel r => negb (mine A w r) | OpTime t => may_pass A w t | _ => true end) eqn:AL;
      [|injection E as <- <- <-; rewrite app_nil_r; exact I].
    destruct (step (w_s w) o) as [s' h1] eqn:Es. injection E as <- <- <-. eapply store_step; eauto.
    destruct o; auto. apply negb_true_iff in AL. exact AL.
  - destruct (w_phase w) eqn:Ph; try (injection E as <- <- <-; rewrite app_nil_r; exact I).
    destruct (w_deadline w) as [d|] eqn:Ed; [|injection E as <- <- <-; rewrite app_nil_r; exact I].
    destruct (negb (w_over w) && Qeqb (s_now (w_s w)) d); injection E as <- <- <-; rewrite app_nil_r; [|exact I].
    destruct I as [F G IG IP PH]. constructor; cbn [w_s w_gets w_puts]; auto.
    unfold phase_ok in *. cbn [w_phase w_puts w_gets w_s w_result w_got w_fired]. rewrite Ph in PH.
    destruct PH as (P0 & P1 & P3 & P4 & P5 & P6 & P7). repeat (split; [assumption|]). intro H. split; [apply (P7 H)|reflexivity].
  - destruct (w_phase w) as [|r| |[p|]| |] eqn:Ph; try (injection E as <- <- <-; rewrite app_nil_r; exact I).
    destruct (w_fired w) eqn:Fi; [|injection E as <- <- <-; rewrite app_nil_r; exact I].
    destruct (w_got w) as [x|] eqn:Gt.
    + destruct (next_get w (w_result w ++ [x]) false) as [w1 h1] eqn:N. injection E as <- <- <-.
      pose proof (wi_phase _ _ I) as PH. unfold phase_ok in PH. rewrite Ph in PH. destruct PH as (P0 & (old & P1 & P2) & P3 & P4 & P5 & P6 & P7).
      destruct (op_get A eqb truthy item_func (w_s w) req) as [s2 h2] eqn:E2.
      assert (h2 = h1) by (unfold WinModel.next_get in N; rewrite E2 in N; congruence). subst h2.
      apply (get_step w h (w_result w ++ [x]) false s2 h1 I E2); [|exact P0| |exact N].
      * intros g Hg. rewrite P1 in Hg. apply in_app_or in Hg. destruct Hg as [Hg|[<-|[]]]; [auto|]. apply P7. rewrite Gt. discriminate.
      * rewrite P5, Gt. reflexivity.
    + destruct (op_cancel A (w_s w) r) as [s2 h2] eqn:E2. injection E as <- <- <-. eapply cancel_step; eauto.
  - destruct (w_phase w) as [|r| |[p|]| |] eqn:Ph; try (injection E as <- <- <-; rewrite app_nil_r; exact I).
    destruct (w_fired w) eqn:Fi.
    + injection E as <- <- <-. rewrite app_nil_r. destruct I as [F G IG IP PH]. constructor; cbn [w_s w_gets w_puts]; auto. exact Logic.I.
    + destruct (op_cancel A (w_s w) r) as [s2 h2] eqn:E2. injection E as <- <- <-. eapply cancel_step; eauto.
      pose proof (wi_phase _ _ I) as PH. unfold phase_ok in PH. rewrite Ph in PH. destruct PH as (P0 & _ & P3 & P4 & P5 & P6 & P7).
      destruct (w_got w); [|reflexivity]. destruct P7 as [_ P7]; congruence.
  - destruct (w_phase w) as [|r| |[p|]| |] eqn:Ph; try (injection E as <- <- <-; rewrite app_nil_r; exact I).
    destruct (w_result w) as [|x l] eqn:R.
    + injection E as <- <- <-. rewrite app_nil_r. destruct I as [F G IG IP PH]. constructor; cbn [w_s w_gets w_puts]; auto.
      unfold phase_ok in *. cbn [w_phase w_puts w_gets w_s w_result]. rewrite Ph in PH. destruct PH as (P1 & P2 & P3).
      rewrite R, app_nil_r in P3. auto.
    + destruct (op_put A item_func (w_s w) x) as [s2 h2] eqn:E2. injection E as <- <- <-. eapply put_step; eauto.
Qed.
Lemma init_WI k c t0 : WI (winit A item_func k c t0) [].
Proof.
  constructor; cbn [winit w_s w_gets w_puts].
  - constructor; [reflexivity| |reflexivity]. intro r. reflexivity.
  - intros r [].
  - intros r [].
  - intros r [].
  - unfold phase_ok. cbn. auto.
Qed.
Lemma run_WI os : forall w h, WI w h -> WI (fst (fst (wrun w os))) (h ++ snd (fst (wrun w os))).
Proof.
  induction os as [|o os IH]; intros w h I; cbn [WinModel.wrun].
  - cbn [fst snd]. rewrite app_nil_r. exact I.
  - destruct (wstep w o) as [[w1 h1] a] eqn:E. specialize (IH w1 (h ++ h1) (step_WI _ _ _ _ _ _ I E)).
    destruct (wrun w1 os) as [[w2 h2] l]. cbn [fst snd] in *. rewrite app_assoc. exact IH.
Qed.

(** ** Nothing lost if requests are not given up late *)
Definition TI (w : wst) (h : list happening) : Prop :=
  w_phase w <> PBroken -> forall g, In g (w_gets w) -> ~ In g (s_gone (w_s w)) /\ ~ In g (ids (lost h)).
Lemma lost_app' a b : lost (a ++ b) = lost a ++ lost b.
Proof. apply flat_map_app. Qed.
Lemma op_TI w h s' h' o g : facts (w_s w) o s' h' -> ~ In g (s_gone (w_s w)) -> ~ In g (ids (lost h)) -> (o = OpCancel g -> ~ granted_get A (w_s w) g) ->
  ~ In g (s_gone s') /\ ~ In g (ids (lost (h ++ h'))).
Proof.
  intros X N1 N2 NC. split.
  - intro H. apply (f_gone _ _ _ _ X) in H. destruct H as [H|[H1 H2]]; [exact (N1 H)|exact (NC H1 H2)].
  - rewrite lost_app', map_app, in_app_iff. intros [H|H]; [exact (N2 H)|]. apply in_ids in H. destruct H as [x H]. apply (f_lost _ _ _ _ X) in H. tauto.
Qed.
Lemma fold_fields h' : forall w, w_s (fold_left notice h' w) = w_s w /\ w_gets (fold_left notice h' w) = w_gets w /\ w_puts (fold_left notice h' w) = w_puts w /\
  w_deadline (fold_left notice h' w) = w_deadline w /\ w_over (fold_left notice h' w) = w_over w /\ w_result (fold_left notice h' w) = w_result w /\
  (w_phase (fold_left notice h' w) = w_phase w \/ exists p, w_phase w = PBack (Some p) /\ w_phase (fold_left notice h' w) = PBack None) /\
  (w_fired (fold_left notice h' w) = true -> w_fired w = true \/ w_got (fold_left notice h' w) <> None) /\
  (w_fired w = true -> w_fired (fold_left notice h' w) = true) /\
  (w_got w <> None -> w_got (fold_left notice h' w) <> None).
Proof.
  induction h' as [|e h' IH]; intro w.
  - cbn [fold_left]. repeat (split; [reflexivity|]). repeat split; auto.
  - cbn [fold_left]. specialize (IH (notice w e)). destruct IH as (I1 & I2 & I3 & I4 & I5 & I6 & I7 & I8 & I9 & I10).
    assert (N : notice w e = w \/ (exists x, notice w e = with_got w x) \/ (exists p, w_phase w = PBack (Some p) /\ notice w e = with_phase w (PBack None))).
    { unfold WinModel.notice. destruct (w_phase w) as [|r| |[p|]| |] eqn:Ph; destruct e; auto; destruct (Nat.eqb _ _); auto.
      - right. left. exists x. unfold with_got. rewrite Ph. reflexivity.
      - right. right. exists p. split; reflexivity. }
    destruct N as [N|[[x N]|(p & Pp & N)]]; rewrite N in *.
    + repeat (split; [assumption|]). auto.
    + cbn [with_got w_s w_gets w_puts w_deadline w_over w_result w_phase w_fired w_got] in *. repeat (split; [assumption|]).
      split; [intros _; right; apply I10; discriminate|]. split; [intros _; apply I9; reflexivity|]. intros _. apply I10. discriminate.
    + cbn [with_phase w_s w_gets w_puts w_deadline w_over w_result w_phase w_fired w_got] in *. repeat (split; [assumption|]).
      split; [|auto]. right. exists p. split; [exact Pp|]. destruct I7 as [I7|(q & I7 & _)]; [exact I7|discriminate].
Qed.
Lemma step_TI w o w' h' a h : WI w h -> TI w h -> ~ gives_up_late A w o -> wstep w o = (w', h', a) -> TI w' (h ++ h').
Proof.
  intros I T NL E. 
  assert (SAME : forall ph re go fi de ov pu, (ph <> PBroken -> w_phase w <> PBroken) -> TI (mkW (w_s w) ph re go fi de ov (w_gets w) pu) (h ++ [])).
  { intros ph re go fi de ov pu HP Hb g Hg. cbn in *. rewrite app_nil_r. apply T; auto. }
  assert (SAMEw : TI w (h ++ [])) by (rewrite app_nil_r; exact T).
  assert (GET : forall res first w1 h1, w_phase w <> PBroken -> next_get w res first = (w1, h1) -> TI w1 (h ++ h1)).
  { intros res first w1 h1 HP N _ g Hg. unfold WinModel.next_get in N.
    destruct (op_get A eqb truthy item_func (w_s w) req) as [s2 h2] eqn:E2. injection N as <- <-.
    cbn [w_s w_gets] in *. assert (E2' : step (w_s w) (OpGet req) = (s2, h2)) by exact E2. pose proof (step_facts _ _ _ _ E2') as X.
    apply in_app_or in Hg. destruct Hg as [Hg|[<-|[]]]; [eapply op_TI; eauto; try (apply (T HP _ Hg)); discriminate|].
    eapply op_TI; eauto; try discriminate.
    - intro H. apply (wi_gone _ _ I) in H. lia.
    - intro H. assert (B : (s_next (w_s w) < s_next (w_s w))%nat); [|lia]. apply (SF_bound _ _ (wi_s _ _ I)). right. left.
      apply (taken_ids _ _ _ (wi_s _ _ I)). left. apply handed_ids. auto. }
  assert (CAN : forall r s2 h2 ph re go fi de ov pu, w_phase w = PWait r -> ~ granted_get A (w_s w) r -> op_cancel A (w_s w) r = (s2, h2) ->
     TI (mkW s2 ph re go fi de ov (w_gets w) pu) (h ++ h2)).
  { intros r s2 h2 ph re go fi de ov pu Ph NG E2 _ g Hg. cbn [w_s w_gets] in *.
    assert (E2' : step (w_s w) (OpCancel r) = (s2, h2)) by exact E2. pose proof (step_facts _ _ _ _ E2') as X.
    assert (HB : w_phase w <> PBroken) by congruence.
    eapply op_TI; eauto; try (apply (T HB _ Hg)). congruence. }
  destruct o as [|o| | | |]; cbn [WinModel.wstep] in E.
  - destruct (w_phase w) eqn:Ph; try (injection E as <- <- <-; exact SAMEw).
    destruct (next_get w [] true) as [w1 h1] eqn:N. injection E as <- <- <-. eapply GET; eauto. discriminate.
  - destruct (match o with OpCancel r => negb (mine A w r) | OpTime t => may_pass A w t | _ => true end) eqn:AL;
      [|injection E as <- <- <-; exact SAMEw].
    destruct (step (w_s w) o) as [s' h1] eqn:Es. injection E as <- <- <-. intros HB g Hg.
    destruct (fold_fields h1 (set_store A w s')) as (I1 & I2 & _ & _ & _ & _ & I7 & _). rewrite I1, I2 in *. cbn [set_store w_s w_gets w_phase] in *.
    pose proof (step_facts _ _ _ _ Es) as X.
    assert (HB' : w_phase w <> PBroken) by (destruct I7 as [I7|(p & I7 & _)]; congruence).
    eapply op_TI; eauto; try (apply (T HB' _ Hg)). intros ->. exfalso. apply negb_true_iff in AL. unfold mine in AL. apply orb_false_elim in AL.
    apply existsb_In in Hg. destruct AL; congruence.
  - destruct (w_phase w) eqn:Ph; try (injection E as <- <- <-; exact SAMEw).
    destruct (w_deadline w) as [d|] eqn:Ed; [|injection E as <- <- <-; exact SAMEw].
    destruct (negb (w_over w) && Qeqb (s_now (w_s w)) d); injection E as <- <- <-; [|exact SAMEw]. apply SAME. discriminate.
  - destruct (w_phase w) as [|r| |[p|]| |] eqn:Ph; try (injection E as <- <- <-; exact SAMEw).
    destruct (w_fired w) eqn:Fi; [|injection E as <- <- <-; exact SAMEw].
    destruct (w_got w) as [x|] eqn:Gt.
    + destruct (next_get w (w_result w ++ [x]) false) as [w1 h1] eqn:N. injection E as <- <- <-. eapply GET; eauto. discriminate.
    + destruct (op_cancel A (w_s w) r) as [s2 h2] eqn:E2. injection E as <- <- <-. eapply CAN; eauto.
      intro H. apply NL. unfold gives_up_late. rewrite Ph. auto.
  - destruct (w_phase w) as [|r| |[p|]| |] eqn:Ph; try (injection E as <- <- <-; exact SAMEw).
    destruct (w_fired w) eqn:Fi.
    + injection E as <- <- <-. apply SAME. intros H. contradiction.
    + destruct (op_cancel A (w_s w) r) as [s2 h2] eqn:E2. injection E as <- <- <-. eapply CAN; eauto.
      intro H. apply NL. unfold gives_up_late. rewrite Ph. auto.
  - destruct (w_phase w) as [|r| |[p|]| |] eqn:Ph; try (injection E as <- <- <-; exact SAMEw).
    destruct (w_result w) as [|x l] eqn:R.
    + injection E as <- <- <-. apply SAME. discriminate.
    + destruct (op_put A item_func (w_s w) x) as [s2 h2] eqn:E2. injection E as <- <- <-. intros _ g Hg. cbn [w_s w_gets] in *.
      assert (E2' : step (w_s w) (OpPut x) = (s2, h2)) by exact E2. pose proof (step_facts _ _ _ _ E2') as X.
      assert (HB : w_phase w <> PBroken) by congruence.
      eapply op_TI; eauto; try (apply (T HB _ Hg)). discriminate.
Qed.
Lemma run_TI os : forall w h, WI w h -> TI w h -> timely A eqb truthy item_func req timeout reset w os ->
  TI (fst (fst (wrun w os))) (h ++ snd (fst (wrun w os))).
Proof.
  induction os as [|o os IH]; intros w h I T L; cbn [WinModel.wrun].
  - cbn [fst snd]. rewrite app_nil_r. exact T.
  - cbn [timely] in L. destruct L as [L1 L2]. destruct (wstep w o) as [[w1 h1] a] eqn:E. cbn [fst] in L2.
    specialize (IH w1 (h ++ h1) (step_WI _ _ _ _ _ _ I E) (step_TI _ _ _ _ _ _ I T L1 E) L2).
    destruct (wrun w1 os) as [[w2 h2] l]. cbn [fst snd] in *. rewrite app_assoc. exact IH.
Qed.
Lemma of_handed g h : (forall r, In r g -> ~ In r (ids (lost h))) -> of_requests g (handed_over h) = of_requests g (delivered h).
Proof.
  intro H. induction h as [|e h IH]; [reflexivity|].
  assert (H' : forall r, In r g -> ~ In r (ids (lost h))).
  { intros r Hr Hi. apply (H r Hr). change (e :: h) with ([e] ++ h). rewrite lost_app', map_app, in_app_iff. auto. }
  change (e :: h) with ([e] ++ h). rewrite handed_app, delivered_app, !of_app, (IH H'). f_equal.
  destruct e; try reflexivity. unfold StoreSpec.handed_over, StoreSpec.delivered. cbn [flat_map app]. apply of_none.
  intros n Hn [<-|[]]. apply (H r Hn). left. reflexivity.
Qed.
Lemma of_taken w h : WI w h -> TI w h -> w_phase w <> PBroken ->
  of_requests (w_gets w) (taken h) = of_requests (w_gets w) (delivered h) ++ of_requests (w_gets w) (in_flight (w_s w)).
Proof.
  intros I T HB. rewrite <- (sf_flight _ _ (wi_s _ _ I)), of_app. f_equal. apply of_handed. intros r Hr. apply (T HB r Hr).
Qed.
Lemma over_flight w h : WI w h -> TI w h -> w_phase w <> PBroken -> (forall g, In g (w_gets w) -> over_with (w_s w) h g) ->
  of_requests (w_gets w) (in_flight (w_s w)) = [].
Proof.
  intros I T HB O. apply of_none. intros g Hg Hi. destruct (O g Hg) as [S|[C|[_ D]]].
  - exact (handed_not_flight _ _ _ (wi_s _ _ I) S Hi).
  - destruct (SF_NoDup _ _ (wi_s _ _ I)) as (_ & _ & N & _). apply (proj1 (N g C)). apply (taken_ids _ _ _ (wi_s _ _ I)). auto.
  - apply (proj1 (T HB g Hg)). exact D.
Qed.

(** ** The window *)
Local Notation closes := (closes A timeout reset).
Local Notation accepted := (accepted A).
Lemma step_now s o s' h' : step s o = (s', h') -> s_now s' = s_now s \/ (exists t, o = OpTime t /\ s_now s' = t).
Proof.
  intro E. destruct o as [y|g|r| |t]; cbn [StoreModel.step] in E.
  - left. unfold op_put in E. apply put_facts in E. cbn [s_now] in E. apply E.
  - left. unfold op_get in E. apply get_facts in E. cbn [s_now] in E. apply E.
  - left. unfold op_cancel in E. injection E as <- _. reflexivity.
  - left. unfold op_process in E. destruct (s_agenda s) as [|e ag]; [injection E as <- _; reflexivity|]. destruct e as [r y|r y].
    + destruct (trig_get _) as [s2 h2] eqn:Et. injection E as <- _. apply get_facts in Et. cbn [s_now] in Et. apply Et.
    + destruct (trig_put _) as [s2 h2] eqn:Et. injection E as <- _. apply put_facts in Et. cbn [s_now] in Et. apply Et.
  - unfold op_time in E. destruct (s_agenda s); [destruct (Qleb _ _)|]; injection E as <- _; cbn; auto. right. eauto.
Qed.
Lemma closes_last a x t : reset = true -> closes (a ++ [(x, t)]) = Some (t + timeout).
Proof.
  intro R. unfold WinSpec.closes. destruct (a ++ [(x, t)]) as [|[y u] l] eqn:E; [destruct a; discriminate|]. rewrite R, <- E.
  rewrite app_length. cbn [length]. replace (length a + 1 - 1)%nat with (length a) by lia. rewrite nth_error_app2 by lia. rewrite Nat.sub_diag. reflexivity.
Qed.
Lemma closes_first a x t e : reset = false -> closes ((x, t) :: a ++ e) = closes ((x, t) :: a).
Proof. intro R. unfold WinSpec.closes. rewrite R. reflexivity. Qed.
Lemma closes_none a : closes a = None -> a = [].
Proof.
  destruct a as [|[x t] a]; [auto|]. unfold WinSpec.closes. destruct reset; [|discriminate].
  destruct (nth_error _ _) eqn:E; [discriminate|]. apply nth_error_None in E. cbn [length] in E. lia.
Qed.
Definition WW (w : wst) (acc : list (A * Q)) : Prop :=
  match w_phase w with
  | PStart => acc = []
  | PWait _ => w_result w = map fst acc /\ w_deadline w = closes acc /\
      (w_over w = true -> w_fired w = true /\ exists d, w_deadline w = Some d /\ s_now (w_s w) == d) /\
      (forall d, w_deadline w = Some d -> s_now (w_s w) <= d) /\
      (w_fired w = true -> w_got w = None -> w_over w = true)
  | PDone => w_result w = map fst acc
  | _ => True
  end.
(** What one answer must look like, given the items accepted before. *)
Definition answer_ok (acc : list (A * Q)) (a : wout A) : Prop :=
  match a with
  | WGot x t => forall d, closes acc = Some d -> t <= d
  | WReturned l t => l = map fst acc /\ exists d, closes acc = Some d /\ t == d
  | _ => True
  end.
Definition gains (a : wout A) : list (A * Q) := match a with WGot x t => [(x, t)] | _ => [] end.
Lemma step_WW w o w' h' a h acc : 0 <= timeout -> WI w h -> WW w acc -> wstep w o = (w', h', a) ->
  WW w' (acc ++ gains a) /\ answer_ok acc a.
Proof.
  intros T0 I W E. assert (SAME : WW w (acc ++ gains WOk) /\ WW w (acc ++ gains WIllegal)) by (cbn; rewrite app_nil_r; auto).
  destruct SAME as [_ SAME].
  destruct o as [|o| | | |]; cbn [WinModel.wstep] in E.
  - unfold WW in W. destruct (w_phase w) eqn:Ph; try (injection E as <- <- <-; split; [exact SAME|exact Logic.I]).
    destruct (next_get w [] true) as [w1 h1] eqn:N. injection E as <- <- <-. split; [|exact Logic.I]. subst acc.
    unfold WinModel.next_get in N. destruct (op_get A eqb truthy item_func (w_s w) req) as [s2 h2] eqn:E2. injection N as <- <-.
    unfold WW. cbn. repeat (split; [reflexivity|]). split; [discriminate|]. split; [discriminate|]. discriminate.
  - destruct (match o with OpCancel r => negb (mine A w r) | OpTime t => may_pass A w t | _ => true end) eqn:AL;
      [|injection E as <- <- <-; split; [exact SAME|exact Logic.I]].
    destruct (step (w_s w) o) as [s' h1] eqn:Es. injection E as <- <- <-. split; [|exact Logic.I]. cbn [gains]. rewrite app_nil_r.
    destruct (fold_fields h1 (set_store A w s')) as (I1 & I2 & I3 & I4 & I5 & I6 & I7 & I8 & I9 & I10).
    cbn [set_store w_s w_gets w_puts w_deadline w_over w_result w_phase w_fired w_got] in *.
    unfold WW in W |- *. destruct I7 as [I7|(p & I7 & I7')]; [|rewrite I7'; exact Logic.I]. rewrite I7.
    destruct (w_phase w) as [|r| |[p|]| |] eqn:Ph; auto; [|rewrite I6; exact W].
    destruct W as (W1 & W2 & W3 & W4 & W5). rewrite I6, I4, I5, I1. split; [exact W1|]. split; [exact W2|].
    assert (NOW : s_now s' = s_now (w_s w) \/ (exists t, s_now s' = t /\ may_pass A w t = true)).
    { destruct (step_now _ _ _ _ Es) as [H|(t & -> & H)]; [auto|]. right. eauto. }
    split; [|split].
    + intro O. destruct (W3 O) as (Fi & d & Dd & Dn). split; [auto|]. exists d. split; [exact Dd|].
      destruct NOW as [-> |(t & _ & M)]; [exact Dn|]. unfold may_pass in M. rewrite Fi in M. discriminate.
    + intros d Dd. destruct NOW as [-> |(t & -> & M)]; [apply W4; exact Dd|]. unfold may_pass in M. rewrite Ph, Dd in M.
      apply andb_true_iff in M. destruct M as [M1 M2]. apply negb_true_iff in M1. destruct (w_over w) eqn:O; [destruct (W3 eq_refl); congruence|].
      cbn [orb] in M2. qbool. exact M2.
    + intros Fi Gn. destruct (I8 Fi) as [H|H]; [|contradiction]. apply W5; [exact H|]. destruct (w_got w); [|reflexivity]. exfalso. apply I10; [discriminate|exact Gn].
  - destruct (w_phase w) eqn:Ph; try (injection E as <- <- <-; split; [exact SAME|exact Logic.I]).
    destruct (w_deadline w) as [d|] eqn:Ed; [|injection E as <- <- <-; split; [exact SAME|exact Logic.I]].
    destruct (negb (w_over w) && Qeqb (s_now (w_s w)) d) eqn:B; injection E as <- <- <-; (split; [|exact Logic.I]); [|exact SAME].
    cbn [gains]. rewrite app_nil_r. unfold WW in W |- *. rewrite Ph in W. cbn. destruct W as (W1 & W2 & W3 & W4 & W5).
    apply andb_true_iff in B. destruct B as [_ B]. split; [exact W1|]. split; [congruence|]. split; [|split; [intros d0 H0; apply W4; congruence|auto]].
    intros _. split; [reflexivity|]. exists d. split; [congruence|]. qbool. exact B.
  - destruct (w_phase w) as [|r| |[p|]| |] eqn:Ph; try (injection E as <- <- <-; split; [exact SAME|exact Logic.I]).
    destruct (w_fired w) eqn:Fi; [|injection E as <- <- <-; split; [exact SAME|exact Logic.I]].
    unfold WW in W. rewrite Ph in W. destruct W as (W1 & W2 & W3 & W4 & W5).
    destruct (w_got w) as [x|] eqn:Gt.
    + destruct (next_get w (w_result w ++ [x]) false) as [w1 h1] eqn:N. injection E as <- <- <-.
      split; [|cbn; rewrite <- W2; exact W4]. cbn [gains].
      unfold WinModel.next_get in N. destruct (op_get A eqb truthy item_func (w_s w) req) as [s2 h2] eqn:E2. injection N as <- <-.
      assert (NW : s_now s2 = s_now (w_s w)) by (unfold op_get in E2; apply get_facts in E2; cbn [s_now] in E2; apply E2).
      unfold WW. cbn [w_phase w_result w_deadline w_over w_fired w_s w_got]. rewrite NW. split; [rewrite W1, map_app; reflexivity|].
      assert (RR : reset = true \/ reset = false) by (destruct reset; auto). destruct RR as [R|R].
      * rewrite closes_last by exact R. rewrite !R. cbn [orb]. split; [destruct (w_deadline w); reflexivity|]. split; [discriminate|]. split; [|discriminate].
        intros d Hd. assert (d = s_now (w_s w) + timeout) by (destruct (w_deadline w); congruence). subst d. lra.
      * cbn [orb]. destruct (w_deadline w) as [d|] eqn:Ed.
        -- replace (if reset then false else w_over w) with (w_over w) by (rewrite R; reflexivity).
           replace (if reset then Some (s_now (w_s w) + timeout) else Some d) with (Some d) by (rewrite R; reflexivity). split; [|split; [|split; [exact W4|auto]]].
           ++ destruct acc as [|[y u] acc]; [discriminate|]. rewrite <- app_comm_cons, closes_first by exact R. exact W2.
           ++ intro O. destruct (W3 O) as (_ & d' & D1 & D2). split; [exact O|]. exists d'. auto.
        -- symmetry in W2. apply closes_none in W2. subst acc. split; [unfold WinSpec.closes; cbn; rewrite R; reflexivity|].
           assert (OF : w_over w = false) by (destruct (w_over w); [destruct W3 as (_ & d & W3 & _); [reflexivity|discriminate]|reflexivity]).
           rewrite OF, R. split; [discriminate|]. split; [|discriminate]. intros d Hd. injection Hd as <-. lra.
    + destruct (op_cancel A (w_s w) r) as [s2 h2] eqn:E2. injection E as <- <- <-. cbn [gains]. rewrite app_nil_r. split; [exact W1|].
      split; [exact W1|]. destruct (W3 (W5 Fi eq_refl)) as (_ & d & D1 & D2). exists d. split; [congruence|exact D2].
  - destruct (w_phase w) as [|r| |[p|]| |] eqn:Ph; try (injection E as <- <- <-; split; [exact SAME|exact Logic.I]).
    destruct (w_fired w) eqn:Fi.
    + injection E as <- <- <-. split; exact Logic.I.
    + destruct (op_cancel A (w_s w) r) as [s2 h2] eqn:E2. injection E as <- <- <-. split; exact Logic.I.
  - destruct (w_phase w) as [|r| |[p|]| |] eqn:Ph; try (injection E as <- <- <-; split; [exact SAME|exact Logic.I]).
    destruct (w_result w) as [|x l] eqn:R.
    + injection E as <- <- <-. split; exact Logic.I.
    + destruct (op_put A item_func (w_s w) x) as [s2 h2] eqn:E2. injection E as <- <- <-. split; exact Logic.I.
Qed.
Lemma accepted_cons o a tr : accepted ((o, a) :: tr) = gains a ++ accepted tr.
Proof. reflexivity. Qed.
Lemma run_WW os : 0 <= timeout -> forall w h acc, WI w h -> WW w acc ->
  WW (fst (fst (wrun w os))) (acc ++ accepted (snd (wrun w os))) /\
  (forall tr1 o a tr2, snd (wrun w os) = tr1 ++ (o, a) :: tr2 -> answer_ok (acc ++ accepted tr1) a).
Proof.
  intro T0. induction os as [|o os IH]; intros w h acc I W; cbn [WinModel.wrun].
  - cbn [fst snd WinSpec.accepted flat_map]. rewrite app_nil_r. split; [exact W|]. intros [|? ?] ? ? ? H; discriminate.
  - destruct (wstep w o) as [[w1 h1] a] eqn:E. destruct (step_WW _ _ _ _ _ _ _ T0 I W E) as [W1 A1].
    specialize (IH w1 (h ++ h1) (acc ++ gains a) (step_WI _ _ _ _ _ _ I E) W1). destruct (wrun w1 os) as [[w2 h2] l]. cbn [fst snd] in *.
    destruct IH as [IH1 IH2]. rewrite accepted_cons, app_assoc. split; [exact IH1|].
    intros [|[o' a'] tr1] o2 a2 tr2 H.
    + cbn in H. injection H as -> -> _. cbn [WinSpec.accepted flat_map]. rewrite app_nil_r. exact A1.
    + cbn [app] in H. injection H as <- <- H. rewrite accepted_cons, app_assoc. eapply IH2. exact H.
Qed.
End Win.
