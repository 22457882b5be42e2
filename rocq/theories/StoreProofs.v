From Coq Require Import Permutation Sorted.
From Verif Require Import Common StoreModel StoreSpec.

Section P.
Variable A : Type.
Variable eqb : A -> A -> bool.
Variable truthy : A -> bool.
Variable item_func : list A -> Z.

Local Notation happening := (happening A).
Local Notation st := (st A).
Local Notation do_get := (do_get A eqb truthy).
Local Notation do_get_sorted := (do_get_sorted A eqb truthy).
Local Notation get_loop := (get_loop A eqb truthy item_func).
Local Notation trig_get := (trig_get A eqb truthy item_func).
Local Notation trig_put := (trig_put A item_func).
Local Notation step := (step A eqb truthy item_func).
Local Notation run := (run A eqb truthy item_func).
Local Notation init := (init A item_func).
Local Notation record := (record A item_func).
Local Notation stored := (stored A).
Local Notation taken := (taken A).
Local Notation delivered := (delivered A).
Local Notation lost := (lost A).
Local Notation handed_over := (handed_over A).
Local Notation in_flight := (in_flight A).

Lemma stored_app h1 h2 : stored (h1 ++ h2) = stored h1 ++ stored h2.
Proof. apply flat_map_app. Qed.
Lemma taken_app h1 h2 : taken (h1 ++ h2) = taken h1 ++ taken h2.
Proof. apply flat_map_app. Qed.
Lemma handed_app h1 h2 : handed_over (h1 ++ h2) = handed_over h1 ++ handed_over h2.
Proof. apply flat_map_app. Qed.
Lemma lost_app h1 h2 : lost (h1 ++ h2) = lost h1 ++ lost h2.
Proof. apply flat_map_app. Qed.
Lemma delivered_app h1 h2 : delivered (h1 ++ h2) = delivered h1 ++ delivered h2.
Proof. apply flat_map_app. Qed.

Lemma run_inv (I : st -> list happening -> Prop) s0 :
  I s0 [] ->
  (forall s h o s' h', I s h -> step s o = (s', h') -> I s' (h ++ h')) ->
  forall os s h, run s0 os = (s, h) -> I s h.
Proof.
  intros H0 Hs.
  assert (G : forall os s h s' h', I s h -> run s os = (s', h') -> I s' (h ++ h')).
  { induction os as [|o os IH]; intros s h s' h' HI Hr; cbn [StoreModel.run] in Hr.
    - injection Hr as <- <-. rewrite app_nil_r. exact HI.
    - destruct (step s o) as [s1 h1] eqn:Es. destruct (run s1 os) as [s2 h2] eqn:Er.
      injection Hr as <- <-. rewrite app_assoc. eapply IH; [|exact Er]. eapply Hs; eauto. }
  intros os s h Hr. apply (G _ _ [] _ _ H0 Hr).
Qed.

(** *** Characterising the two triggers *)
Definition same_but_quant (s s' : st) : Prop :=
  s_kind s' = s_kind s /\ s_cap s' = s_cap s /\ s_now s' = s_now s /\ s_items s' = s_items s /\
  s_putq s' = s_putq s /\ s_getq s' = s_getq s /\ s_agenda s' = s_agenda s /\
  s_gone s' = s_gone s /\ s_next s' = s_next s.

Lemma trig_put_cases s s' h :
  trig_put s = (s', h) ->
  (exists r x q, s_putq s = (r, x) :: q /\ has_room A (s_cap s) (s_items s) = true /\
     h = [HStored r x] /\
     s_kind s' = s_kind s /\ s_cap s' = s_cap s /\ s_now s' = s_now s /\
     s_items s' = s_items s ++ [x] /\ s_putq s' = q /\ s_getq s' = s_getq s /\
     s_agenda s' = s_agenda s ++ [EPut r x] /\ s_gone s' = s_gone s /\ s_next s' = s_next s) \/
  (h = [] /\ same_but_quant s s' /\ (s_putq s = [] \/ has_room A (s_cap s) (s_items s) = false)).
Proof.
  unfold StoreModel.trig_put, same_but_quant. destruct (s_putq s) as [|[r x] q] eqn:Eq.
  - intro H. injection H as <- <-. right. cbn. rewrite ?Eq. repeat split; auto.
  - destruct (has_room A (s_cap s) (s_items s)) eqn:Er; intro H; injection H as <- <-.
    + left. exists r, x, q. cbn. repeat split; auto.
    + right. cbn. rewrite ?Eq. repeat split; auto.
Qed.

(** The queue after the loop together with the grants is the queue before. *)
Inductive served : list (nat * greq A) -> list (nat * greq A) -> list (nat * A) -> Prop :=
| served_nil : served [] [] []
| served_grant r g x q q' gr : served q q' gr -> served ((r, g) :: q) q' ((r, x) :: gr)
| served_keep r g q q' gr : served q q' gr -> served ((r, g) :: q) ((r, g) :: q') gr.

Lemma served_refl q : served q q [].
Proof. induction q as [|[r g] q IH]; constructor; exact IH. Qed.

Lemma get_loop_served k now : forall q items quant q' items' gr qn,
  get_loop k now q items quant = (q', items', gr, qn) -> served q q' gr.
Proof.
  induction q as [|[r g] q IH]; intros items quant q' items' gr qn H; cbn [StoreModel.get_loop] in H.
  - injection H as <- <- <- <-. constructor.
  - destruct (do_get k g items) as [[x it]|].
    + destruct (proceed k).
      * destruct (get_loop k now q it _) as [[[qq ii] g0] qn0] eqn:E.
        injection H as <- <- <- <-. constructor. eapply IH; exact E.
      * injection H as <- <- <- <-. constructor. apply served_refl.
    + destruct (proceed k).
      * destruct (get_loop k now q items _) as [[[qq ii] g0] qn0] eqn:E.
        injection H as <- <- <- <-. constructor. eapply IH; exact E.
      * injection H as <- <- <- <-. apply served_refl.
Qed.

Lemma trig_get_cases s s' h :
  trig_get s = (s', h) ->
  exists gr qn, get_loop (s_kind s) (s_now s) (s_getq s) (s_items s) (s_quant s) = (s_getq s', s_items s', gr, qn) /\
    h = map (fun rx => HTaken (fst rx) (snd rx)) gr /\
    s_kind s' = s_kind s /\ s_cap s' = s_cap s /\ s_now s' = s_now s /\
    s_putq s' = s_putq s /\ s_agenda s' = s_agenda s ++ map (fun rx => EGet (fst rx) (snd rx)) gr /\
    s_gone s' = s_gone s /\ s_next s' = s_next s /\
    s_quant s' = record (s_now s) (s_items s') qn.
Proof.
  unfold StoreModel.trig_get.
  destruct (get_loop _ _ _ _ _) as [[[qq ii] gr] qn] eqn:E. intro H. injection H as <- <-.
  exists gr, qn. cbn. repeat split; auto.
Qed.

Lemma taken_map gr : taken (map (fun rx : nat * A => HTaken (fst rx) (snd rx)) gr) = gr.
Proof. induction gr as [|[r x] gr IH]; cbn; [reflexivity|]. unfold taken in IH. rewrite IH. reflexivity. Qed.
Lemma stored_map gr : stored (map (fun rx : nat * A => HTaken (fst rx) (snd rx)) gr) = [].
Proof. induction gr as [|[r x] gr IH]; cbn; auto. Qed.
Lemma handed_map gr : handed_over (map (fun rx : nat * A => HTaken (fst rx) (snd rx)) gr) = [].
Proof. induction gr as [|[r x] gr IH]; cbn; auto. Qed.
Lemma lost_map gr : lost (map (fun rx : nat * A => HTaken (fst rx) (snd rx)) gr) = [].
Proof. induction gr as [|[r x] gr IH]; cbn; auto. Qed.
Lemma delivered_map gr : delivered (map (fun rx : nat * A => HTaken (fst rx) (snd rx)) gr) = [].
Proof. induction gr as [|[r x] gr IH]; cbn; auto. Qed.

Lemma inflight_map gr :
  flat_map (fun e : ev A => match e with EGet r x => [(r, x)] | _ => [] end)
           (map (fun rx : nat * A => EGet (fst rx) (snd rx)) gr) = gr.
Proof. induction gr as [|[r x] gr IH]; cbn; [reflexivity|]. rewrite IH. reflexivity. Qed.

(** *** Delivery follows granting, in order (every store kind) *)
Definition I_flight (s : st) (h : list happening) : Prop :=
  handed_over h ++ in_flight s = taken h.

Lemma flight_trig_put s s' h' : trig_put s = (s', h') ->
  in_flight s' = in_flight s /\ taken h' = [] /\ handed_over h' = [] /\ lost h' = [] /\ delivered h' = [].
Proof.
  intro H. apply trig_put_cases in H.
  destruct H as [(r & x & q & _ & _ & -> & _ & _ & _ & _ & _ & _ & Ea & _)|(-> & (_&_&_&_&_&_&Ea&_) & _)];
    unfold StoreSpec.in_flight; rewrite Ea; [rewrite flat_map_app; cbn; rewrite app_nil_r|]; auto.
Qed.

Lemma flight_trig_get s s' h' : trig_get s = (s', h') ->
  in_flight s' = in_flight s ++ taken h' /\ handed_over h' = [] /\ stored h' = [] /\ lost h' = [] /\ delivered h' = [].
Proof.
  intro H. apply trig_get_cases in H.
  destruct H as (gr & qn & _ & -> & _ & _ & _ & _ & Ea & _).
  rewrite taken_map, handed_map, stored_map, lost_map, delivered_map. unfold StoreSpec.in_flight. rewrite Ea.
  rewrite flat_map_app, inflight_map. auto.
Qed.

Lemma step_flight s h o s' h' : I_flight s h -> step s o = (s', h') -> I_flight s' (h ++ h').
Proof.
  unfold I_flight. intros HI H. rewrite handed_app, taken_app.
  destruct o as [x|g|r| |t]; cbn [StoreModel.step] in H.
  - apply flight_trig_put in H. destruct H as (E1 & E2 & E3 & _). rewrite E1, E2, E3, !app_nil_r. exact HI.
  - apply flight_trig_get in H. destruct H as (E1 & E2 & _). rewrite E1, E2, app_nil_r, app_assoc.
    f_equal. exact HI.
  - unfold op_cancel in H. injection H as <- <-.
    assert (E : forall b : bool, handed_over (if b then [HCancelled r] else []) = [] /\ taken (if b then [HCancelled r] else []) = [])
      by (intros []; auto).
    destruct (E (existsb (is_rid r) (s_putq s) || existsb (is_rid r) (s_getq s))) as [-> ->].
    rewrite !app_nil_r. exact HI.
  - unfold op_process in H. destruct (s_agenda s) as [|e ag] eqn:Ea.
    { injection H as <- <-. cbn. rewrite !app_nil_r. exact HI. }
    unfold StoreSpec.in_flight in HI. rewrite Ea in HI. cbn in HI. destruct e as [r x|r x].
    + destruct (trig_get _) as [s2 h2] eqn:Et. injection H as <- <-.
      apply flight_trig_get in Et. destruct Et as (E1 & E2 & _).
      rewrite handed_app, taken_app, E1, E2. unfold StoreSpec.in_flight. cbn. rewrite !app_nil_r, app_assoc.
      f_equal. exact HI.
    + destruct (trig_put _) as [s2 h2] eqn:Et. injection H as <- <-.
      apply flight_trig_put in Et. destruct Et as (E1 & E2 & E3 & _).
      rewrite handed_app, taken_app, E1, E2, E3. unfold StoreSpec.in_flight. cbn.
      rewrite <- HI. destruct (existsb (Nat.eqb r) (s_gone s)); cbn; rewrite <- !app_assoc, app_nil_r; reflexivity.
  - unfold op_time in H. destruct (s_agenda s) as [|e ag] eqn:Ea.
    + destruct (Qleb (s_now s) t); injection H as <- <-; cbn; rewrite !app_nil_r;
        unfold StoreSpec.in_flight in *; cbn; rewrite ?Ea in *; cbn in HI; rewrite ?app_nil_r in HI; rewrite ?app_nil_r; exact HI.
    + injection H as <- <-. cbn. rewrite !app_nil_r. exact HI.
Qed.

Lemma delivery_in_order k c t0 os s h :
  run (init k c t0) os = (s, h) -> handed_over h ++ in_flight s = taken h.
Proof.
  apply (run_inv I_flight); [reflexivity|]. intros; eapply step_flight; eauto.
Qed.

(** *** FIFO for the plain store *)
Lemma get_loop_store now q items quant q' items' gr qn :
  get_loop KStore now q items quant = (q', items', gr, qn) ->
  (gr = [] /\ q' = q /\ items' = items /\ (q = [] \/ items = [])) \/
  (exists r g x, q = (r, g) :: q' /\ items = x :: items' /\ gr = [(r, x)]).
Proof.
  destruct q as [|[r g] q]; cbn [StoreModel.get_loop].
  - intro H; injection H as <- <- <- <-. left. auto.
  - cbn. destruct items as [|x it]; intro H; cbn in H; injection H as <- <- <- <-.
    + left. auto.
    + right. exists r, g, x. auto.
Qed.

Definition I_fifo (s : st) (h : list happening) : Prop :=
  s_kind s = KStore /\ map snd (stored h) = map snd (taken h) ++ s_items s.

Lemma fifo_trig_get s s' h' : s_kind s = KStore -> trig_get s = (s', h') ->
  s_kind s' = KStore /\ map snd (taken h') ++ s_items s' = s_items s.
Proof.
  intros Hk H. apply trig_get_cases in H.
  destruct H as (gr & qn & Hg & -> & Ek & _). rewrite Hk in *. split; [congruence|].
  rewrite taken_map. apply get_loop_store in Hg.
  destruct Hg as [(-> & _ & -> & _)|(r & g & x & _ & -> & ->)]; reflexivity.
Qed.

Lemma fifo_trig_put s s' h' : trig_put s = (s', h') ->
  s_kind s' = s_kind s /\ s_items s' = s_items s ++ map snd (stored h') /\ taken h' = [].
Proof.
  intro H. apply trig_put_cases in H.
  destruct H as [(r & x & q & _ & _ & -> & Ek & _ & _ & Ei & _)|(-> & (Ek&_&_&Ei&_) & _)];
    repeat split; auto. cbn. rewrite app_nil_r. exact Ei.
Qed.

Lemma step_fifo s h o s' h' : I_fifo s h -> step s o = (s', h') -> I_fifo s' (h ++ h').
Proof.
  unfold I_fifo. intros [Hk HI] H. rewrite stored_app, taken_app, !map_app.
  destruct o as [x|g|r| |t]; cbn [StoreModel.step] in H.
  - apply fifo_trig_put in H. destruct H as (E1 & E2 & E3). cbn in E1, E2.
    split; [congruence|]. rewrite E2, E3, HI. cbn. rewrite app_nil_r, app_assoc. reflexivity.
  - pose proof (flight_trig_get _ _ _ H) as (_ & _ & E3 & _).
    apply fifo_trig_get in H; [|exact Hk]. destruct H as [E1 E2]. split; [exact E1|].
    rewrite E3. cbn. rewrite app_nil_r, HI, <- app_assoc, E2. reflexivity.
  - unfold op_cancel in H. injection H as <- <-. cbn [s_kind s_items]. split; [exact Hk|].
    destruct (_ || _); cbn; rewrite !app_nil_r; exact HI.
  - unfold op_process in H. destruct (s_agenda s) as [|e ag] eqn:Ea.
    { injection H as <- <-. cbn. rewrite !app_nil_r. auto. }
    destruct e as [r x|r x].
    + destruct (trig_get _) as [s2 h2] eqn:Et. injection H as <- <-.
      pose proof (flight_trig_get _ _ _ Et) as (_ & _ & E3 & _).
      apply fifo_trig_get in Et; [|exact Hk]. destruct Et as [E1 E2]. split; [exact E1|].
      rewrite stored_app, taken_app, !map_app, E3, HI. cbn. rewrite !app_nil_r, <- app_assoc.
      cbn in E2. rewrite E2. reflexivity.
    + destruct (trig_put _) as [s2 h2] eqn:Et. injection H as <- <-.
      apply fifo_trig_put in Et. destruct Et as (E1 & E2 & E3). cbn in E1, E2. split; [congruence|].
      rewrite stored_app, taken_app, !map_app, E2, E3, HI.
      destruct (existsb (Nat.eqb r) (s_gone s)); cbn; rewrite !app_nil_r, app_assoc; reflexivity.
  - unfold op_time in H. destruct (s_agenda s) as [|e ag] eqn:Ea.
    + destruct (Qleb (s_now s) t); injection H as <- <-; cbn; rewrite !app_nil_r; auto.
    + injection H as <- <-. cbn. rewrite !app_nil_r. auto.
Qed.

Lemma fifo c t0 os s h :
  run (init KStore c t0) os = (s, h) ->
  map snd (stored h) = map snd (taken h) ++ s_items s.
Proof.
  intro H. apply (run_inv I_fifo) in H; [apply H|split; reflexivity|].
  intros; eapply step_fifo; eauto.
Qed.

(** *** Requests are served in the order made *)
Definition bounded (n : nat) (l : list nat) := Forall (fun r => r < n)%nat l.

(** All numbers in [l1 ++ l2] increase. *)
Lemma ssorted_app_inv l1 l2 :
  StronglySorted lt (l1 ++ l2) -> StronglySorted lt l1 /\ StronglySorted lt l2 /\
  forall a b, In a l1 -> In b l2 -> (a < b)%nat.
Proof.
  induction l1 as [|x l1 IH]; cbn; intro H.
  - repeat split; auto; [constructor|intros a b []].
  - inversion H as [|? ? Hs Hf]; subst. destruct (IH Hs) as (H1 & H2 & H3).
    rewrite Forall_app in Hf. destruct Hf as [Hf1 Hf2]. rewrite Forall_forall in Hf1, Hf2.
    split; [constructor; [exact H1|apply Forall_forall; exact Hf1]|]. split; [exact H2|].
    intros a b [<-|Ha] Hb; auto.
Qed.

Lemma ssorted_app l1 l2 :
  StronglySorted lt l1 -> StronglySorted lt l2 ->
  (forall a b, In a l1 -> In b l2 -> (a < b)%nat) -> StronglySorted lt (l1 ++ l2).
Proof.
  induction l1 as [|x l1 IH]; cbn; intros H1 H2 H3; [exact H2|].
  inversion H1 as [|? ? Hs Hf]; subst. constructor.
  - apply IH; auto.
  - apply Forall_app. split; [exact Hf|]. apply Forall_forall. intros b Hb. apply H3; auto.
Qed.

Lemma ssorted_filter (f : nat -> bool) l : StronglySorted lt l -> StronglySorted lt (filter f l).
Proof.
  induction l as [|x l IH]; cbn; intro H; [constructor|].
  inversion H as [|? ? Hs Hf]; subst. destruct (f x); [|auto].
  constructor; [auto|]. rewrite Forall_forall in *. intros y Hy. apply filter_In in Hy. apply Hf; tauto.
Qed.

Lemma drop_rid_map {B} r (q : list (nat * B)) :
  map fst (drop_rid r q) = filter (fun n => negb (Nat.eqb n r)) (map fst q).
Proof.
  unfold drop_rid, is_rid. induction q as [|[n b] q IH]; cbn; [reflexivity|].
  destruct (Nat.eqb n r); cbn; rewrite IH; reflexivity.
Qed.

(** Served puts then waiting puts, all in request order, below [s_next]. *)
Definition I_porder (s : st) (h : list happening) : Prop :=
  StronglySorted lt (map fst (stored h) ++ map fst (s_putq s)) /\
  bounded (s_next s) (map fst (stored h) ++ map fst (s_putq s)).

Lemma porder_trig_put s s' h h' : I_porder s h -> trig_put s = (s', h') -> I_porder s' (h ++ h').
Proof.
  unfold I_porder. intros [H1 H2] H. rewrite stored_app, map_app.
  apply trig_put_cases in H.
  destruct H as [(r & x & q & Eq & _ & -> & _ & _ & _ & _ & Ep & _ & _ & _ & En)|(-> & (_&_&_&_&Ep&_&_&_&En) & _)].
  - rewrite Ep, En. rewrite Eq in H1, H2. cbn in *. rewrite <- app_assoc. cbn. auto.
  - rewrite Ep, En. cbn. rewrite app_nil_r. auto.
Qed.

Lemma porder_trig_get s s' h h' : I_porder s h -> trig_get s = (s', h') -> I_porder s' (h ++ h').
Proof.
  unfold I_porder. intros HI H.
  pose proof (flight_trig_get _ _ _ H) as (_ & _ & E & _). rewrite stored_app, E, app_nil_r.
  apply trig_get_cases in H. destruct H as (gr & qn & _ & _ & _ & _ & _ & Ep & _ & _ & En & _).
  rewrite Ep, En. exact HI.
Qed.

Lemma porder_mono (s s' : st) h h' :
  s_putq s' = s_putq s -> s_next s' = s_next s -> stored h' = [] ->
  I_porder s h -> I_porder s' (h ++ h').
Proof.
  unfold I_porder. intros E1 E2 E3. rewrite stored_app, E1, E2, E3, app_nil_r. auto.
Qed.

Lemma step_porder s h o s' h' : I_porder s h -> step s o = (s', h') -> I_porder s' (h ++ h').
Proof.
  intros HI H. destruct o as [x|g|r| |t]; cbn [StoreModel.step] in H.
  - eapply porder_trig_put; [|exact H]. destruct HI as [H1 H2]. split; cbn [s_putq s_next].
    + rewrite map_app, app_assoc. apply ssorted_app; [exact H1|cbn; repeat constructor|].
      intros a b Ha [<-|[]]. cbn. unfold bounded in H2. rewrite Forall_forall in H2. apply H2; exact Ha.
    + rewrite map_app, app_assoc. apply Forall_app. split.
      * eapply Forall_impl; [|exact H2]. cbn. intros; lia.
      * cbn. constructor; [lia|constructor].
  - eapply porder_trig_get; [|exact H]. destruct HI as [H1 H2]. split; cbn [s_putq s_next]; [exact H1|].
    eapply Forall_impl; [|exact H2]. cbn. intros; lia.
  - unfold op_cancel in H. injection H as <- <-.
    assert (E : stored (if existsb (is_rid r) (s_putq s) || existsb (is_rid r) (s_getq s) then [HCancelled r] else []) = []) by (destruct (_ || _); reflexivity).
    unfold I_porder. rewrite stored_app, E, app_nil_r. cbn [s_putq s_next]. rewrite drop_rid_map.
    destruct HI as [H1 H2]. apply ssorted_app_inv in H1. destruct H1 as (S1 & S2 & S3).
    apply Forall_app in H2. destruct H2 as [B1 B2]. split.
    + apply ssorted_app; [exact S1|apply ssorted_filter; exact S2|].
      intros a b Ha Hb. apply filter_In in Hb. apply S3; tauto.
    + apply Forall_app. split; [exact B1|]. apply Forall_forall. intros b Hb. apply filter_In in Hb.
      rewrite Forall_forall in B2. apply B2; tauto.
  - unfold op_process in H. destruct (s_agenda s) as [|e ag] eqn:Ea.
    { injection H as <- <-. eapply porder_mono; eauto. }
    destruct e as [r x|r x].
    + destruct (trig_get _) as [s2 h2] eqn:Et. injection H as <- <-. rewrite app_assoc.
      eapply porder_mono; [reflexivity|reflexivity|reflexivity|].
      eapply porder_trig_get; [|exact Et]. exact HI.
    + destruct (trig_put _) as [s2 h2] eqn:Et. injection H as <- <-. rewrite app_assoc.
      eapply porder_mono; [reflexivity|reflexivity|destruct (existsb _ _); reflexivity|].
      eapply porder_trig_put; [|exact Et]. exact HI.
  - unfold op_time in H. destruct (s_agenda s) as [|e ag] eqn:Ea.
    + destruct (Qleb (s_now s) t); injection H as <- <-; (eapply porder_mono; [| | |exact HI]; reflexivity).
    + injection H as <- <-. eapply porder_mono; [| | |exact HI]; reflexivity.
Qed.

Lemma puts_in_order k c t0 os s h :
  run (init k c t0) os = (s, h) ->
  StronglySorted lt (map fst (stored h) ++ map fst (s_putq s)).
Proof.
  intro H. apply (run_inv I_porder) in H; [apply H| |].
  - split; cbn; constructor.
  - intros; eapply step_porder; eauto.
Qed.

(** The same for gets of a plain store. *)
Definition I_gorder (s : st) (h : list happening) : Prop :=
  s_kind s = KStore /\
  StronglySorted lt (map fst (taken h) ++ map fst (s_getq s)) /\
  bounded (s_next s) (map fst (taken h) ++ map fst (s_getq s)).

Lemma gorder_trig_get s s' h h' : I_gorder s h -> trig_get s = (s', h') -> I_gorder s' (h ++ h').
Proof.
  unfold I_gorder. intros (Hk & H1 & H2) H. rewrite taken_app, map_app.
  apply trig_get_cases in H.
  destruct H as (gr & qn & Hg & -> & Ek & _ & _ & _ & _ & _ & En & _). rewrite Hk in *.
  rewrite taken_map. split; [congruence|]. rewrite En.
  apply get_loop_store in Hg.
  destruct Hg as [(-> & Eq & _ & _)|(r & g & x & Eq & _ & ->)].
  - rewrite Eq. cbn. rewrite app_nil_r. auto.
  - rewrite Eq in H1, H2. cbn in *. rewrite <- app_assoc. cbn. auto.
Qed.

Lemma gorder_trig_put s s' h h' : I_gorder s h -> trig_put s = (s', h') -> I_gorder s' (h ++ h').
Proof.
  unfold I_gorder. intros HI H.
  pose proof (flight_trig_put _ _ _ H) as (_ & E & _). rewrite taken_app, E, app_nil_r.
  apply trig_put_cases in H.
  destruct H as [(r & x & q & _ & _ & _ & Ek & _ & _ & _ & _ & Eg & _ & _ & En)|(_ & (Ek&_&_&_&_&Eg&_&_&En) & _)];
    rewrite Ek, Eg, En; exact HI.
Qed.

Lemma gorder_mono (s s' : st) h h' :
  s_kind s' = s_kind s -> s_getq s' = s_getq s -> s_next s' = s_next s -> taken h' = [] ->
  I_gorder s h -> I_gorder s' (h ++ h').
Proof.
  unfold I_gorder. intros E0 E1 E2 E3. rewrite taken_app, E0, E1, E2, E3, app_nil_r. auto.
Qed.

Lemma step_gorder s h o s' h' : I_gorder s h -> step s o = (s', h') -> I_gorder s' (h ++ h').
Proof.
  intros HI H. destruct o as [x|g|r| |t]; cbn [StoreModel.step] in H.
  - eapply gorder_trig_put; [|exact H]. destruct HI as (Hk & H1 & H2). split; [exact Hk|].
    split; cbn [s_getq s_next]; [exact H1|].
    eapply Forall_impl; [|exact H2]. cbn. intros; lia.
  - eapply gorder_trig_get; [|exact H]. destruct HI as (Hk & H1 & H2). split; [exact Hk|].
    split; cbn [s_getq s_next].
    + rewrite map_app, app_assoc. apply ssorted_app; [exact H1|cbn; repeat constructor|].
      intros a b Ha [<-|[]]. cbn. unfold bounded in H2. rewrite Forall_forall in H2. apply H2; exact Ha.
    + rewrite map_app, app_assoc. apply Forall_app. split.
      * eapply Forall_impl; [|exact H2]. cbn. intros; lia.
      * cbn. constructor; [lia|constructor].
  - unfold op_cancel in H. injection H as <- <-.
    assert (E : taken (if existsb (is_rid r) (s_putq s) || existsb (is_rid r) (s_getq s) then [HCancelled r] else []) = []) by (destruct (_ || _); reflexivity).
    unfold I_gorder. rewrite taken_app, E, app_nil_r. cbn [s_kind s_getq s_next]. rewrite drop_rid_map.
    destruct HI as (Hk & H1 & H2). apply ssorted_app_inv in H1. destruct H1 as (S1 & S2 & S3).
    apply Forall_app in H2. destruct H2 as [B1 B2]. split; [exact Hk|]. split.
    + apply ssorted_app; [exact S1|apply ssorted_filter; exact S2|].
      intros a b Ha Hb. apply filter_In in Hb. apply S3; tauto.
    + apply Forall_app. split; [exact B1|]. apply Forall_forall. intros b Hb. apply filter_In in Hb.
      rewrite Forall_forall in B2. apply B2; tauto.
  - unfold op_process in H. destruct (s_agenda s) as [|e ag] eqn:Ea.
    { injection H as <- <-. eapply gorder_mono; eauto. }
    destruct e as [r x|r x].
    + destruct (trig_get _) as [s2 h2] eqn:Et. injection H as <- <-. rewrite app_assoc.
      eapply gorder_mono; [reflexivity|reflexivity|reflexivity|reflexivity|].
      eapply gorder_trig_get; [|exact Et]. exact HI.
    + destruct (trig_put _) as [s2 h2] eqn:Et. injection H as <- <-. rewrite app_assoc.
      eapply gorder_mono; [reflexivity|reflexivity|reflexivity|destruct (existsb _ _); reflexivity|].
      eapply gorder_trig_put; [|exact Et]. exact HI.
  - unfold op_time in H. destruct (s_agenda s) as [|e ag] eqn:Ea.
    + destruct (Qleb (s_now s) t); injection H as <- <-; (eapply gorder_mono; [| | | |exact HI]; reflexivity).
    + injection H as <- <-. eapply gorder_mono; [| | | |exact HI]; reflexivity.
Qed.

Lemma gets_in_order c t0 os s h :
  run (init KStore c t0) os = (s, h) ->
  StronglySorted lt (map fst (taken h) ++ map fst (s_getq s)).
Proof.
  intro H. apply (run_inv I_gorder) in H; [apply H| |].
  - split; [reflexivity|]. split; cbn; constructor.
  - intros; eapply step_gorder; eauto.
Qed.

(** *** Nobody waits needlessly *)
Definition puts_pending (s : st) : nat :=
  length (filter (fun e : ev A => match e with EPut _ _ => true | _ => false end) (s_agenda s)).
Definition gets_pending (s : st) : nat :=
  length (filter (fun e : ev A => match e with EGet _ _ => true | _ => false end) (s_agenda s)).

Definition I_live (s : st) : Prop :=
  s_kind s = KStore /\ (s_getq s = [] \/ (length (s_items s) <= puts_pending s)%nat).

Lemma filter_app_len {B} (f : B -> bool) l1 l2 :
  length (filter f (l1 ++ l2)) = (length (filter f l1) + length (filter f l2))%nat.
Proof. rewrite filter_app, app_length. reflexivity. Qed.

(** With [n] puts being accounted for, a get trigger restores the bound. *)
Lemma live_trig_get s s' h' n :
  s_kind s = KStore -> (s_getq s = [] \/ (length (s_items s) <= n + puts_pending s)%nat) -> (n <= 1)%nat ->
  trig_get s = (s', h') -> I_live s'.
Proof.
  intros Hk Hl Hn H. apply trig_get_cases in H.
  destruct H as (gr & qn & Hg & _ & Ek & _ & _ & _ & Ea & _). rewrite Hk in *.
  split; [congruence|]. unfold puts_pending in *. rewrite Ea, filter_app_len.
  apply get_loop_store in Hg. destruct Hg as [(-> & Eq & Ei & Hor)|(r & g & x & Eq & Ei & ->)].
  - rewrite Eq, Ei. destruct Hor as [E|E]; [left; exact E|right]. rewrite E. cbn. lia.
  - right. destruct Hl as [Hl|Hl]; [congruence|]. rewrite Ei in Hl. cbn in Hl |- *. lia.
Qed.

Lemma live_trig_get_new s s' h' g r :
  s_kind s = KStore -> (s_getq s = [] \/ (length (s_items s) <= puts_pending s)%nat) ->
  trig_get (mkSt (s_kind s) (s_cap s) (s_now s) (s_items s) (s_putq s) (s_getq s ++ [(r, g)])
                 (s_agenda s) (s_gone s) (S (s_next s)) (s_quant s)) = (s', h') -> I_live s'.
Proof.
  intros Hk Hl H. destruct (s_getq s) as [|p q] eqn:Eq.
  - apply trig_get_cases in H.
    destruct H as (gr & qn & Hg & _ & Ek & _ & _ & _ & Ea & _). cbn in *. rewrite Hk in *.
    split; [congruence|]. destruct (s_items s) as [|x it] eqn:Ei; cbn in Hg; injection Hg as Hg1 Hg2 _ _.
    + right. rewrite <- Hg2. cbn. lia.
    + left. congruence.
  - eapply (live_trig_get _ _ _ 0); [| | |exact H].
    + exact Hk.
    + cbn. right. destruct Hl as [Hl|Hl]; [congruence|]. unfold puts_pending in *. cbn. lia.
    + lia.
Qed.

Lemma live_trig_put s s' h' : I_live s -> trig_put s = (s', h') -> I_live s'.
Proof.
  intros [Hk Hl] H. apply trig_put_cases in H. unfold I_live, puts_pending in *.
  destruct H as [(r & x & q & _ & _ & _ & Ek & _ & _ & Ei & _ & Eg & Ea & _)|(_ & (Ek&_&_&Ei&_&Eg&Ea&_) & _)];
    rewrite Ek, Ei, Eg, Ea; (split; [exact Hk|]).
  - destruct Hl as [Hl|Hl]; [left; exact Hl|right]. rewrite filter_app_len, app_length. cbn. lia.
  - exact Hl.
Qed.

Lemma step_live s o s' h' : I_live s -> step s o = (s', h') -> I_live s'.
Proof.
  intros HI H. destruct o as [x|g|r| |t]; cbn [StoreModel.step] in H.
  - eapply live_trig_put; [|exact H]. exact HI.
  - destruct HI as [Hk Hl]. eapply live_trig_get_new; [exact Hk|exact Hl|exact H].
  - unfold op_cancel in H. injection H as <- <-. destruct HI as [Hk Hl]. split; [exact Hk|].
    cbn [s_getq s_items]. unfold puts_pending in *. cbn [s_agenda].
    destruct Hl as [->|Hl]; [left; reflexivity|right; exact Hl].
  - unfold op_process in H. destruct (s_agenda s) as [|e ag] eqn:Ea.
    { injection H as <- <-. exact HI. }
    destruct HI as [Hk Hl]. unfold puts_pending in Hl. rewrite Ea in Hl. cbn in Hl. destruct e as [r x|r x].
    + destruct (trig_get _) as [s2 h2] eqn:Et. injection H as <- <-.
      eapply (live_trig_get _ _ _ 1); [| | |exact Et]; [exact Hk| |lia].
      unfold puts_pending. cbn in *. destruct Hl as [Hl|Hl]; [left; exact Hl|right; lia].
    + destruct (trig_put _) as [s2 h2] eqn:Et. injection H as <- <-.
      eapply live_trig_put; [|exact Et]. split; [exact Hk|]. exact Hl.
  - unfold op_time in H. destruct (s_agenda s) as [|e ag] eqn:Ea.
    + destruct (Qleb (s_now s) t); injection H as <- <-; [|exact HI].
      destruct HI as [Hk Hl]. split; [exact Hk|]. unfold puts_pending in *. rewrite Ea in Hl. cbn in *. exact Hl.
    + injection H as <- <-. exact HI.
Qed.

Lemma no_idle_get c t0 os s h :
  run (init KStore c t0) os = (s, h) -> quiescent A s -> s_getq s <> [] -> s_items s = [].
Proof.
  intros H Hq Hg. assert (HI : I_live s).
  { apply (run_inv (fun s _ => I_live s)) in H; [exact H| |].
    - split; [reflexivity|left; reflexivity].
    - intros; eapply step_live; eauto. }
  destruct HI as [_ [E|E]]; [contradiction|]. unfold puts_pending in E. rewrite Hq in E. cbn in E.
  destruct (s_items s); [reflexivity|cbn in E; lia].
Qed.

(** Puts, every kind: when a put waits, the free room is at most the number of
    granted gets not processed yet. *)
Definition free_le (c : option nat) (items : list A) (n : nat) : Prop :=
  match c with Some c => (c - length items <= n)%nat | None => False end.
Definition I_plive (s : st) : Prop := s_putq s = [] \/ free_le (s_cap s) (s_items s) (gets_pending s).

Lemma do_get_length k g items x items' : do_get k g items = Some (x, items') ->
  (length items' >= length items - 1)%nat.
Proof.
  assert (R : forall y l, (length (list_remove A eqb y l) >= length l - 1)%nat).
  { intros y l. induction l as [|z l IH]; cbn; [lia|]. destruct (eqb z y); cbn; lia. }
  destruct k; cbn.
  - destruct items; cbn; intro H; [discriminate|]. injection H as <- <-. lia.
  - unfold do_get_filter. destruct (find _ _); intro H; [|discriminate]. injection H as <- <-. apply R.
  - unfold StoreModel.do_get_sorted. destruct (sorted_scan _ _ _ _) as [[y v]|]; [|discriminate].
    destruct (truthy y); intro H; [|discriminate]. injection H as <- <-. apply R.
Qed.

Lemma get_loop_length k now : forall q items quant q' items' gr qn,
  get_loop k now q items quant = (q', items', gr, qn) ->
  (length items' >= length items - length gr)%nat.
Proof.
  induction q as [|[r g] q IH]; intros items quant q' items' gr qn H; cbn [StoreModel.get_loop] in H.
  - injection H as <- <- <- <-. cbn. lia.
  - destruct (do_get k g items) as [[x it]|] eqn:Ed.
    + apply do_get_length in Ed. destruct (proceed k).
      * destruct (get_loop k now q it _) as [[[qq ii] g0] qn0] eqn:E.
        injection H as <- <- <- <-. apply IH in E. cbn. lia.
      * injection H as <- <- <- <-. cbn. lia.
    + destruct (proceed k).
      * destruct (get_loop k now q items _) as [[[qq ii] g0] qn0] eqn:E.
        injection H as <- <- <- <-. apply IH in E. lia.
      * injection H as <- <- <- <-. cbn. lia.
Qed.

Lemma filter_EGet gr :
  length (filter (fun e : ev A => match e with EGet _ _ => true | _ => false end)
     (map (fun rx : nat * A => EGet (fst rx) (snd rx)) gr)) = length gr.
Proof. induction gr as [|[r x] gr IH]; cbn; [reflexivity|]. rewrite IH. reflexivity. Qed.

Lemma plive_trig_get s s' h' : I_plive s -> trig_get s = (s', h') -> I_plive s'.
Proof.
  unfold I_plive, gets_pending. intros HI H. apply trig_get_cases in H.
  destruct H as (gr & qn & Hg & _ & _ & Ec & _ & Ep & Ea & _).
  apply get_loop_length in Hg. rewrite Ep, Ec, Ea.
  destruct HI as [HI|HI]; [left; exact HI|right].
  unfold free_le in *. destruct (s_cap s) as [c|]; [|exact HI].
  rewrite filter_app_len, filter_EGet. lia.
Qed.

Lemma plive_trig_put s s' h' n :
  (s_putq s = [] \/ free_le (s_cap s) (s_items s) (n + gets_pending s)) -> (n <= 1)%nat ->
  trig_put s = (s', h') -> I_plive s'.
Proof.
  unfold I_plive, gets_pending. intros HI Hn H. apply trig_put_cases in H.
  destruct H as [(r & x & q & Eq & Hr & _ & _ & Ec & _ & Ei & Ep & _ & Ea & _)|(_ & (_&Ec&_&Ei&Ep&_&Ea&_) & Hor)];
    rewrite Ec, Ei, Ep, Ea.
  - right. destruct HI as [HI|HI]; [congruence|]. unfold free_le, has_room in *.
    destruct (s_cap s) as [c|]; [|exact HI]. rewrite app_length. cbn.
    rewrite filter_app_len. cbn. lia.
  - destruct Hor as [Hor|Hor]; [left; exact Hor|right]. unfold has_room, free_le in *.
    destruct (s_cap s) as [c|]; [|discriminate]. apply Nat.ltb_ge in Hor. lia.
Qed.

Lemma plive_trig_put_new s s' h' r x :
  I_plive s ->
  trig_put (mkSt (s_kind s) (s_cap s) (s_now s) (s_items s) (s_putq s ++ [(r, x)]) (s_getq s)
                 (s_agenda s) (s_gone s) (S (s_next s)) (s_quant s)) = (s', h') -> I_plive s'.
Proof.
  intros HI H. destruct (s_putq s) as [|p q] eqn:Eq.
  - apply trig_put_cases in H. unfold I_plive in *. cbn in H.
    destruct H as [(r1 & x1 & q & E1 & Hr & _ & _ & _ & _ & _ & Ep & _)|(_ & (_&Ec&_&Ei&Ep&_&Ea&_) & Hor)].
    + left. congruence.
    + right. destruct Hor as [Hor|Hor]; [discriminate|]. cbn in *. rewrite Ec, Ei.
      unfold has_room, free_le in *. destruct (s_cap s); [|discriminate]. apply Nat.ltb_ge in Hor. lia.
  - eapply (plive_trig_put _ _ _ 0); [| |exact H]; [|lia].
    right. cbn. destruct HI as [HI|HI]; [congruence|]. exact HI.
Qed.

Lemma step_plive s o s' h' : I_plive s -> step s o = (s', h') -> I_plive s'.
Proof.
  intros HI H. destruct o as [x|g|r| |t]; cbn [StoreModel.step] in H.
  - eapply plive_trig_put_new; eauto.
  - eapply plive_trig_get; [|exact H]. exact HI.
  - unfold op_cancel in H. injection H as <- <-. unfold I_plive, gets_pending in *. cbn in *.
    destruct HI as [->|HI]; [left; reflexivity|right; exact HI].
  - unfold op_process in H. destruct (s_agenda s) as [|e ag] eqn:Ea.
    { injection H as <- <-. exact HI. }
    unfold I_plive, gets_pending in HI. rewrite Ea in HI. cbn in HI. destruct e as [r x|r x].
    + destruct (trig_get _) as [s2 h2] eqn:Et. injection H as <- <-.
      eapply plive_trig_get; [|exact Et]. exact HI.
    + destruct (trig_put _) as [s2 h2] eqn:Et. injection H as <- <-.
      eapply (plive_trig_put _ _ _ 1); [| |exact Et]; [|lia]. exact HI.
  - unfold op_time in H. destruct (s_agenda s) as [|e ag] eqn:Ea.
    + destruct (Qleb (s_now s) t); injection H as <- <-; [|exact HI].
      unfold I_plive, gets_pending in *. cbn. rewrite Ea in HI. exact HI.
    + injection H as <- <-. exact HI.
Qed.

Lemma no_idle_put k c t0 os s h :
  run (init k c t0) os = (s, h) -> quiescent A s -> s_putq s <> [] -> has_room A (s_cap s) (s_items s) = false.
Proof.
  intros H Hq Hp. assert (HI : I_plive s).
  { apply (run_inv (fun s _ => I_plive s)) in H; [exact H|left; reflexivity|].
    intros; eapply step_plive; eauto. }
  destruct HI as [E|E]; [contradiction|]. unfold gets_pending in E. rewrite Hq in E.
  unfold has_room, free_le in *. destruct (s_cap s); [|contradiction]. apply Nat.ltb_ge. cbn in E. lia.
Qed.

(** Capacity is respected by every store kind. *)
Definition I_cap (c : option nat) (s : st) : Prop :=
  s_cap s = c /\ match c with Some n => (length (s_items s) <= n)%nat | None => True end.

Lemma do_get_length_le k g items x items' : do_get k g items = Some (x, items') ->
  (length items' <= length items)%nat.
Proof.
  assert (R : forall y l, (length (list_remove A eqb y l) <= length l)%nat).
  { intros y l. induction l as [|z l IH]; cbn; [lia|]. destruct (eqb z y); cbn; lia. }
  destruct k; cbn.
  - destruct items; cbn; intro H; [discriminate|]. injection H as <- <-. lia.
  - unfold do_get_filter. destruct (find _ _); intro H; [|discriminate]. injection H as <- <-. apply R.
  - unfold StoreModel.do_get_sorted. destruct (sorted_scan _ _ _ _) as [[y v]|]; [|discriminate].
    destruct (truthy y); intro H; [|discriminate]. injection H as <- <-. apply R.
Qed.

Lemma get_loop_length_le k now : forall q items quant q' items' gr qn,
  get_loop k now q items quant = (q', items', gr, qn) -> (length items' <= length items)%nat.
Proof.
  induction q as [|[r g] q IH]; intros items quant q' items' gr qn H; cbn [StoreModel.get_loop] in H.
  - injection H as <- <- <- <-. lia.
  - destruct (do_get k g items) as [[x it]|] eqn:Ed.
    + apply do_get_length_le in Ed. destruct (proceed k).
      * destruct (get_loop k now q it _) as [[[qq ii] g0] qn0] eqn:E.
        injection H as <- <- <- <-. apply IH in E. lia.
      * injection H as <- <- <- <-. lia.
    + destruct (proceed k).
      * destruct (get_loop k now q items _) as [[[qq ii] g0] qn0] eqn:E.
        injection H as <- <- <- <-. apply IH in E. lia.
      * injection H as <- <- <- <-. lia.
Qed.

Lemma cap_trig_get c s s' h' : I_cap c s -> trig_get s = (s', h') -> I_cap c s'.
Proof.
  unfold I_cap. intros [Hc Hl] H. apply trig_get_cases in H.
  destruct H as (gr & qn & Hg & _ & _ & Ec & _). apply get_loop_length_le in Hg.
  split; [congruence|]. destruct c; [lia|exact I].
Qed.

Lemma cap_trig_put c s s' h' : I_cap c s -> trig_put s = (s', h') -> I_cap c s'.
Proof.
  unfold I_cap. intros [Hc Hl] H. apply trig_put_cases in H.
  destruct H as [(r & x & q & _ & Hr & _ & _ & Ec & _ & Ei & _)|(_ & (_&Ec&_&Ei&_) & _)];
    rewrite Ec, Ei; (split; [exact Hc|]); [|exact Hl].
  rewrite Hc in Hr. unfold has_room in Hr. destruct c; [|exact I]. apply Nat.ltb_lt in Hr.
  rewrite app_length. cbn. lia.
Qed.

Lemma step_capacity c s o s' h' : I_cap c s -> step s o = (s', h') -> I_cap c s'.
Proof.
  intros HI H. destruct o as [x|g|r| |t]; cbn [StoreModel.step] in H.
  - eapply cap_trig_put; [|exact H]. exact HI.
  - eapply cap_trig_get; [|exact H]. exact HI.
  - unfold op_cancel in H. injection H as <- <-. exact HI.
  - unfold op_process in H. destruct (s_agenda s) as [|e ag] eqn:Ea.
    { injection H as <- <-. exact HI. }
    destruct e as [r x|r x].
    + destruct (trig_get _) as [s2 h2] eqn:Et. injection H as <- <-.
      eapply cap_trig_get; [|exact Et]. exact HI.
    + destruct (trig_put _) as [s2 h2] eqn:Et. injection H as <- <-.
      eapply cap_trig_put; [|exact Et]. exact HI.
  - unfold op_time in H. destruct (s_agenda s) as [|e ag] eqn:Ea.
    + destruct (Qleb (s_now s) t); injection H as <- <-; exact HI.
    + injection H as <- <-. exact HI.
Qed.

Lemma store_capacity k n t0 os s h :
  run (init k (Some n) t0) os = (s, h) -> (length (s_items s) <= n)%nat.
Proof.
  intro H. apply (run_inv (fun s _ => I_cap (Some n) s)) in H; [apply H| |].
  - split; [reflexivity|cbn; lia].
  - intros; eapply step_capacity; eauto.
Qed.

(** *** Selection of the sorted store *)
Local Notation better_eq := (better_eq A).
Local Notation strictly_better := (strictly_better A).
Local Notation first_best := (first_best A).
Local Notation nomatch := (nomatch A).

Lemma scan_nosort g l best :
  g_sorter g = None -> best = None ->
  match sorted_scan A g l best with
  | Some (x, _) => exists l1 l2, l = l1 ++ x :: l2 /\ g_filter g x = true /\ forall y, In y l1 -> g_filter g y = false
  | None => forall y, In y l -> g_filter g y = false
  end.
Proof.
  intros Hs ->. induction l as [|x l IH]; cbn; [intros y []|].
  destruct (g_filter g x) eqn:Ef.
  - rewrite Hs. exists [], l. repeat split; auto. intros y [].
  - destruct (sorted_scan A g l None) as [[z v]|].
    + destruct IH as (l1 & l2 & -> & Hz & Hl1). exists (x :: l1), l2. repeat split; auto.
      intros y [<-|Hy]; auto.
    + intros y [<-|Hy]; auto.
Qed.

(** [pre]: what has been scanned; [best] is the first best of it. *)
Definition best_of (g : greq A) (key : A -> Z) (pre : list A) (best : option (A * option Z)) : Prop :=
  match best with
  | None => forall y, In y pre -> g_filter g y = false
  | Some (x, v) => v = Some (key x) /\ exists l1 l2, pre = l1 ++ x :: l2 /\ g_filter g x = true /\
      (forall y, In y l1 -> g_filter g y = true -> strictly_better g key x y) /\
      (forall y, In y l2 -> g_filter g y = true -> better_eq g key x y)
  end.

Lemma scan_sort g key l : g_sorter g = Some key -> forall pre best,
  best_of g key pre best -> best_of g key (pre ++ l) (sorted_scan A g l best).
Proof.
  intro Hs. induction l as [|x l IH]; intros pre best HB; cbn.
  - rewrite app_nil_r. exact HB.
  - replace (pre ++ x :: l) with ((pre ++ [x]) ++ l) by (rewrite <- app_assoc; reflexivity).
    destruct (g_filter g x) eqn:Ef.
    + rewrite Hs. apply IH. destruct best as [[m v]|]; cbn in HB.
      * destruct HB as [-> (l1 & l2 & -> & Hm & H1 & H2)].
        unfold StoreSpec.strictly_better, StoreSpec.better_eq in *.
        destruct (if g_reverse g then Z.gtb (key x) (key m) else Z.ltb (key x) (key m)) eqn:Eb.
        -- cbn. split; [reflexivity|]. exists (l1 ++ m :: l2), []. repeat split; auto; [|intros y []].
           intros y Hy Hf. unfold StoreSpec.strictly_better. apply in_app_or in Hy.
           destruct (g_reverse g).
           ++ rewrite Z.gtb_lt in Eb. destruct Hy as [Hy|[<-|Hy]];
                [specialize (H1 y Hy Hf)|idtac|specialize (H2 y Hy Hf)]; cbn in *; lia.
           ++ apply Z.ltb_lt in Eb. destruct Hy as [Hy|[<-|Hy]];
                [specialize (H1 y Hy Hf)|idtac|specialize (H2 y Hy Hf)]; cbn in *; lia.
        -- cbn. split; [reflexivity|]. exists l1, (l2 ++ [x]). rewrite <- app_assoc. cbn.
           repeat split; auto. intros y Hy Hf. apply in_app_or in Hy. unfold StoreSpec.better_eq.
           destruct Hy as [Hy|[<-|[]]]; [apply (H2 y Hy Hf)|].
           destruct (g_reverse g).
           ++ rewrite Z.gtb_ltb in Eb. apply Z.ltb_ge in Eb. exact Eb.
           ++ apply Z.ltb_ge in Eb. exact Eb.
      * cbn. split; [reflexivity|]. exists pre, []. repeat split; auto; [|intros y []].
        intros y Hy Hf. rewrite (HB y Hy) in Hf. discriminate.
    + apply IH. destruct best as [[m v]|]; cbn in *.
      * destruct HB as [-> (l1 & l2 & -> & Hm & H1 & H2)]. split; [reflexivity|].
        exists l1, (l2 ++ [x]). rewrite <- app_assoc. cbn. repeat split; auto.
        intros y Hy Hf. apply in_app_or in Hy. destruct Hy as [Hy|[<-|[]]]; [auto|congruence].
      * intros y Hy. apply in_app_or in Hy. destruct Hy as [Hy|[<-|[]]]; auto.
Qed.

(** Whatever [==] says: the first best item is handed over and the first item that is
    [==] to it leaves. *)
Lemma list_remove_splits x l : eqb x x = true -> In x l ->
  exists m1 y m2, l = m1 ++ y :: m2 /\ list_remove A eqb x l = m1 ++ m2 /\ eqb y x = true /\ forall z, In z m1 -> eqb z x = false.
Proof.
  intros Hr. induction l as [|w l IH]; cbn; [intros []|]. intro Hin. destruct (eqb w x) eqn:E.
  - exists [], w, l. repeat split; auto. intros z [].
  - destruct Hin as [->|Hin]; [congruence|]. destruct (IH Hin) as (m1 & y & m2 & -> & -> & Hy & Hm).
    exists (w :: m1), y, m2. repeat split; auto. intros z [<-|Hz]; auto.
Qed.

Lemma sorted_gives g items x rest : (forall y, eqb y y = true) ->
  do_get_sorted g items = Some (x, rest) ->
  (exists rest', first_best g items x rest') /\
  exists m1 y m2, items = m1 ++ y :: m2 /\ rest = m1 ++ m2 /\ eqb y x = true /\ forall z, In z m1 -> eqb z x = false.
Proof.
  intros Hr. unfold StoreModel.do_get_sorted, StoreSpec.first_best. intro H.
  destruct (sorted_scan A g items None) as [[z v]|] eqn:Es; [|discriminate].
  destruct (truthy z); [|discriminate]. injection H as <- <-.
  destruct (g_sorter g) as [key|] eqn:Ek.
  - pose proof (scan_sort g key items Ek [] None) as HB. cbn in HB.
    specialize (HB (fun y (F : False) => match F with end)). rewrite Es in HB. cbn in HB.
    destruct HB as [_ (l1 & l2 & -> & Hf & H1 & H2)]. split; [exists (l1 ++ l2), l1, l2; auto|].
    apply list_remove_splits; [apply Hr|]. apply in_or_app. right. left. reflexivity.
  - pose proof (scan_nosort g items None Ek eq_refl) as HB. rewrite Es in HB.
    destruct HB as (l1 & l2 & -> & Hf & H1). split; [exists (l1 ++ l2), l1, l2; auto|].
    apply list_remove_splits; [apply Hr|]. apply in_or_app. right. left. reflexivity.
Qed.

Hypothesis eqb_ok : forall x y, eqb x y = true <-> x = y.

Lemma list_remove_first l1 x l2 : ~ In x l1 -> list_remove A eqb x (l1 ++ x :: l2) = l1 ++ l2.
Proof.
  induction l1 as [|y l1 IH]; cbn; intro H.
  - rewrite (proj2 (eqb_ok x x) eq_refl). reflexivity.
  - destruct (eqb y x) eqn:E.
    + apply eqb_ok in E. exfalso. apply H. left. exact E.
    + f_equal. apply IH. intro. apply H. right. assumption.
Qed.

Lemma sorted_selects g items x rest :
  do_get_sorted g items = Some (x, rest) -> first_best g items x rest.
Proof.
  unfold StoreModel.do_get_sorted, StoreSpec.first_best. intro H.
  destruct (sorted_scan A g items None) as [[z v]|] eqn:Es; [|discriminate].
  destruct (truthy z); [|discriminate]. injection H as <- <-.
  destruct (g_sorter g) as [key|] eqn:Ek.
  - pose proof (scan_sort g key items Ek [] None) as HB. cbn in HB.
    specialize (HB (fun y (F : False) => match F with end)). rewrite Es in HB. cbn in HB.
    destruct HB as [_ (l1 & l2 & -> & Hf & H1 & H2)]. exists l1, l2. split; [reflexivity|].
    split; [|auto]. apply list_remove_first. intro Hin. specialize (H1 z Hin Hf).
    unfold StoreSpec.strictly_better in H1. destruct (g_reverse g); lia.
  - pose proof (scan_nosort g items None Ek eq_refl) as HB. rewrite Es in HB.
    destruct HB as (l1 & l2 & -> & Hf & H1). exists l1, l2. split; [reflexivity|].
    split; [|auto]. apply list_remove_first. intro Hin. rewrite (H1 z Hin) in Hf. discriminate.
Qed.

Lemma sorted_blocks g items :
  do_get_sorted g items = None ->
  (forall y, In y items -> g_filter g y = false) \/
  (exists x, In x items /\ g_filter g x = true /\ truthy x = false).
Proof.
  unfold StoreModel.do_get_sorted. intro H.
  destruct (sorted_scan A g items None) as [[z v]|] eqn:Es.
  - right. destruct (truthy z) eqn:Et; [discriminate|]. exists z.
    destruct (g_sorter g) as [key|] eqn:Ek.
    + pose proof (scan_sort g key items Ek [] None (fun y (F : False) => match F with end)) as HB. cbn in HB.
      rewrite Es in HB. cbn in HB. destruct HB as [_ (l1 & l2 & -> & Hf & _)].
      repeat split; auto. apply in_or_app. right. left. reflexivity.
    + pose proof (scan_nosort g items None Ek eq_refl) as HB. rewrite Es in HB.
      destruct HB as (l1 & l2 & -> & Hf & H1). repeat split; auto.
      apply in_or_app. right. left. reflexivity.
  - left. destruct (g_sorter g) as [key|] eqn:Ek.
    + pose proof (scan_sort g key items Ek [] None (fun y (F : False) => match F with end)) as HB. cbn in HB.
      rewrite Es in HB. exact HB.
    + pose proof (scan_nosort g items None Ek eq_refl) as HB. rewrite Es in HB. exact HB.
Qed.

(** *** Conservation of items, every kind *)
Lemma list_remove_perm x l : In x l -> Permutation l (x :: list_remove A eqb x l).
Proof.
  induction l as [|y l IH]; cbn; [intros []|]. intros [->|Hin].
  - rewrite (proj2 (eqb_ok x x) eq_refl). apply Permutation_refl.
  - destruct (eqb y x) eqn:E.
    + apply eqb_ok in E. subst. apply Permutation_refl.
    + eapply perm_trans; [apply perm_skip, IH; exact Hin|apply perm_swap].
Qed.

Lemma do_get_perm k g items x items' : do_get k g items = Some (x, items') -> Permutation items (x :: items').
Proof.
  destruct k; cbn.
  - destruct items; cbn; intro H; [discriminate|]. injection H as <- <-. apply Permutation_refl.
  - unfold do_get_filter. destruct (find _ _) eqn:E; intro H; [|discriminate]. injection H as <- <-.
    apply find_some in E. apply list_remove_perm. tauto.
  - intro H. apply sorted_selects in H. destruct H as (l1 & l2 & -> & -> & _).
    apply Permutation_sym, Permutation_middle.
Qed.

Lemma get_loop_perm k now : forall q items quant q' items' gr qn,
  get_loop k now q items quant = (q', items', gr, qn) -> Permutation items (map snd gr ++ items').
Proof.
  induction q as [|[r g] q IH]; intros items quant q' items' gr qn H; cbn [StoreModel.get_loop] in H.
  - injection H as <- <- <- <-. apply Permutation_refl.
  - destruct (do_get k g items) as [[x it]|] eqn:Ed.
    + apply do_get_perm in Ed. destruct (proceed k).
      * destruct (get_loop k now q it _) as [[[qq ii] g0] qn0] eqn:E.
        injection H as <- <- <- <-. apply IH in E. cbn.
        eapply perm_trans; [exact Ed|]. apply perm_skip. exact E.
      * injection H as <- <- <- <-. exact Ed.
    + destruct (proceed k).
      * destruct (get_loop k now q items _) as [[[qq ii] g0] qn0] eqn:E.
        injection H as <- <- <- <-. apply IH in E. exact E.
      * injection H as <- <- <- <-. apply Permutation_refl.
Qed.

Definition I_perm (s : st) (h : list happening) : Prop :=
  Permutation (map snd (stored h)) (map snd (taken h) ++ s_items s).

Lemma perm_trig_get s s' h h' : I_perm s h -> trig_get s = (s', h') -> I_perm s' (h ++ h').
Proof.
  unfold I_perm. intros HI H. pose proof (flight_trig_get _ _ _ H) as (_ & _ & E3 & _).
  rewrite stored_app, taken_app, E3, app_nil_r, map_app, <- app_assoc.
  apply trig_get_cases in H. destruct H as (gr & qn & Hg & -> & _). rewrite taken_map.
  apply get_loop_perm in Hg. eapply perm_trans; [exact HI|]. apply Permutation_app_head. exact Hg.
Qed.

Lemma perm_trig_put s s' h h' : I_perm s h -> trig_put s = (s', h') -> I_perm s' (h ++ h').
Proof.
  unfold I_perm. intros HI H. apply fifo_trig_put in H. destruct H as (_ & E2 & E3).
  rewrite stored_app, taken_app, E2, E3, app_nil_r, map_app, app_assoc.
  apply Permutation_app_tail. exact HI.
Qed.

Lemma perm_mono (s s' : st) h h' :
  s_items s' = s_items s -> stored h' = [] -> taken h' = [] -> I_perm s h -> I_perm s' (h ++ h').
Proof.
  unfold I_perm. intros E1 E2 E3. rewrite stored_app, taken_app, E1, E2, E3, !app_nil_r. auto.
Qed.

Lemma step_perm s h o s' h' : I_perm s h -> step s o = (s', h') -> I_perm s' (h ++ h').
Proof.
  intros HI H. destruct o as [x|g|r| |t]; cbn [StoreModel.step] in H.
  - eapply perm_trig_put; [|exact H]. exact HI.
  - eapply perm_trig_get; [|exact H]. exact HI.
  - unfold op_cancel in H. injection H as <- <-.
    eapply perm_mono; [reflexivity|destruct (_ || _); reflexivity|destruct (_ || _); reflexivity|exact HI].
  - unfold op_process in H. destruct (s_agenda s) as [|e ag] eqn:Ea.
    { injection H as <- <-. eapply perm_mono; eauto. }
    destruct e as [r x|r x].
    + destruct (trig_get _) as [s2 h2] eqn:Et. injection H as <- <-. rewrite app_assoc.
      eapply perm_mono; [reflexivity|reflexivity|reflexivity|]. eapply perm_trig_get; [|exact Et]. exact HI.
    + destruct (trig_put _) as [s2 h2] eqn:Et. injection H as <- <-. rewrite app_assoc.
      eapply perm_mono; [reflexivity|destruct (existsb _ _); reflexivity|destruct (existsb _ _); reflexivity|].
      eapply perm_trig_put; [|exact Et]. exact HI.
  - unfold op_time in H. destruct (s_agenda s) as [|e ag] eqn:Ea.
    + destruct (Qleb (s_now s) t); injection H as <- <-; (eapply perm_mono; [| | |exact HI]; reflexivity).
    + injection H as <- <-. eapply perm_mono; [| | |exact HI]; reflexivity.
Qed.

Lemma handed_split h : Permutation (handed_over h) (delivered h ++ lost h).
Proof.
  induction h as [|e h IH]; cbn; [constructor|]. destruct e; cbn; try exact IH.
  - apply perm_skip. exact IH.
  - apply Permutation_cons_app. exact IH.
Qed.

Lemma items_conserved k c t0 os s h :
  run (init k c t0) os = (s, h) ->
  Permutation (map snd (stored h))
              (map snd (delivered h) ++ map snd (in_flight s) ++ s_items s ++ map snd (lost h)).
Proof.
  intro H. assert (HP : I_perm s h).
  { revert H. apply (run_inv I_perm); [constructor|]. intros; eapply step_perm; eauto. }
  apply delivery_in_order in H. unfold I_perm in HP. rewrite <- H in HP.
  eapply perm_trans; [exact HP|]. rewrite map_app.
  rewrite <- app_assoc.
  eapply perm_trans; [apply Permutation_app_tail, (Permutation_map snd (handed_split h))|].
  rewrite map_app, <- app_assoc. apply Permutation_app_head.
  rewrite !app_assoc. eapply perm_trans; [rewrite <- app_assoc; apply Permutation_app_comm|]. apply Permutation_refl.
Qed.

(** Without late cancellations nothing is lost. *)
Definition I_gone (s : st) (h : list happening) : Prop :=
  lost h = [] /\
  (forall r, In r (s_gone s) -> ~ In r (map fst (in_flight s))) /\
  (forall r, In r (s_gone s) -> ~ In r (map fst (s_getq s))) /\
  bounded (s_next s) (s_gone s) /\
  bounded (s_next s) (map fst (s_getq s)).

Lemma served_in q q' gr : served q q' gr ->
  (forall r, In r (map fst q) <-> In r (map fst q') \/ In r (map fst gr)).
Proof.
  induction 1; cbn; intro n.
  - tauto.
  - rewrite IHserved. tauto.
  - rewrite IHserved. tauto.
Qed.

Lemma gone_trig_get s s' h h' : I_gone s h -> trig_get s = (s', h') -> I_gone s' (h ++ h').
Proof.
  intros (H1 & H2 & H3 & H4 & H5) H. pose proof (flight_trig_get _ _ _ H) as (Ef & _ & _ & El & _).
  apply trig_get_cases in H. destruct H as (gr & qn & Hg & Eh & _ & _ & _ & _ & _ & Ego & En & _).
  apply get_loop_served in Hg. pose proof (served_in _ _ _ Hg) as Hs.
  unfold I_gone. rewrite lost_app, H1, El, Ego, En, Ef. rewrite Eh, taken_map. repeat split; auto.
  - intros r Hr. rewrite map_app, in_app_iff. intros [Hin|Hin]; [apply (H2 r Hr Hin)|].
    apply (H3 r Hr). apply Hs. auto.
  - intros r Hr Hin. apply (H3 r Hr). apply Hs. auto.
  - unfold bounded in *. rewrite Forall_forall in *. intros r Hr. apply H5. apply Hs. auto.
Qed.

Lemma gone_trig_put s s' h h' : I_gone s h -> trig_put s = (s', h') -> I_gone s' (h ++ h').
Proof.
  intros (H1 & H2 & H3 & H4 & H5) H. pose proof (flight_trig_put _ _ _ H) as (Ef & _ & _ & El & _).
  apply trig_put_cases in H. unfold I_gone. rewrite lost_app, H1, El, Ef.
  destruct H as [(r & x & q & _ & _ & _ & _ & _ & _ & _ & _ & Eg & _ & Ego & En)|(_ & (_&_&_&_&_&Eg&_&Ego&En) & _)];
    rewrite Eg, Ego, En; auto.
Qed.

Lemma gone_mono (s s' : st) h h' :
  s_gone s' = s_gone s -> s_getq s' = s_getq s -> s_next s' = s_next s -> in_flight s' = in_flight s ->
  lost h' = [] -> I_gone s h -> I_gone s' (h ++ h').
Proof.
  unfold I_gone. intros E1 E2 E3 E4 E5. rewrite lost_app, E1, E2, E3, E4, E5, app_nil_r. auto.
Qed.

Lemma step_gone s h o s' h' :
  I_gone s h -> match o with OpCancel r => ~ granted_get A s r | _ => True end ->
  step s o = (s', h') -> I_gone s' (h ++ h').
Proof.
  intros HI Hc H. destruct o as [x|g|r| |t]; cbn [StoreModel.step] in H.
  - eapply gone_trig_put; [|exact H]. destruct HI as (H1 & H2 & H3 & H4 & H5).
    unfold I_gone; cbn [s_gone s_getq s_next]; repeat split; auto;
      (eapply Forall_impl; [|eassumption]; cbn; intros; lia).
  - eapply gone_trig_get; [|exact H]. destruct HI as (H1 & H2 & H3 & H4 & H5).
    unfold I_gone; cbn [s_gone s_getq s_next]; repeat split; auto.
    + intros r Hr. rewrite map_app, in_app_iff. intros [Hin|[Hin|[]]]; [apply (H3 r Hr Hin)|].
      cbn in Hin. subst. unfold bounded in H4. rewrite Forall_forall in H4. apply H4 in Hr. lia.
    + eapply Forall_impl; [|exact H4]; cbn; intros; lia.
    + rewrite map_app. apply Forall_app. split; [|cbn; constructor; [lia|constructor]].
      eapply Forall_impl; [|exact H5]; cbn; intros; lia.
  - unfold op_cancel in H. assert (Eg : existsb (is_get_of A r) (s_agenda s) = false).
    { destruct (existsb (is_get_of A r) (s_agenda s)) eqn:Eg; [|reflexivity]. exfalso. apply Hc.
      apply existsb_exists in Eg. destruct Eg as ([n x|n x] & Hin & Hn); [discriminate|].
      apply Nat.eqb_eq in Hn. subst n. unfold granted_get, StoreSpec.in_flight.
      apply in_map_iff. exists (r, x). split; [reflexivity|]. apply in_flat_map. exists (EGet r x). split; [exact Hin|left; reflexivity]. }
    rewrite Eg in H. injection H as <- <-. destruct HI as (H1 & H2 & H3 & H4 & H5). unfold I_gone.
      cbn [s_gone s_getq s_next]. rewrite lost_app, H1. cbn.
      split; [destruct (_ || _); reflexivity|]. split; [exact H2|]. rewrite drop_rid_map. repeat split; auto.
      * intros n Hn Hin. apply filter_In in Hin. apply (H3 n Hn). tauto.
      * unfold bounded in *. rewrite Forall_forall in *. intros n Hn. apply filter_In in Hn. apply H5; tauto.
  - unfold op_process in H. destruct (s_agenda s) as [|e ag] eqn:Ea.
    { injection H as <- <-. eapply gone_mono; eauto. }
    destruct e as [r x|r x].
    + destruct (trig_get _) as [s2 h2] eqn:Et. injection H as <- <-. rewrite app_assoc.
      eapply gone_mono; [reflexivity|reflexivity|reflexivity|reflexivity|reflexivity|].
      eapply gone_trig_get; [|exact Et]. destruct HI as (H1 & H2 & H3 & H4 & H5).
      unfold I_gone, StoreSpec.in_flight in *. rewrite Ea in H2. cbn in *. auto.
    + destruct (trig_put _) as [s2 h2] eqn:Et. injection H as <- <-. rewrite app_assoc.
      destruct HI as (H1 & H2 & H3 & H4 & H5).
      assert (Hn : existsb (Nat.eqb r) (s_gone s) = false).
      { destruct (existsb (Nat.eqb r) (s_gone s)) eqn:E; [|reflexivity]. exfalso.
        apply existsb_exists in E. destruct E as (n & Hin & Hn). apply Nat.eqb_eq in Hn. subst n.
        apply (H2 r Hin). unfold StoreSpec.in_flight. rewrite Ea. cbn. left. reflexivity. }
      rewrite Hn. eapply gone_mono; [reflexivity|reflexivity|reflexivity|reflexivity|reflexivity|].
      eapply gone_trig_put; [|exact Et].
      unfold I_gone, StoreSpec.in_flight in *. rewrite Ea in H2. cbn in *.
      repeat split; auto. intros n Hn1 Hn2. apply (H2 n Hn1). right. exact Hn2.
  - unfold op_time in H. destruct (s_agenda s) as [|e ag] eqn:Ea.
    + destruct (Qleb (s_now s) t); injection H as <- <-; (eapply gone_mono; [| | | | |exact HI]; try reflexivity).
      unfold StoreSpec.in_flight. cbn. rewrite Ea. reflexivity.
    + injection H as <- <-. eapply gone_mono; [| | | | |exact HI]; reflexivity.
Qed.

Lemma nothing_lost k c t0 os s h :
  no_late_cancel A eqb truthy item_func (init k c t0) os ->
  run (init k c t0) os = (s, h) -> lost h = [].
Proof.
  assert (G : forall os s h s' h', I_gone s h -> no_late_cancel A eqb truthy item_func s os ->
            run s os = (s', h') -> I_gone s' (h ++ h')).
  { clear os s h. induction os as [|o os IH]; intros s h s' h' HI Hn Hr; cbn [StoreModel.run] in Hr.
    - injection Hr as <- <-. rewrite app_nil_r. exact HI.
    - destruct Hn as [Hc Hn]. destruct (step s o) as [s1 h1] eqn:Es. destruct (run s1 os) as [s2 h2] eqn:Er.
      injection Hr as <- <-. rewrite app_assoc. eapply IH; [|exact Hn|exact Er].
      eapply step_gone; eauto. }
  intros Hn Hr. apply (G os _ [] _ _) in Hr; [apply Hr| |exact Hn].
  repeat split; cbn; auto; constructor.
Qed.

(** *** Filtered stores: served in request order, nobody waits needlessly *)
Lemma filter_selects g items x rest :
  g_sorter g = None -> do_get_filter A eqb g items = Some (x, rest) -> first_best g items x rest.
Proof.
  unfold do_get_filter, StoreSpec.first_best. intros Hs H. rewrite Hs.
  destruct (find (g_filter g) items) as [z|] eqn:E; [|discriminate]. injection H as <- <-.
  assert (F : exists l1 l2, items = l1 ++ z :: l2 /\ g_filter g z = true /\ forall y, In y l1 -> g_filter g y = false).
  { clear -E. induction items as [|y l IH]; [discriminate|]. cbn in E. destruct (g_filter g y) eqn:Ef.
    - injection E as <-. exists [], l. repeat split; auto. intros y0 [].
    - destruct (IH E) as (l1 & l2 & -> & Hz & Hl). exists (y :: l1), l2. repeat split; auto.
      intros y0 [<-|Hy]; auto. }
  destruct F as (l1 & l2 & -> & Hf & H1). exists l1, l2. split; [reflexivity|]. split; [|auto].
  apply list_remove_first. intro Hin. rewrite (H1 z Hin) in Hf. discriminate.
Qed.

Lemma filter_blocks g items : do_get_filter A eqb g items = None -> nomatch g items.
Proof.
  unfold do_get_filter. destruct (find (g_filter g) items) eqn:E; [discriminate|]. intros _ y Hy.
  apply (find_none _ _ E y Hy).
Qed.

Definition plain_requests (k : kind) (q : list (nat * greq A)) : Prop :=
  k = KFilter -> Forall (fun p => g_sorter (snd p) = None) q.

Lemma get_loop_serves k now : k <> KStore -> (k = KSorted -> forall x, truthy x = true) ->
  forall q items quant q' items' gr qn,
  plain_requests k q ->
  get_loop k now q items quant = (q', items', gr, qn) -> serves A q items gr q' items'.
Proof.
  intros Hk Ht. assert (Hp : proceed k = true) by (destruct k; [congruence|reflexivity|reflexivity]).
  induction q as [|[r g] q IH]; intros items quant q' items' gr qn Hpl H; cbn [StoreModel.get_loop] in H.
  - injection H as <- <- <- <-. constructor.
  - rewrite Hp in H. assert (Hpl2 : plain_requests k q).
    { intro E. specialize (Hpl E). inversion Hpl; assumption. }
    destruct (do_get k g items) as [[x it]|] eqn:Ed.
    + destruct (get_loop k now q it _) as [[[qq ii] g0] qn0] eqn:E.
      injection H as <- <- <- <-. eapply sv_grant; [|eapply IH; eauto].
      destruct k; [congruence| |apply sorted_selects; exact Ed].
      apply filter_selects; [|exact Ed]. specialize (Hpl eq_refl). inversion Hpl; assumption.
    + destruct (get_loop k now q items _) as [[[qq ii] g0] qn0] eqn:E.
      injection H as <- <- <- <-. apply sv_wait; [|eapply IH; eauto].
      destruct k; [congruence|apply filter_blocks; exact Ed|].
      cbn in Ed. apply sorted_blocks in Ed. destruct Ed as [Ed|(x & _ & _ & Ed)]; [exact Ed|].
      rewrite Ht in Ed by reflexivity. discriminate.
Qed.

(** What a new get does, and what the processing of a put does. *)
Lemma get_serves s g s' h' :
  s_kind s = KSorted -> (forall x, truthy x = true) ->
  step s (OpGet g) = (s', h') ->
  serves A (s_getq s ++ [(s_next s, g)]) (s_items s) (taken h') (s_getq s') (s_items s').
Proof.
  intros Hk Ht H. cbn [StoreModel.step] in H. apply trig_get_cases in H. cbn in H.
  destruct H as (gr & qn & Hg & -> & _). rewrite Hk in Hg. rewrite taken_map.
  eapply get_loop_serves; [| | |exact Hg]; [congruence|auto|intro E; discriminate].
Qed.

Lemma put_processed_serves s r x ag s' h' :
  s_kind s = KSorted -> (forall x, truthy x = true) ->
  s_agenda s = EPut r x :: ag ->
  step s OpProcess = (s', h') ->
  serves A (s_getq s) (s_items s) (taken h') (s_getq s') (s_items s').
Proof.
  intros Hk Ht Ha H. cbn [StoreModel.step] in H. unfold op_process in H. rewrite Ha in H.
  destruct (trig_get _) as [s2 h2] eqn:Et. injection H as <- <-.
  apply trig_get_cases in Et. cbn in Et. destruct Et as (gr & qn & Hg & -> & _). rewrite Hk in Hg.
  rewrite taken_app, taken_map. cbn. rewrite app_nil_r.
  eapply get_loop_serves; [| | |exact Hg]; [congruence|auto|intro E; discriminate].
Qed.

(** At quiescence no waiting filtered get has a match. *)
Definition blocked_all (s : st) : Prop := Forall (fun p => nomatch (snd p) (s_items s)) (s_getq s).
Definition has_put (s : st) : Prop := exists r x, In (EPut r x) (s_agenda s).
Definition I_flive (s : st) : Prop :=
  s_kind s <> KStore /\ (s_kind s = KSorted -> forall x, truthy x = true) /\ (has_put s \/ blocked_all s).

Lemma do_get_incl k g items x items' : do_get k g items = Some (x, items') -> incl items' items.
Proof.
  intros H y Hy. apply do_get_perm in H. apply Permutation_sym in H. eapply Permutation_in; [exact H|].
  right. exact Hy.
Qed.

Lemma get_loop_incl k now : forall q items quant q' items' gr qn,
  get_loop k now q items quant = (q', items', gr, qn) -> incl items' items.
Proof.
  intros. apply get_loop_perm in H. intros y Hy. apply Permutation_sym in H.
  eapply Permutation_in; [exact H|]. apply in_or_app. right. exact Hy.
Qed.

Lemma get_loop_blocks k now : k <> KStore -> (k = KSorted -> forall x, truthy x = true) ->
  forall q items quant q' items' gr qn,
  get_loop k now q items quant = (q', items', gr, qn) ->
  Forall (fun p => nomatch (snd p) items') q'.
Proof.
  intros Hk Ht. assert (Hp : proceed k = true) by (destruct k; [congruence|reflexivity|reflexivity]).
  induction q as [|[r g] q IH]; intros items quant q' items' gr qn H; cbn [StoreModel.get_loop] in H.
  - injection H as <- <- <- <-. constructor.
  - rewrite Hp in H. destruct (do_get k g items) as [[x it]|] eqn:Ed.
    + destruct (get_loop k now q it _) as [[[qq ii] g0] qn0] eqn:E.
      injection H as <- <- <- <-. eapply IH; exact E.
    + destruct (get_loop k now q items _) as [[[qq ii] g0] qn0] eqn:E.
      injection H as <- <- <- <-. constructor; [|eapply IH; exact E].
      assert (N : nomatch g items).
      { destruct k; [congruence|apply filter_blocks; exact Ed|].
        cbn in Ed. apply sorted_blocks in Ed. destruct Ed as [Ed|(x & _ & _ & Ed)]; [exact Ed|].
        rewrite Ht in Ed by reflexivity. discriminate. }
      apply get_loop_incl in E. intros y Hy. apply N, E, Hy.
Qed.

Lemma flive_trig_get s s' h' :
  s_kind s <> KStore -> (s_kind s = KSorted -> forall x, truthy x = true) ->
  trig_get s = (s', h') -> I_flive s'.
Proof.
  intros Hk Ht H. apply trig_get_cases in H. destruct H as (gr & qn & Hg & _ & Ek & _).
  apply get_loop_blocks in Hg; auto. unfold I_flive. rewrite Ek. repeat split; auto.
Qed.

Lemma flive_trig_put s s' h' : I_flive s -> trig_put s = (s', h') -> I_flive s'.
Proof.
  unfold I_flive, has_put, blocked_all. intros (Hk & Ht & Hor) H. apply trig_put_cases in H.
  destruct H as [(r & x & q & _ & _ & _ & Ek & _ & _ & _ & _ & _ & Ea & _)|(_ & (Ek&_&_&Ei&_&Eg&Ea&_) & _)];
    rewrite Ek; repeat split; auto.
  - left. exists r, x. rewrite Ea. apply in_or_app. right. left. reflexivity.
  - rewrite Ei, Eg, Ea. exact Hor.
Qed.

Lemma step_flive s o s' h' : I_flive s -> step s o = (s', h') -> I_flive s'.
Proof.
  intros HI H. destruct o as [x|g|r| |t]; cbn [StoreModel.step] in H.
  - eapply flive_trig_put; [|exact H]. exact HI.
  - destruct HI as (Hk & Ht & _). eapply flive_trig_get; [| |exact H]; auto.
  - unfold op_cancel in H. injection H as <- <-. destruct HI as (Hk & Ht & Hor).
    unfold I_flive, has_put, blocked_all in *. cbn. repeat split; auto.
    destruct Hor as [Hor|Hor]; [left; exact Hor|right]. rewrite Forall_forall in *.
    intros p Hp. apply filter_In in Hp. apply Hor. tauto.
  - unfold op_process in H. destruct (s_agenda s) as [|e ag] eqn:Ea.
    { injection H as <- <-. exact HI. }
    destruct HI as (Hk & Ht & Hor). destruct e as [r x|r x].
    + destruct (trig_get _) as [s2 h2] eqn:Et. injection H as <- <-.
      eapply flive_trig_get; [| |exact Et]; auto.
    + destruct (trig_put _) as [s2 h2] eqn:Et. injection H as <- <-.
      eapply flive_trig_put; [|exact Et]. unfold I_flive, has_put, blocked_all in *. cbn in *.
      rewrite Ea in Hor. repeat split; auto.
      destruct Hor as [(n & y & [E|Hin])|Hor]; [discriminate|left; eauto|right; exact Hor].
  - unfold op_time in H. destruct (s_agenda s) as [|e ag] eqn:Ea.
    + destruct (Qleb (s_now s) t); injection H as <- <-; [|exact HI].
      destruct HI as (Hk & Ht & Hor). unfold I_flive, has_put, blocked_all in *. cbn. rewrite Ea in Hor. auto.
    + injection H as <- <-. exact HI.
Qed.

Lemma no_idle_filter k c t0 os s h r g :
  k <> KStore -> (k = KSorted -> forall x, truthy x = true) ->
  run (init k c t0) os = (s, h) -> quiescent A s -> In (r, g) (s_getq s) -> nomatch g (s_items s).
Proof.
  intros Hk Ht H Hq Hin. assert (HI : I_flive s).
  { apply (run_inv (fun s _ => I_flive s)) in H; [exact H| |].
    - split; [exact Hk|]. split; [exact Ht|]. right. constructor.
    - intros; eapply step_flive; eauto. }
  destruct HI as (_ & _ & [(n & x & Ha)|Hb]).
  - rewrite Hq in Ha. destruct Ha.
  - unfold blocked_all in Hb. rewrite Forall_forall in Hb. apply (Hb (r, g) Hin).
Qed.
End P.

(** *** The recorded history *)
Section M.
Variable A : Type.
Variable eqb : A -> A -> bool.
Variable truthy : A -> bool.
Variable item_func : list A -> Z.
Local Notation st := (st A).
Local Notation get_loop := (get_loop A eqb truthy item_func).
Local Notation trig_get := (trig_get A eqb truthy item_func).
Local Notation trig_put := (trig_put A item_func).
Local Notation step := (step A eqb truthy item_func).
Local Notation run := (run A eqb truthy item_func).
Local Notation init := (init A item_func).
Local Notation record := (record A item_func).

(** [q'] continues [q] by entries stamped [now] only, and stays well formed. *)
Definition hist_ok (now : Q) (q : list (Q * Z)) : Prop :=
  times_ordered q /\ no_repeats q /\ match q with (u, _) :: _ => u <= now | [] => False end.
Definition ext (now : Q) (q q' : list (Q * Z)) : Prop :=
  exists pre, q' = pre ++ q /\ Forall (fun p => fst p = now) pre.
Definition good (now : Q) (q q' : list (Q * Z)) : Prop :=
  ext now q q' /\ (hist_ok now q -> hist_ok now q').

Lemma good_refl now q : good now q q.
Proof. split; [exists []; auto|auto]. Qed.
Lemma good_trans now a b c : good now a b -> good now b c -> good now a c.
Proof.
  intros [(p1 & -> & F1) H1] [(p2 & -> & F2) H2]. split; [|auto].
  exists (p2 ++ p1). rewrite app_assoc. split; [reflexivity|]. apply Forall_app. auto.
Qed.

Lemma record_good now items q : good now q (record now items q).
Proof.
  unfold StoreModel.record. destruct q as [|[u w] q].
  - split; [|intros (_ & _ & [])]. exists [(now, item_func items)]. split; [reflexivity|]. constructor; auto.
  - destruct (Z.eqb (item_func items) w) eqn:E; [apply good_refl|]. apply Z.eqb_neq in E. split.
    + exists [(now, item_func items)]. split; [reflexivity|]. constructor; auto.
    + intros (H1 & H2 & H3). split; [split; [exact H3|exact H1]|]. split; [split; [exact E|exact H2]|]. apply Qle_refl.
Qed.

Definition cur (q : list (Q * Z)) : option Z := match q with (_, v) :: _ => Some v | [] => None end.
Lemma record_cur now items q : cur (record now items q) = Some (item_func items).
Proof.
  unfold StoreModel.record. destruct q as [|[u w] q]; [reflexivity|].
  destruct (Z.eqb (item_func items) w) eqn:E; [|reflexivity]. apply Z.eqb_eq in E. cbn. congruence.
Qed.

Lemma get_loop_good k now : forall q items quant q' items' gr qn,
  get_loop k now q items quant = (q', items', gr, qn) -> good now quant qn.
Proof.
  induction q as [|[r g] q IH]; intros items quant q' items' gr qn H; cbn [StoreModel.get_loop] in H.
  - injection H as <- <- <- <-. apply good_refl.
  - destruct (do_get A eqb truthy k g items) as [[x it]|].
    + destruct (proceed k).
      * destruct (get_loop k now q it _) as [[[qq ii] g0] qn0] eqn:E.
        injection H as <- <- <- <-. eapply good_trans; [apply record_good|eapply IH; exact E].
      * injection H as <- <- <- <-. apply record_good.
    + destruct (proceed k).
      * destruct (get_loop k now q items _) as [[[qq ii] g0] qn0] eqn:E.
        injection H as <- <- <- <-. eapply IH; exact E.
      * injection H as <- <- <- <-. apply good_refl.
Qed.

Definition monitored (s s' : st) : Prop :=
  s_now s' = s_now s /\ good (s_now s) (s_quant s) (s_quant s') /\ cur (s_quant s') = Some (item_func (s_items s')).

Lemma trig_get_monitored s s' h' : trig_get s = (s', h') -> monitored s s'.
Proof.
  intro H. apply trig_get_cases in H. destruct H as (gr & qn & Hg & _ & _ & _ & En & _ & _ & _ & _ & Eq).
  apply get_loop_good in Hg. split; [exact En|]. rewrite Eq. split; [|apply record_cur].
  eapply good_trans; [exact Hg|apply record_good].
Qed.

Lemma trig_put_monitored s s' h' : trig_put s = (s', h') -> monitored s s'.
Proof.
  unfold StoreModel.trig_put. destruct (s_putq s) as [|[r x] q].
  - intro H; injection H as <- <-. split; [reflexivity|]. cbn. split; [apply record_good|apply record_cur].
  - destruct (has_room _ _ _); intro H; injection H as <- <-; (split; [reflexivity|]); cbn.
    + split; [|apply record_cur]. eapply good_trans; apply record_good.
    + split; [apply record_good|apply record_cur].
Qed.

Definition I_mon (s : st) : Prop := hist_ok (s_now s) (s_quant s) /\ cur (s_quant s) = Some (item_func (s_items s)).

(** One step: entries are added, stamped with the time after the step. *)
Lemma step_mon s o s' h' : I_mon s -> step s o = (s', h') ->
  I_mon s' /\ s_now s <= s_now s' /\ ext (s_now s') (s_quant s) (s_quant s').
Proof.
  intros [H1 H2] H.
  assert (G : forall s1, s_now s1 = s_now s -> s_quant s1 = s_quant s -> monitored s1 s' ->
     I_mon s' /\ s_now s <= s_now s' /\ ext (s_now s') (s_quant s) (s_quant s')).
  { intros s1 E1 E2 (M1 & [Me M2] & M3). rewrite E1, E2 in *. unfold I_mon. rewrite M1.
    split; [split; auto|]. split; [apply Qle_refl|exact Me]. }
  assert (S : s' = s -> I_mon s' /\ s_now s <= s_now s' /\ ext (s_now s') (s_quant s) (s_quant s')).
  { intros ->. split; [split; auto|]. split; [apply Qle_refl|]. apply (proj1 (good_refl _ _)). }
  destruct o as [x|g|r| |t]; cbn [StoreModel.step] in H.
  - apply trig_put_monitored in H. eapply G; [| |exact H]; reflexivity.
  - apply trig_get_monitored in H. eapply G; [| |exact H]; reflexivity.
  - unfold op_cancel in H. injection H as <- <-. unfold I_mon. cbn. split; [split; auto|].
    split; [apply Qle_refl|apply (proj1 (good_refl _ _))].
  - unfold op_process in H. destruct (s_agenda s) as [|e ag] eqn:Ea.
    { injection H as <- <-. apply S. reflexivity. }
    destruct e as [r x|r x].
    + destruct (trig_get _) as [s2 h2] eqn:Et. injection H as <- <-.
      apply trig_get_monitored in Et. eapply G; [| |exact Et]; reflexivity.
    + destruct (trig_put _) as [s2 h2] eqn:Et. injection H as <- <-.
      apply trig_put_monitored in Et. eapply G; [| |exact Et]; reflexivity.
  - unfold op_time in H. destruct (s_agenda s) as [|e ag] eqn:Ea.
    + destruct (Qleb (s_now s) t) eqn:El; injection H as <- <-; [|apply S; reflexivity].
      apply Qleb_le in El. unfold I_mon. cbn. split; [|split; [exact El|apply (proj1 (good_refl _ _))]].
      split; [|exact H2]. destruct H1 as (A1 & A2 & A3). split; [exact A1|]. split; [exact A2|].
      destruct (s_quant s) as [|[u v] q]; [exact A3|]. eapply Qle_trans; eauto.
    + injection H as <- <-. apply S. reflexivity.
Qed.

Lemma value_at_now now t q v : hist_ok now q -> cur q = Some v -> now <= t -> value_at t q = Some v.
Proof.
  intros (_ & _ & H) Hc Ht. destruct q as [|[u w] q]; [destruct H|]. cbn in *.
  assert (E : Qleb u t = true) by (apply Qleb_le; eapply Qle_trans; eauto). rewrite E. exact Hc.
Qed.

Lemma value_at_ext now t q q' : ext now q q' -> t < now -> value_at t q' = value_at t q.
Proof.
  intros (pre & -> & F) Ht. induction pre as [|[u w] pre IH]; [reflexivity|]. cbn.
  inversion F as [|? ? Hu F']; subst. cbn in *.
  assert (E : Qleb u t = false) by (apply Qleb_gt; exact Ht). rewrite E. apply IH. exact F'.
Qed.

Lemma true_history_agrees : forall os s acc s' h',
  I_mon s -> (forall t, value_at t (s_quant s) = value_at t acc) ->
  run s os = (s', h') ->
  I_mon s' /\ (forall t, value_at t (s_quant s') = value_at t (true_history A eqb truthy item_func s os acc)).
Proof.
  induction os as [|o os IH]; intros s acc s' h' HI HE Hr; cbn [StoreModel.run true_history] in *.
  - injection Hr as <- <-. auto.
  - destruct (step s o) as [s1 h1] eqn:Es. destruct (run s1 os) as [s2 h2] eqn:Er. injection Hr as <- <-.
    cbn [fst]. destruct (step_mon _ _ _ _ HI Es) as (HI1 & Hn & Hx).
    eapply IH; [exact HI1| |exact Er]. intro t. cbn [value_at].
    destruct (Qleb (s_now s1) t) eqn:El.
    + apply Qleb_le in El. destruct HI1 as [O C]. eapply value_at_now; eauto.
    + apply Qleb_gt in El. rewrite (value_at_ext _ _ _ _ Hx El). apply HE.
Qed.

Lemma recorded_history k c t0 os s h :
  run (init k c t0) os = (s, h) ->
  (forall t, value_at t (s_quant s) = value_at t (true_history A eqb truthy item_func (init k c t0) os [(t0, item_func [])])) /\
  times_ordered (s_quant s) /\ no_repeats (s_quant s) /\
  (exists u rest, s_quant s = (u, item_func (s_items s)) :: rest /\ u <= s_now s) /\
  (exists newer, s_quant s = newer ++ [(t0, item_func [])]).
Proof.
  intro H. assert (I0 : I_mon (init k c t0)).
  { split; [|reflexivity]. cbn. repeat split; auto. apply Qle_refl. }
  destruct (true_history_agrees os (init k c t0) [(t0, item_func [])] s h I0 (fun t => eq_refl) H) as [HI HE].
  split; [exact HE|]. destruct HI as [(T & N & L) C]. split; [exact T|]. split; [exact N|]. split.
  - destruct (s_quant s) as [|[u v] q]; [destruct L|]. cbn in C. injection C as ->. exists u, q. auto.
  - clear T N L C HE. apply (run_inv A eqb truthy item_func (fun s _ => I_mon s /\ exists newer, s_quant s = newer ++ [(t0, item_func [])])) in H;
      [apply H|split; [exact I0|exists []; reflexivity]|].
    intros s1 h1 o s2 h2 [HI (nw & E)] Es. destruct (step_mon _ _ _ _ HI Es) as (HI2 & _ & (pre & Ep & _)).
    split; [exact HI2|]. exists (pre ++ nw). rewrite Ep, E, app_assoc. reflexivity.
Qed.
End M.
