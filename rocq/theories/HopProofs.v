(** Proofs about routed messages. *)
From Coq Require Import Qround Permutation Sorted.
From Verif Require Import Common RouteModel RouteSpec RouteProofs RouteProps HopModel HopSpec.
From Verif Require CommsModel.

(** ** The queue *)
Lemma pop_split : forall l x r, pop l = Some (x, r) -> exists l1 l2, l = l1 ++ x :: l2 /\ r = l1 ++ l2 /\
  Forall (fun y => before x y = true) l1 /\ Forall (fun y => before y x = false) l2.
Proof.
  induction l as [|z l IH]; intros x r H; [discriminate|]. cbn in H. destruct (pop l) as [[y q]|] eqn:E.
  - destruct (IH y q eq_refl) as (l1 & l2 & -> & -> & F1 & F2). destruct (before y z) eqn:B; injection H as <- <-.
    + exists (z :: l1), l2. split; [reflexivity|]. split; [reflexivity|]. split; [constructor; assumption|assumption].
    + exists [], (l1 ++ y :: l2). split; [reflexivity|]. split; [reflexivity|]. split; [constructor|].
      assert (T : forall w, before y w = true -> before w z = false).
      { intros w W. unfold before in *. destruct (Qltb (e_time w) (e_time z)) eqn:A1.
        - exfalso. apply Qltb_lt in A1. apply orb_false_iff in B as [B1 B2]. apply Qltb_ge in B1. apply orb_true_iff in W as [W|W].
          + apply Qltb_lt in W. lra.
          + apply andb_true_iff in W as [W _]. apply andb_true_iff in W as [W _]. apply Qeqb_eq in W. lra.
        - cbn. destruct (Qeqb (e_time w) (e_time z)) eqn:A2; [cbn|reflexivity]. apply Qeqb_eq in A2. apply orb_false_iff in B as [B1 B2]. apply Qltb_ge in B1.
          apply orb_true_iff in W as [W|W]; [apply Qltb_lt in W; lra|]. apply andb_true_iff in W as [W W3]. apply negb_true_iff in W3. rewrite W3. reflexivity. }
      assert (BY : before y z = false) by assumption.
      assert (T2 : forall w, before w y = false -> before w z = false).
      { intros w W. destruct (before w z) eqn:A; [|reflexivity]. exfalso. unfold before in *. apply orb_false_iff in W as [W1 W2]. apply orb_false_iff in BY as [B1 B2].
        apply Qltb_ge in W1, B1. apply orb_true_iff in A as [A|A]; [apply Qltb_lt in A; lra|]. apply andb_true_iff in A as [A A3]. apply andb_true_iff in A as [A A2]. apply Qeqb_eq in A.
        assert (E1 : Qeqb (e_time w) (e_time y) = true) by (apply Qeqb_eq; lra). assert (E2 : Qeqb (e_time y) (e_time z) = true) by (apply Qeqb_eq; lra).
        rewrite E1, A2 in W2. rewrite E2, A3 in B2. cbn in *. destruct (e_urgent y); cbn in *; discriminate. }
      apply Forall_app. split; [eapply Forall_impl; [|exact F1]; intros; apply T; assumption|]. constructor; [assumption|]. eapply Forall_impl; [|exact F2]. intros; apply T2; assumption.
  - injection H as <- <-. destruct l as [|y l]; [|cbn in E; destruct (pop l) as [[? ?]|]; [destruct (before _ _)|]; discriminate]. exists [], []. repeat split; constructor.
Qed.
Lemma pop_none : forall l, pop l = None -> l = [].
Proof. destruct l as [|x l]; [reflexivity|]. cbn. destruct (pop l) as [[? ?]|]; [destruct (before _ _)|]; discriminate. Qed.
Lemma before_time : forall x y, before x y = true -> e_time x <= e_time y.
Proof. intros x y H. unfold before in H. apply orb_true_iff in H as [H|H]; [apply Qltb_lt in H; lra|]. apply andb_true_iff in H as [H _]. apply andb_true_iff in H as [H _]. apply Qeqb_eq in H. lra. Qed.
Lemma not_before_time : forall x y, before x y = false -> e_time y <= e_time x.
Proof. intros x y H. unfold before in H. apply orb_false_iff in H as [H _]. apply Qltb_ge in H. assumption. Qed.
Lemma before_tie : forall x y, before x y = true -> e_time y <= e_time x -> e_urgent x = true /\ e_urgent y = false.
Proof.
  intros x y H L. unfold before in H. apply orb_true_iff in H as [H|H]; [apply Qltb_lt in H; lra|]. apply andb_true_iff in H as [H U]. apply andb_true_iff in H as [_ V].
  split; [exact V|]. apply negb_true_iff. exact U.
Qed.
Lemma not_before_tie : forall x y, before x y = false -> e_time x <= e_time y -> e_urgent x = true -> e_urgent y = true.
Proof.
  intros x y H L U. pose proof (not_before_time _ _ H). unfold before in H. apply orb_false_iff in H as [_ H]. assert (E : Qeqb (e_time x) (e_time y) = true) by (apply Qeqb_eq; lra).
  rewrite E, U in H. cbn in H. apply negb_false_iff. exact H.
Qed.

(** ** The steps, one by one *)
Definition taken_st (s : st) (x : entry) (r : list entry) : st := mkT (e_time x) (t_conf s) (t_net s) (t_msgs s) (t_in s) (t_loop s) r None (t_box s).
Inductive trans (f : cfg) (s : st) : op -> st -> list out -> Prop :=
| TrNone o : trans f s o s []
| TrDeliver k a b failed : t_run s = Some (CSelect k b failed) -> nth_error (t_msgs s) k = Some (a, b) ->
    trans f s UStep (fst (deliver s k a b)) [ADeliver k a b (t_now s)]
| TrHop k cur a b failed hop : t_run s = Some (CSelect k cur failed) -> nth_error (t_msgs s) k = Some (a, b) -> cur <> b ->
    select_hop (t_net s) cur b failed = Some (Some hop) -> trans f s UStep (with_run s (Some (CTest k cur hop failed 0))) []
| TrDrop k cur a b failed : t_run s = Some (CSelect k cur failed) -> nth_error (t_msgs s) k = Some (a, b) -> cur <> b ->
    select_hop (t_net s) cur b failed = Some None -> trans f s UStep (with_run s None) [ADrop k (t_now s)]
| TrFail k cur hop failed taken : t_run s = Some (CTest k cur hop failed taken) -> CommsModel.blocked (t_conf s) cur hop = true -> (taken =? tries f)%Z = true ->
    trans f s UStep (with_run s (Some (CSelect k cur (failed ++ [hop])))) []
| TrRetry k cur hop failed taken : t_run s = Some (CTest k cur hop failed taken) -> CommsModel.blocked (t_conf s) cur hop = true -> (taken =? tries f)%Z = false ->
    trans f s UStep (with_run (schedule s (t_now s + f_rate f) false (ERetry k cur hop failed (taken + 1))) None) []
| TrSend k cur hop failed taken : t_run s = Some (CTest k cur hop failed taken) -> CommsModel.blocked (t_conf s) cur hop = false -> 0 < f_send f ->
    trans f s UStep (with_run (schedule s (t_now s + f_send f) false (ESend k cur hop failed)) None) []
| TrMove k cur hop failed taken : t_run s = Some (CTest k cur hop failed taken) -> CommsModel.blocked (t_conf s) cur hop = false -> f_send f <= 0 ->
    trans f s UStep (with_run s (Some (CSelect k hop (after_hop f failed)))) []
| TrStart x r : t_run s = None -> pop (t_queue s) = Some (x, r) -> e_ev x = EStart -> trans f s UStep (in_get (taken_st s x r)) [AStart (e_time x)]
| TrGot x r k : t_run s = None -> pop (t_queue s) = Some (x, r) -> e_ev x = EGot k ->
    trans f s UStep (in_get (schedule (taken_st s x r) (e_time x) true (EInit k))) []
| TrInit x r k a b : t_run s = None -> pop (t_queue s) = Some (x, r) -> e_ev x = EInit k -> nth_error (t_msgs s) k = Some (a, b) ->
    trans f s UStep (with_run (taken_st s x r) (Some (CSelect k a []))) []
| TrLost x r k : t_run s = None -> pop (t_queue s) = Some (x, r) -> e_ev x = EInit k -> nth_error (t_msgs s) k = None ->
    trans f s UStep (with_run (taken_st s x r) None) []
| TrAgain x r k cur hop failed taken : t_run s = None -> pop (t_queue s) = Some (x, r) -> e_ev x = ERetry k cur hop failed taken ->
    trans f s UStep (with_run (taken_st s x r) (Some (CTest k cur hop failed taken))) []
| TrSent x r k cur hop failed : t_run s = None -> pop (t_queue s) = Some (x, r) -> e_ev x = ESend k cur hop failed ->
    trans f s UStep (with_run (taken_st s x r) (Some (CSelect k hop (after_hop f failed)))) []
| TrTime t : t_run s = None -> t_now s <= t -> Forall (fun e => t <= e_time e) (t_queue s) ->
    trans f s (UTime t) (mkT t (t_conf s) (t_net s) (t_msgs s) (t_in s) (t_loop s) (t_queue s) (t_run s) (t_box s)) []
| TrConf c : t_run s = None -> trans f s (UConf c) (mkT (t_now s) c (t_net s) (t_msgs s) (t_in s) (t_loop s) (t_queue s) (t_run s) (t_box s)) []
| TrNet net : trans f s (UNet net) (mkT (t_now s) (t_conf s) net (t_msgs s) (t_in s) (t_loop s) (t_queue s) (t_run s) (t_box s)) []
| TrPut a b : t_run s = None ->
    trans f s (UPut a b) (in_put (mkT (t_now s) (t_conf s) (t_net s) (t_msgs s ++ [(a, b)]) (t_in s) (t_loop s) (t_queue s) None (t_box s)) (length (t_msgs s)))
      [APut (length (t_msgs s)) a b (t_now s)]
| TrRun : t_run s = None -> t_loop s = LOff -> trans f s URun (schedule (with_in s (t_in s) LBusy) (t_now s) true EStart) [].
Lemma step_trans : forall f s o, trans f s o (fst (step f s o)) (snd (step f s o)).
Proof.
  intros f s o. unfold step. destruct (t_run s) as [c|] eqn:R.
  - destruct o as [|t|c'|net|a b|]; try apply TrNone; [|rewrite <- R; apply TrNet]. destruct c as [k cur failed|k cur hop failed taken]; cbn [advance].
    + destruct (nth_error (t_msgs s) k) as [[a b]|] eqn:M; [|apply TrNone]. destruct (cur =? b)%nat eqn:E.
      * apply Nat.eqb_eq in E. subst cur. eapply TrDeliver; eassumption.
      * apply Nat.eqb_neq in E. destruct (select_hop (t_net s) cur b failed) as [[hop|]|] eqn:H; [eapply TrHop|eapply TrDrop|apply TrNone]; eassumption.
    + destruct (CommsModel.blocked (t_conf s) cur hop) eqn:B.
      * destruct (taken =? tries f)%Z eqn:TK; [eapply TrFail|eapply TrRetry]; eassumption.
      * destruct (Qltb 0 (f_send f)) eqn:S; qbool; [eapply TrSend|eapply TrMove]; eassumption.
  - destruct o as [|t|c'|net|a b|].
    + destruct (pop (t_queue s)) as [[x r]|] eqn:P; [|apply TrNone]. fold (taken_st s x r). destruct (e_ev x) as [|k|k|k cur hop failed taken|k cur hop failed] eqn:E; cbn [process fst snd].
      * apply TrStart; assumption.
      * apply TrGot; assumption.
      * change (t_msgs (taken_st s x r)) with (t_msgs s). destruct (nth_error (t_msgs s) k) as [[a b]|] eqn:M; [eapply TrInit|eapply TrLost]; eassumption.
      * eapply TrAgain; eassumption.
      * eapply TrSent; eassumption.
    + destruct (_ && _) eqn:E; [|apply TrNone]. apply andb_true_iff in E as [E1 E2]. apply Qleb_le in E1. rewrite <- R. apply TrTime; [assumption..|].
      rewrite forallb_forall in E2. apply Forall_forall. intros e I. apply Qleb_le. apply E2. exact I.
    + rewrite <- R. apply TrConf. exact R.
    + rewrite <- R. apply TrNet.
    + cbn. apply TrPut. exact R.
    + destruct (t_loop s) eqn:L; [|apply TrNone..]. apply TrRun; assumption.
Qed.
(** An invariant of the steps holds after every run. *)
Lemma run_inv : forall f (P : st -> list out -> Prop) os s tr,
  P s tr -> (forall s tr o s' l, In o os -> P s tr -> trans f s o s' l -> P s' (tr ++ l)) -> P (fst (run f s os)) (tr ++ snd (run f s os)).
Proof.
  intros f P. induction os as [|o os IH]; intros s tr H S; cbn; [rewrite app_nil_r; exact H|].
  pose proof (step_trans f s o) as T. destruct (step f s o) as [s1 l1]. cbn in T. pose proof (S s tr o s1 l1 (or_introl eq_refl) H T) as H1.
  pose proof (IH s1 (tr ++ l1) H1 (fun s tr o s' l I => S s tr o s' l (or_intror I))) as H2. destruct (run f s1 os) as [s2 l2]. cbn in *. rewrite app_assoc. exact H2.
Qed.

(** ** Time *)
Definition instant (e : ev) : bool := match e with ESend _ _ _ _ | ERetry _ _ _ _ _ => false | _ => true end.
Definition sending (e : ev) : bool := match e with ESend _ _ _ _ => true | _ => false end.
Definition urgency (e : ev) : bool := match e with EStart | EInit _ => true | _ => false end.
Definition on_time (f : cfg) (now : Q) (e : entry) : Prop :=
  now <= e_time e /\ (instant (e_ev e) = true -> e_time e == now) /\ (sending (e_ev e) = true -> 0 < f_send f) /\ e_urgent e = urgency (e_ev e).
Definition timed (f : cfg) (s : st) : Prop := Forall (on_time f (t_now s)) (t_queue s).
Lemma pop_later : forall l x r y, pop l = Some (x, r) -> In y l -> e_time x <= e_time y.
Proof.
  intros l x r y P I. destruct (pop_split _ _ _ P) as (l1 & l2 & -> & _ & F1 & F2). rewrite Forall_forall in F1, F2. apply in_app_or in I as [I|[->|I]].
  - apply before_time. auto.
  - lra.
  - apply not_before_time. auto.
Qed.
Lemma pop_in : forall l x r, pop l = Some (x, r) -> In x l /\ incl r l.
Proof.
  intros l x r P. destruct (pop_split _ _ _ P) as (l1 & l2 & -> & -> & _). split; [apply in_or_app; right; left; reflexivity|].
  intros y I. apply in_app_or in I. apply in_or_app. destruct I; [left|right; right]; assumption.
Qed.
Lemma timed_taken : forall f s x r, timed f s -> pop (t_queue s) = Some (x, r) -> timed f (taken_st s x r) /\ t_now s <= e_time x.
Proof.
  intros f s x r F P. destruct (pop_in _ _ _ P) as [IX IR]. unfold timed in *. rewrite Forall_forall in F. assert (NX : t_now s <= e_time x) by (apply F; assumption).
  split; [|assumption]. cbn. rewrite Forall_forall. intros y Y. specialize (IR y Y). pose proof (pop_later _ _ _ _ P IR) as L. destruct (F y IR) as (A & B & C & D).
  split; [assumption|]. split; [intro I; specialize (B I); lra|]. split; assumption.
Qed.
Lemma timed_app : forall f s t u e, timed f s -> u = urgency e -> t_now s <= t -> (instant e = true -> t == t_now s) -> (sending e = true -> 0 < f_send f) -> timed f (schedule s t u e).
Proof. intros f s t u e T U L I S. unfold timed. cbn. apply Forall_app. split; [exact T|]. constructor; [|constructor]. repeat split; assumption. Qed.
Lemma timed_get : forall f s, timed f s -> timed f (in_get s).
Proof. intros f s T. unfold in_get. destruct (t_in s); [exact T|]. apply timed_app; try reflexivity; [exact T|cbn; lra|discriminate]. Qed.
Lemma now_get : forall s, t_now (in_get s) = t_now s. Proof. intro s. unfold in_get. destruct (t_in s); reflexivity. Qed.
Lemma now_put : forall s k, t_now (in_put s k) = t_now s. Proof. intros s k. unfold in_put. destruct (t_loop s); try reflexivity. rewrite now_get. reflexivity. Qed.
Lemma timed_trans : forall f s o s' l, good f -> timed f s -> trans f s o s' l -> timed f s' /\ t_now s <= t_now s'.
Proof.
  intros f s o s' l [G1 G2] T TR.
  destruct TR as [o|k a b fl R M|k cur a b fl hop R M N H|k cur a b fl R M N H|k cur hop fl tk R B|k cur hop fl tk R B|k cur hop fl tk R B S|k cur hop fl tk R B S|x r R P E|x r k R P E|x r k a b R P E M|x r k R P E M|x r k cur hop fl tk R P E|x r k cur hop fl R P E|t R L F|c R|net|a b R|R L].
  all: try (split; [exact T|cbn; lra]).
  - split; [|cbn; lra]. apply (timed_app f s); try reflexivity; [exact T|lra|discriminate|discriminate].
  - split; [|cbn; lra]. apply (timed_app f s); try reflexivity; [exact T|lra|discriminate|auto].
  - destruct (timed_taken f s x r T P). rewrite now_get. split; [apply timed_get; assumption|assumption].
  - destruct (timed_taken f s x r T P). rewrite now_get. split; [apply timed_get|assumption]. apply timed_app; try reflexivity; [assumption|cbn; lra|discriminate].
  - destruct (timed_taken f s x r T P). split; assumption.
  - destruct (timed_taken f s x r T P). split; assumption.
  - destruct (timed_taken f s x r T P). split; assumption.
  - destruct (timed_taken f s x r T P). split; assumption.
  - split; [|exact L]. unfold timed in *. cbn. rewrite Forall_forall in *. intros e I. destruct (T e I) as (A & B & C & D). specialize (F e I). split; [exact F|]. split; [intro X; specialize (B X); lra|auto].
  - rewrite now_put. split; [|cbn; lra]. unfold in_put. cbn [t_loop]. destruct (t_loop s); try exact T. apply timed_get. exact T.
  - split; [|cbn; lra]. apply timed_app; try reflexivity; [exact T|cbn; lra|discriminate].
Qed.

(** ** Where the messages are *)
Definition inis (q : list entry) : list nat := flat_map (fun e => match e_ev e with EInit k => [k] | _ => [] end) q.
Definition gots (q : list entry) : list nat := flat_map (fun e => match e_ev e with EGot k => [k] | _ => [] end) q.
Definition movs (q : list entry) : list nat := flat_map (fun e => match e_ev e with ERetry k _ _ _ _ | ESend k _ _ _ => [k] | _ => [] end) q.
Definition on_stage (c : option code) : list nat := match c with Some (CSelect k _ _) | Some (CTest k _ _ _ _) => [k] | None => [] end.
Definition waiting (s : st) : list nat := inis (t_queue s) ++ gots (t_queue s) ++ t_in s.
Definition moving (s : st) : list nat := movs (t_queue s) ++ on_stage (t_run s).
Definition loopev (e : ev) : bool := match e with EStart | EGot _ => true | _ => false end.
Definition nloop (q : list entry) : nat := length (filter (fun e => loopev (e_ev e)) q).
Definition busy (l : loop) : nat := match l with LBusy => 1 | _ => 0 end.
Lemma inis_app p q : inis (p ++ q) = inis p ++ inis q. Proof. apply flat_map_app. Qed.
Lemma gots_app p q : gots (p ++ q) = gots p ++ gots q. Proof. apply flat_map_app. Qed.
Lemma movs_app p q : movs (p ++ q) = movs p ++ movs q. Proof. apply flat_map_app. Qed.
Lemma nloop_app p q : nloop (p ++ q) = (nloop p + nloop q)%nat. Proof. unfold nloop. rewrite filter_app, app_length. reflexivity. Qed.
Lemma gots_nloop q : (length (gots q) <= nloop q)%nat.
Proof. induction q as [|e q IH]; [cbn; lia|]. change (e :: q) with ([e] ++ q). rewrite gots_app, nloop_app, app_length. unfold nloop at 1, gots at 1. cbn. destruct (e_ev e); cbn; lia. Qed.
Record placed (s : st) (tr : list out) : Prop := mkPlaced {
  pl_loop : nloop (t_queue s) = busy (t_loop s) /\ (t_loop s = LWait -> t_in s = []);
  pl_inis : (length (inis (t_queue s)) <= 1)%nat;
  pl_split : exists w, (w <= length (t_msgs s))%nat /\ waiting s = seq w (length (t_msgs s) - w) /\ Permutation (seq 0 w) (settled tr ++ moving s);
  pl_all : all_puts tr = seq 0 (length (t_msgs s));
  pl_msg : forall k a b t, In (APut k a b t) tr -> nth_error (t_msgs s) k = Some (a, b) /\ t <= t_now s;
  pl_put : forall k a b, nth_error (t_msgs s) k = Some (a, b) -> exists t, In (APut k a b t) tr;
  pl_mono : forall k k' a b a' b' t t', In (APut k a b t) tr -> In (APut k' a' b' t') tr -> (k <= k')%nat -> t <= t';
  pl_box : forall b, t_box s b = came b tr;
  pl_del : forall k a b t, In (ADeliver k a b t) tr -> nth_error (t_msgs s) k = Some (a, b) /\ t <= t_now s }.
Arguments nloop : simpl never.
Arguments inis : simpl never.
Arguments gots : simpl never.
Arguments movs : simpl never.
Lemma popped : forall (g : list entry -> list nat), (forall p q, g (p ++ q) = g p ++ g q) -> forall q x r, pop q = Some (x, r) -> Permutation (g q) (g [x] ++ g r) /\ (g [x] = [] -> g q = g r).
Proof.
  intros g A q x r P. destruct (pop_split _ _ _ P) as (l1 & l2 & -> & -> & _). change (x :: l2) with ([x] ++ l2). rewrite !A. split.
  - rewrite app_assoc. etransitivity; [apply Permutation_app_tail; apply Permutation_app_comm|]. rewrite <- app_assoc. reflexivity.
  - intros ->. reflexivity.
Qed.
Lemma nloop_popped : forall q x r, pop q = Some (x, r) -> nloop q = (nloop [x] + nloop r)%nat.
Proof. intros q x r P. destruct (pop_split _ _ _ P) as (l1 & l2 & -> & -> & _). change (x :: l2) with ([x] ++ l2). rewrite !nloop_app. lia. Qed.
Lemma no_init : forall f s x r, timed f s -> pop (t_queue s) = Some (x, r) -> e_urgent x = false -> inis (t_queue s) = [].
Proof.
  intros f s x r T P U. unfold timed in T. rewrite Forall_forall in T. destruct (inis (t_queue s)) as [|k l] eqn:E; [reflexivity|exfalso].
  assert (I : In k (inis (t_queue s))) by (rewrite E; left; reflexivity). unfold inis in I. apply in_flat_map in I as (y & Y & K). destruct (e_ev y) eqn:EY; try (destruct K; fail).
  destruct (T y Y) as (_ & B & _ & D). rewrite EY in B, D. cbn in B, D. specialize (B eq_refl). destruct (pop_in _ _ _ P) as [IX _]. destruct (T x IX) as (A & _).
  pose proof (pop_later _ _ _ _ P Y) as L. destruct (pop_split _ _ _ P) as (l1 & l2 & Q & _ & F1 & F2). rewrite Forall_forall in F1, F2. rewrite Q in Y. apply in_app_or in Y as [Y|[Y|Y]].
  - destruct (before_tie _ _ (F1 y Y)); [lra|congruence].
  - subst y. congruence.
  - pose proof (not_before_tie _ _ (F2 y Y) ltac:(lra) D). congruence.
Qed.
Lemma all_puts_app p q : all_puts (p ++ q) = all_puts p ++ all_puts q. Proof. apply flat_map_app. Qed.
Lemma settled_app p q : settled (p ++ q) = settled p ++ settled q. Proof. apply flat_map_app. Qed.
Lemma came_app b p q : came b (p ++ q) = came b p ++ came b q. Proof. apply flat_map_app. Qed.
(** Steps that put nothing and deliver nothing, and leave the messages *)
Lemma placed_quiet : forall s tr s' l, placed s tr -> t_now s <= t_now s' -> t_msgs s' = t_msgs s -> t_box s' = t_box s ->
  (forall o, In o l -> match o with AStart _ | ADrop _ _ => True | _ => False end) ->
  (nloop (t_queue s') = busy (t_loop s') /\ (t_loop s' = LWait -> t_in s' = [])) -> (length (inis (t_queue s')) <= 1)%nat ->
  (exists w, (w <= length (t_msgs s))%nat /\ waiting s' = seq w (length (t_msgs s) - w) /\ Permutation (seq 0 w) (settled (tr ++ l) ++ moving s')) ->
  placed s' (tr ++ l).
Proof.
  intros s tr s' l H N M B Q L I W.
  assert (AP : all_puts l = []) by (clear -Q; induction l as [|o l IH]; [reflexivity|]; pose proof (Q o (or_introl eq_refl)); destruct o; try contradiction; cbn; apply IH; intros; apply Q; right; assumption).
  assert (CP : forall b, came b l = []) by (clear -Q; intro b; induction l as [|o l IH]; [reflexivity|]; pose proof (Q o (or_introl eq_refl)); destruct o; try contradiction; cbn; apply IH; intros; apply Q; right; assumption).
  constructor; auto.
  - rewrite M. exact W.
  - rewrite all_puts_app, AP, app_nil_r, M. apply (pl_all _ _ H).
  - intros k a b t X. apply in_app_or in X as [X|X]; [|destruct (Q _ X)]. rewrite M. destruct (pl_msg _ _ H _ _ _ _ X). split; [assumption|lra].
  - intros k a b X. rewrite M in X. destruct (pl_put _ _ H _ _ _ X) as (t & Y). exists t. apply in_or_app. left. exact Y.
  - intros k k' a b a' b' t t' X Y. apply in_app_or in X as [X|X]; [|destruct (Q _ X)]. apply in_app_or in Y as [Y|Y]; [|destruct (Q _ Y)]. eapply (pl_mono _ _ H); eassumption.
  - intro b. rewrite B, came_app, CP, app_nil_r. apply (pl_box _ _ H).
  - intros k a b t X. apply in_app_or in X as [X|X]; [|destruct (Q _ X)]. rewrite M. destruct (pl_del _ _ H _ _ _ _ X). split; [assumption|lra].
Qed.
Lemma in_get_where : forall s, nloop (t_queue s) = 0%nat -> waiting (in_get s) = waiting s /\ moving (in_get s) = moving s /\
  (nloop (t_queue (in_get s)) = busy (t_loop (in_get s)) /\ (t_loop (in_get s) = LWait -> t_in (in_get s) = [])) /\ inis (t_queue (in_get s)) = inis (t_queue s) /\
  t_msgs (in_get s) = t_msgs s /\ t_box (in_get s) = t_box s.
Proof.
  intros s N. pose proof (gots_nloop (t_queue s)) as G. rewrite N in G. assert (G0 : gots (t_queue s) = []) by (destruct (gots (t_queue s)); [reflexivity|cbn in G; lia]).
  unfold in_get, waiting, moving. destruct (t_in s) as [|k r] eqn:I; cbn.
  - repeat split; try reflexivity; assumption.
  - rewrite inis_app, gots_app, movs_app, nloop_app, G0, N. cbn. unfold inis at 2, movs at 2. cbn. rewrite !app_nil_r. repeat split; try reflexivity. discriminate.
Qed.
Lemma placed_trans : forall f s tr o s' l, good f -> timed f s -> placed s tr -> trans f s o s' l -> placed s' (tr ++ l).
Proof.
  intros f s tr o s' l G T H TR. destruct (timed_trans _ _ _ _ _ G T TR) as [_ TN].
  destruct (pl_split _ _ H) as (w & W1 & W2 & W3). pose proof (pl_loop _ _ H) as [LP LW]. pose proof (pl_inis _ _ H) as IN. unfold waiting, moving in W2, W3.
  destruct TR as [o|k a b fl R M|k cur a b fl hop R M N Hh|k cur a b fl R M N Hh|k cur hop fl tk R B|k cur hop fl tk R B|k cur hop fl tk R B S|k cur hop fl tk R B S|x r R P E|x r k R P E|x r k a b R P E M|x r k R P E M|x r k cur hop fl tk R P E|x r k cur hop fl R P E|t R L F|c R|net|a b R|R L].
  - rewrite app_nil_r. exact H.
  - (* a delivery *)
    constructor; cbn; auto.
    + exists w. split; [exact W1|]. split; [exact W2|]. rewrite settled_app. unfold moving. cbn. rewrite R in W3. cbn in W3. etransitivity; [exact W3|]. rewrite app_nil_r, <- app_assoc. apply Permutation_app_head. apply Permutation_app_comm.
    + rewrite all_puts_app. cbn. rewrite app_nil_r. apply (pl_all _ _ H).
    + intros k' a' b' t X. apply in_app_or in X as [X|[X|[]]]; [|discriminate]. apply (pl_msg _ _ H _ _ _ _ X).
    + intros k' a' b' X. destruct (pl_put _ _ H _ _ _ X) as (t & Y). exists t. apply in_or_app. left. exact Y.
    + intros k1 k2 a1 b1 a2 b2 t1 t2 X Y. apply in_app_or in X as [X|[X|[]]]; [|discriminate]. apply in_app_or in Y as [Y|[Y|[]]]; [|discriminate]. eapply (pl_mono _ _ H); eassumption.
    + intro d. rewrite came_app. cbn. rewrite (Nat.eqb_sym b d). destruct (d =? b)%nat; rewrite (pl_box _ _ H); [reflexivity|rewrite app_nil_r; reflexivity].
    + intros k' a' b' t X. apply in_app_or in X as [X|[X|[]]]; [apply (pl_del _ _ H _ _ _ _ X)|]. injection X as <- <- <- <-. split; [exact M|lra].
  - eapply placed_quiet; try eassumption; try reflexivity; [intros ? []|auto|]. exists w. rewrite app_nil_r. unfold waiting, moving. cbn. rewrite R in W3. auto.
  - eapply placed_quiet; try eassumption; try reflexivity; [intros o [<-|[]]; exact I|auto|]. exists w. split; [exact W1|]. split; [exact W2|]. rewrite settled_app. unfold moving. cbn. rewrite R in W3. cbn in W3.
    etransitivity; [exact W3|]. rewrite app_nil_r, <- app_assoc. apply Permutation_app_head. apply Permutation_app_comm.
  - eapply placed_quiet; try eassumption; try reflexivity; [intros ? []|auto|]. exists w. rewrite app_nil_r. unfold waiting, moving. cbn. rewrite R in W3. auto.
  - eapply placed_quiet; try eassumption; try reflexivity; cbn; [intros ? []|rewrite nloop_app; unfold nloop at 2; cbn; rewrite Nat.add_0_r; auto|rewrite inis_app; unfold inis at 2; cbn; rewrite app_nil_r; exact IN|].
    exists w. rewrite app_nil_r. unfold waiting, moving. cbn. rewrite inis_app, gots_app, movs_app. unfold inis at 2, gots at 2, movs at 2. cbn. rewrite !app_nil_r. rewrite R in W3. auto.
  - eapply placed_quiet; try eassumption; try reflexivity; cbn; [intros ? []|rewrite nloop_app; unfold nloop at 2; cbn; rewrite Nat.add_0_r; auto|rewrite inis_app; unfold inis at 2; cbn; rewrite app_nil_r; exact IN|].
    exists w. rewrite app_nil_r. unfold waiting, moving. cbn. rewrite inis_app, gots_app, movs_app. unfold inis at 2, gots at 2, movs at 2. cbn. rewrite !app_nil_r. rewrite R in W3. auto.
  - eapply placed_quiet; try eassumption; try reflexivity; [intros ? []|auto|]. exists w. rewrite app_nil_r. unfold waiting, moving. cbn. rewrite R in W3. auto.
  - (* run() begins *)
    assert (N1 : nloop [x] = 1%nat) by (unfold nloop; cbn; rewrite E; reflexivity).
    pose proof (nloop_popped _ _ _ P) as NL. assert (N0 : nloop r = 0%nat) by (destruct (t_loop s); cbn in LP; lia).
    destruct (in_get_where (taken_st s x r) N0) as (A1 & A2 & A3 & A4 & A5 & A6). pose proof (popped inis inis_app _ _ _ P) as [_ PI]. pose proof (popped gots gots_app _ _ _ P) as [_ PG]. pose proof (popped movs movs_app _ _ _ P) as [_ PM].
    unfold inis at 1 in PI. unfold gots at 1 in PG. unfold movs at 1 in PM. cbn in PI, PG, PM. rewrite E in *. specialize (PI eq_refl). specialize (PG eq_refl). specialize (PM eq_refl).
    eapply placed_quiet; try eassumption; [intros o [<-|[]]; exact I|rewrite A4; cbn; rewrite <- PI; exact IN|].
    exists w. rewrite A1, A2, settled_app. cbn. rewrite app_nil_r. unfold waiting, moving. cbn. rewrite <- PI, <- PG, <- PM. rewrite R in W3. auto.
  - (* a message is taken *)
    assert (N1 : nloop [x] = 1%nat) by (unfold nloop; cbn; rewrite E; reflexivity).
    pose proof (nloop_popped _ _ _ P) as NL. assert (N0 : nloop r = 0%nat) by (destruct (t_loop s); cbn in LP; lia).
    assert (U : e_urgent x = false). { unfold timed in T. rewrite Forall_forall in T. destruct (T x (proj1 (pop_in _ _ _ P))) as (_ & _ & _ & D). rewrite E in D. exact D. }
    pose proof (no_init f s x r T P U) as I0. pose proof (popped inis inis_app _ _ _ P) as [PI _]. pose proof (popped gots gots_app _ _ _ P) as [PG _]. pose proof (popped movs movs_app _ _ _ P) as [_ PM].
    unfold gots at 2 in PG. unfold movs at 1 in PM. cbn in PG, PM. rewrite E in *. specialize (PM eq_refl).
    assert (I1 : inis r = []). { rewrite I0 in PI. apply Permutation_nil in PI. apply app_eq_nil in PI. tauto. }
    assert (G1 : gots r = []) by (pose proof (gots_nloop r) as X; rewrite N0 in X; destruct (gots r); [reflexivity|cbn in X; lia]).
    rewrite G1 in PG. cbn in PG. apply Permutation_sym, Permutation_length_1_inv in PG.
    assert (NS : nloop (t_queue (schedule (taken_st s x r) (e_time x) true (EInit k))) = 0%nat) by (cbn; rewrite nloop_app, N0; reflexivity).
    destruct (in_get_where _ NS) as (A1 & A2 & A3 & A4 & A5 & A6).
    eapply placed_quiet; try eassumption; [intros ? []|rewrite A4; cbn; rewrite inis_app, I1; unfold inis; cbn; lia|].
    exists w. rewrite A1, A2, app_nil_r. unfold waiting, moving. cbn. rewrite inis_app, gots_app, movs_app, I1, G1. unfold inis, gots, movs at 2. cbn. fold movs. rewrite app_nil_r, <- PM.
    rewrite I0, PG in W2. cbn in W2. rewrite R in W3. auto.
  - (* its transmission starts *)
    pose proof (popped inis inis_app _ _ _ P) as [PI _]. pose proof (popped gots gots_app _ _ _ P) as [_ PG]. pose proof (popped movs movs_app _ _ _ P) as [_ PM]. pose proof (nloop_popped _ _ _ P) as NL.
    unfold inis at 2 in PI. unfold gots at 1 in PG. unfold movs at 1 in PM. unfold nloop at 2 in NL. cbn in PI, PG, PM, NL. rewrite E in *. specialize (PG eq_refl). specialize (PM eq_refl). cbn in PI, NL.
    assert (I1 : inis r = []) by (apply Permutation_length in PI; cbn in PI; destruct (inis r); [reflexivity|cbn in PI; lia]).
    rewrite I1 in PI. apply Permutation_sym, Permutation_length_1_inv in PI. rewrite PI in W2. cbn in W2.
    destruct (length (t_msgs s) - w)%nat as [|d] eqn:D; [discriminate|]. cbn in W2. injection W2 as -> W2.
    eapply placed_quiet; try eassumption; try reflexivity; cbn; [intros ? []|rewrite <- NL; auto|rewrite I1; cbn; lia|].
    exists (S w). split; [lia|]. split; [unfold waiting; cbn; rewrite I1, <- PG; cbn; replace (length (t_msgs s) - S w)%nat with d by lia; exact W2|].
    rewrite app_nil_r, seq_S. unfold moving. cbn. rewrite <- PM, app_assoc. apply Permutation_app_tail. rewrite R in W3. cbn in W3. rewrite app_nil_r in W3. exact W3.
  - exfalso. pose proof (popped inis inis_app _ _ _ P) as [PI _]. unfold inis at 2 in PI. cbn in PI. rewrite E in PI. cbn in PI.
    assert (IK : In k (seq w (length (t_msgs s) - w))) by (rewrite <- W2; apply in_or_app; left; eapply Permutation_in; [apply Permutation_sym; exact PI|]; left; reflexivity).
    apply in_seq in IK. apply nth_error_None in M. lia.
  - pose proof (popped inis inis_app _ _ _ P) as [_ PI]. pose proof (popped gots gots_app _ _ _ P) as [_ PG]. pose proof (popped movs movs_app _ _ _ P) as [PM _]. pose proof (nloop_popped _ _ _ P) as NL.
    unfold inis at 1 in PI. unfold gots at 1 in PG. unfold movs at 2 in PM. unfold nloop at 2 in NL. cbn in PI, PG, PM, NL. rewrite E in *. specialize (PG eq_refl). specialize (PI eq_refl). cbn in PM, NL.
    eapply placed_quiet; try eassumption; try reflexivity; cbn; [intros ? []|rewrite <- NL; auto|rewrite <- PI; exact IN|].
    exists w. split; [exact W1|]. split; [unfold waiting; cbn; rewrite <- PI, <- PG; exact W2|]. rewrite app_nil_r. unfold moving. cbn. etransitivity; [exact W3|]. apply Permutation_app_head. rewrite R. cbn. rewrite app_nil_r.
    etransitivity; [exact PM|]. change (k :: movs r) with ([k] ++ movs r). apply Permutation_app_comm.
  - pose proof (popped inis inis_app _ _ _ P) as [_ PI]. pose proof (popped gots gots_app _ _ _ P) as [_ PG]. pose proof (popped movs movs_app _ _ _ P) as [PM _]. pose proof (nloop_popped _ _ _ P) as NL.
    unfold inis at 1 in PI. unfold gots at 1 in PG. unfold movs at 2 in PM. unfold nloop at 2 in NL. cbn in PI, PG, PM, NL. rewrite E in *. specialize (PG eq_refl). specialize (PI eq_refl). cbn in PM, NL.
    eapply placed_quiet; try eassumption; try reflexivity; cbn; [intros ? []|rewrite <- NL; auto|rewrite <- PI; exact IN|].
    exists w. split; [exact W1|]. split; [unfold waiting; cbn; rewrite <- PI, <- PG; exact W2|]. rewrite app_nil_r. unfold moving. cbn. etransitivity; [exact W3|]. apply Permutation_app_head. rewrite R. cbn. rewrite app_nil_r.
    etransitivity; [exact PM|]. change (k :: movs r) with ([k] ++ movs r). apply Permutation_app_comm.
  - eapply placed_quiet; try eassumption; try reflexivity; [intros ? []|auto|]. exists w. rewrite app_nil_r. unfold waiting, moving. cbn. auto.
  - eapply placed_quiet; try eassumption; try reflexivity; [intros ? []|auto|]. exists w. rewrite app_nil_r. unfold waiting, moving. cbn. auto.
  - eapply placed_quiet; try eassumption; try reflexivity; [intros ? []|auto|]. exists w. rewrite app_nil_r. unfold waiting, moving. cbn. auto.
  - (* a put *)
    set (n := length (t_msgs s)) in *. set (s0 := mkT _ _ _ _ _ _ _ _ _).
    assert (PW : waiting (in_put s0 n) = waiting s ++ [n] /\ moving (in_put s0 n) = moving s /\ (nloop (t_queue (in_put s0 n)) = busy (t_loop (in_put s0 n)) /\ (t_loop (in_put s0 n) = LWait -> t_in (in_put s0 n) = [])) /\
      inis (t_queue (in_put s0 n)) = inis (t_queue s) /\ t_msgs (in_put s0 n) = t_msgs s ++ [(a, b)] /\ t_box (in_put s0 n) = t_box s /\ t_now (in_put s0 n) = t_now s).
    { unfold in_put. destruct (t_loop s0) eqn:L; unfold s0 in L; cbn in L.
      - unfold waiting, moving. cbn. rewrite R, !app_assoc. repeat split; auto; [rewrite LP, L; reflexivity|discriminate].
      - set (s1 := with_in s0 _ _). assert (NS : nloop (t_queue s1) = 0%nat) by (cbn; rewrite LP, L; reflexivity).
        destruct (in_get_where s1 NS) as (A1 & A2 & A3 & A4 & A5 & A6). rewrite A1, A2, A4, A5, A6, now_get. unfold waiting, moving. cbn. rewrite R, !app_assoc. repeat split; auto; tauto.
      - unfold waiting, moving. cbn. rewrite R, !app_assoc. repeat split; auto; [rewrite LP, L; reflexivity|discriminate]. }
    destruct PW as (PW1 & PW2 & PW3 & PW4 & PW5 & PW6 & PW7).
    assert (LEN : length (t_msgs s ++ [(a, b)]) = S n) by (rewrite app_length; cbn; unfold n; lia).
    constructor.
    + exact PW3.
    + rewrite PW4. exact IN.
    + exists w. rewrite PW5, LEN. split; [lia|]. rewrite PW1, PW2, settled_app. cbn [settled flat_map]. rewrite app_nil_r. unfold waiting. rewrite W2. split; [|exact W3].
      replace (S n - w)%nat with (S (n - w)) by lia. rewrite seq_S. repeat f_equal. lia.
    + rewrite all_puts_app, (pl_all _ _ H), PW5, LEN, seq_S. reflexivity.
    + intros k' a' b' t X. rewrite PW5, PW7. apply in_app_or in X as [X|[X|[]]].
      * destruct (pl_msg _ _ H _ _ _ _ X) as [Y Z]. split; [|exact Z]. rewrite nth_error_app1; [exact Y|]. apply nth_error_Some. congruence.
      * injection X as <- <- <- <-. rewrite nth_error_app2 by (unfold n; lia). unfold n. rewrite Nat.sub_diag. split; [reflexivity|lra].
    + intros k' a' b' X. rewrite PW5 in X. destruct (lt_dec k' n) as [Lk|Lk].
      * rewrite nth_error_app1 in X by exact Lk. destruct (pl_put _ _ H _ _ _ X) as (t & Y). exists t. apply in_or_app. left. exact Y.
      * rewrite nth_error_app2 in X by lia. fold n in X. destruct (k' - n)%nat as [|d] eqn:D; [|destruct d; discriminate]. injection X as <- <-. exists (t_now s). apply in_or_app. right. left. f_equal. lia.
    + intros k1 k2 a1 b1 a2 b2 t1 t2 X Y LE. apply in_app_or in X as [X|[X|[]]]; apply in_app_or in Y as [Y|[Y|[]]].
      * eapply (pl_mono _ _ H); eassumption.
      * injection Y as <- <- <- <-. apply (pl_msg _ _ H _ _ _ _ X).
      * injection X as <- <- <- <-. exfalso. destruct (pl_msg _ _ H _ _ _ _ Y) as [Z _]. assert (k2 < n)%nat by (apply nth_error_Some; congruence). lia.
      * injection X as <- <- <- <-. injection Y as <- <- <- <-. lra.
    + intro d. rewrite PW6, came_app. cbn. rewrite app_nil_r. apply (pl_box _ _ H).
    + intros k' a' b' t X. apply in_app_or in X as [X|[X|[]]]; [|discriminate]. rewrite PW5, PW7. destruct (pl_del _ _ H _ _ _ _ X) as [Y Z]. split; [|exact Z]. rewrite nth_error_app1; [exact Y|]. apply nth_error_Some. congruence.
  - (* run() is called *)
    eapply placed_quiet; try eassumption; try reflexivity; cbn; [intros ? []|rewrite nloop_app, LP, L; split; [reflexivity|discriminate]|rewrite inis_app; unfold inis at 2; cbn; rewrite app_nil_r; exact IN|].
    exists w. rewrite app_nil_r. unfold waiting, moving. cbn. rewrite inis_app, gots_app, movs_app. unfold inis at 2, gots at 2, movs at 2. cbn. rewrite !app_nil_r. auto.
Qed.
Lemma placed_init : forall c net t0, placed (init c net t0) [].
Proof.
  intros. constructor; try (cbn; intros; contradiction); try reflexivity.
  - split; [reflexivity|discriminate].
  - unfold inis. cbn. lia.
  - exists 0%nat. split; [cbn; lia|]. split; [reflexivity|constructor].
  - intros [|k] a b X; discriminate.
Qed.

(** ** The start of run() *)
Record clocked (s : st) (tr : list out) : Prop := mkClocked {
  c_past : forall ts, In (AStart ts) tr -> ts <= t_now s;
  c_once : forall ts, In (AStart ts) tr -> t_loop s <> LOff /\ forall e, In e (t_queue s) -> e_ev e <> EStart;
  c_same : forall ts ts', In (AStart ts) tr -> In (AStart ts') tr -> ts == ts';
  c_begun : (t_loop s = LWait \/ (exists e, In e (t_queue s) /\ e_ev e <> EStart) \/ t_run s <> None \/ settled tr <> []) -> exists ts, In (AStart ts) tr;
  c_wait : forall k a b tp ts, In k (waiting s) -> In (APut k a b tp) tr -> In (AStart ts) tr -> later tp ts == t_now s }.
Lemma still_now : forall f s tr t, timed f s -> placed s tr -> clocked s tr -> waiting s <> [] -> (exists ts, In (AStart ts) tr) -> t_now s <= t ->
  Forall (fun e => t <= e_time e) (t_queue s) -> t == t_now s.
Proof.
  intros f s tr t T H C W (ts & A) L F. unfold timed in T. rewrite Forall_forall in T, F.
  assert (X : exists e, In e (t_queue s) /\ instant (e_ev e) = true).
  { unfold waiting in W. destruct (inis (t_queue s)) as [|k l] eqn:EI.
    - destruct (gots (t_queue s)) as [|k l] eqn:EG.
      + destruct (c_once _ _ C ts A) as [NO _]. destruct (pl_loop _ _ H) as [LP LW]. destruct (t_loop s); [congruence|rewrite (LW eq_refl) in W; elim W; reflexivity|].
        cbn in LP. unfold nloop in LP. destruct (filter (fun e => loopev (e_ev e)) (t_queue s)) as [|e q] eqn:FL; [discriminate|].
        assert (I : In e (filter (fun e => loopev (e_ev e)) (t_queue s))) by (rewrite FL; left; reflexivity). apply filter_In in I as [I1 I2]. exists e. split; [exact I1|]. destruct (e_ev e); try discriminate; reflexivity.
      + assert (I : In k (gots (t_queue s))) by (rewrite EG; left; reflexivity). unfold gots in I. apply in_flat_map in I as (e & I1 & I2). exists e. split; [exact I1|]. destruct (e_ev e); try (destruct I2; fail); reflexivity.
    - assert (I : In k (inis (t_queue s))) by (rewrite EI; left; reflexivity). unfold inis in I. apply in_flat_map in I as (e & I1 & I2). exists e. split; [exact I1|]. destruct (e_ev e); try (destruct I2; fail); reflexivity. }
  destruct X as (e & I1 & I2). destruct (T e I1) as (_ & B & _). specialize (B I2). specialize (F e I1). lra.
Qed.
Lemma later_now : forall tp ts now, tp <= now -> ts <= now -> tp == now \/ ts == now -> later tp ts == now.
Proof. intros tp ts now A B C. unfold later. destruct (Qltb tp ts) eqn:E; qbool; lra. Qed.
Lemma movs1 e : movs [e] = match e_ev e with ERetry k _ _ _ _ | ESend k _ _ _ => [k] | _ => [] end.
Proof. unfold movs. cbn. destruct (e_ev e); reflexivity. Qed.
Lemma waiting_trans : forall f s tr o s' l, good f -> timed f s -> placed s tr -> trans f s o s' l ->
  (forall k, In k (waiting s') -> In k (waiting s) \/ (exists a b, o = UPut a b /\ k = length (t_msgs s))).
Proof.
  intros f s tr o s' l G T H TR k' IK. pose proof (placed_trans f s tr o s' l G T H TR) as H'.
  destruct (pl_split _ _ H) as (w & W1 & W2 & W3). destruct (pl_split _ _ H') as (w' & W1' & W2' & W3').
  assert (LE : (w <= w')%nat \/ True) by (right; exact I). clear LE.
  (* what was not waiting is moving or settled, and stays so *)
  rewrite W2' in IK. apply in_seq in IK. rewrite W2.
  assert (M : t_msgs s' = t_msgs s \/ exists a b, o = UPut a b /\ t_msgs s' = t_msgs s ++ [(a, b)]).
  { destruct TR; auto; try (left; unfold in_get; destruct (t_in _); reflexivity). right. exists a, b. split; [reflexivity|]. unfold in_put, in_get. cbn. destruct (t_loop s); try reflexivity. destruct (t_in s); reflexivity. }
  assert (MV : forall k, In k (settled tr ++ moving s) -> In k (settled (tr ++ l) ++ moving s')).
  { intros k IK'. rewrite settled_app. rewrite !in_app_iff in *. destruct IK' as [X|X]; [auto|].
    destruct TR as [o|k0 a b fl R Mk|k0 cur a b fl hop R Mk N Hh|k0 cur a b fl R Mk N Hh|k0 cur hop fl tk R B|k0 cur hop fl tk R B|k0 cur hop fl tk R B S|k0 cur hop fl tk R B S|x r R P E|x r k0 R P E|x r k0 a b R P E Mk|x r k0 R P E Mk|x r k0 cur hop fl tk R P E|x r k0 cur hop fl R P E|t R L F|c R|net|a b R|R L];
      unfold moving in *; cbn; rewrite ?R in X; cbn in X; auto.
    all: rewrite ?in_app_iff in X; cbn in X.
    all: try (match goal with P : pop _ = Some _ |- _ => destruct (popped movs movs_app _ _ _ P) as [PM _]; unfold movs at 2 in PM; cbn in PM; match goal with E : e_ev _ = _ |- _ => rewrite E in PM end; cbn in PM;
      match type of X with _ => assert (Y : In k (movs (t_queue s))) by tauto; apply (Permutation_in _ PM) in Y; cbn in Y end end).
    all: unfold in_put, in_get; cbn; repeat match goal with |- context [match ?c with _ => _ end] => destruct c end; cbn; rewrite ?movs_app, ?movs1, ?in_app_iff; cbn; tauto. }
  assert (LE : (w <= w')%nat).
  { destruct (le_lt_dec w w') as [Y|Y]; [exact Y|exfalso]. assert (I1 : In w' (settled tr ++ moving s)) by (eapply Permutation_in; [exact W3|]; apply in_seq; lia).
    apply MV in I1. eapply Permutation_in in I1; [|apply Permutation_sym; exact W3']. apply in_seq in I1. lia. }
  destruct M as [M|(a & b & -> & M)]; rewrite M in *.
  - left. apply in_seq. lia.
  - rewrite app_length in IK. cbn in IK. destruct (Nat.eq_dec k' (length (t_msgs s))) as [->|NE]; [right; exists a, b; auto|left; apply in_seq; lia].
Qed.
(** What a step may change of the loop and the queue *)
Lemma trans_frame : forall f s o s' l, trans f s o s' l -> l = [AStart (t_now s')] /\ (exists x r, t_run s = None /\ pop (t_queue s) = Some (x, r) /\ e_ev x = EStart /\ s' = in_get (taken_st s x r)) \/
  o = URun /\ t_loop s = LOff \/
  (forall ts, ~ In (AStart ts) l) /\ (t_loop s <> LOff -> t_loop s' <> LOff) /\ (forall e, In e (t_queue s') -> In e (t_queue s) \/ e_ev e <> EStart).
Proof.
  intros f s o s' l TR.
  destruct TR as [o|k a b fl R M|k cur a b fl hop R M N Hh|k cur a b fl R M N Hh|k cur hop fl tk R B|k cur hop fl tk R B|k cur hop fl tk R B S|k cur hop fl tk R B S|x r R P E|x r k R P E|x r k a b R P E M|x r k R P E M|x r k cur hop fl tk R P E|x r k cur hop fl R P E|t R L F|c R|net|a b R|R L].
  all: try (right; right; split; [intros ts []; (discriminate || contradiction)|]; split; [auto|]; intros e I; left; exact I).
  - right. right. split; [intros ts []|]. split; [auto|]. cbn. intros e I. apply in_app_or in I as [I|[<-|[]]]; [left; exact I|right; discriminate].
  - right. right. split; [intros ts []|]. split; [auto|]. cbn. intros e I. apply in_app_or in I as [I|[<-|[]]]; [left; exact I|right; discriminate].
  - left. rewrite now_get. split; [reflexivity|]. exists x, r. auto.
  - right. right. split; [intros ts []|]. destruct (pop_in _ _ _ P) as [_ IR]. unfold in_get. destruct (t_in _); cbn; (split; [discriminate|]); intros e I; rewrite ?in_app_iff in I; cbn in I.
    + destruct I as [I|[<-|[]]]; [left; apply IR; exact I|right; discriminate].
    + destruct I as [[I|[<-|[]]]|[<-|[]]]; [left; apply IR; exact I|right; discriminate|right; discriminate].
  - right. right. destruct (pop_in _ _ _ P) as [_ IR]. split; [intros ts []|]. split; [auto|]. intros e I. left. apply IR. exact I.
  - right. right. destruct (pop_in _ _ _ P) as [_ IR]. split; [intros ts []|]. split; [auto|]. intros e I. left. apply IR. exact I.
  - right. right. destruct (pop_in _ _ _ P) as [_ IR]. split; [intros ts []|]. split; [auto|]. intros e I. left. apply IR. exact I.
  - right. right. destruct (pop_in _ _ _ P) as [_ IR]. split; [intros ts []|]. split; [auto|]. intros e I. left. apply IR. exact I.
  - right. right. split; [intros ts [X|[]]; discriminate|]. unfold in_put, in_get. cbn. destruct (t_loop s); cbn; try (split; [auto|]; intros e I; left; exact I).
    destruct (t_in s); cbn; (split; [discriminate|]); intros e I; apply in_app_or in I as [I|[<-|[]]]; try (left; exact I); right; discriminate.
  - right. left. auto.
Qed.
Lemma time_step : forall f s o s' l, trans f s o s' l -> t_now s' = t_now s \/ Forall (fun e => t_now s' <= e_time e) (t_queue s).
Proof.
  intros f s o s' l TR. destruct TR; auto; try (left; rewrite now_put; reflexivity).
  all: rewrite ?now_get; right; try assumption; apply Forall_forall; intros y Y; eapply pop_later; eassumption.
Qed.
Lemma clocked_trans : forall f s tr o s' l, good f -> timed f s -> placed s tr -> clocked s tr -> trans f s o s' l -> clocked s' (tr ++ l).
Proof.
  intros f s tr o s' l G T H C TR. pose proof (placed_trans f s tr o s' l G T H TR) as H'. destruct (timed_trans f s o s' l G T TR) as [T' TN].
  pose proof (waiting_trans f s tr o s' l G T H TR) as WT. pose proof (time_step f s o s' l TR) as TS.
  destruct (trans_frame f s o s' l TR) as [(-> & x & r & R & P & E & ->)|[(-> & L)|(NA & LO & QU)]].
  - (* run() begins *)
    assert (IX : In x (t_queue s)) by (exact (proj1 (pop_in _ _ _ P))). assert (NO : forall ts, ~ In (AStart ts) tr) by (intros ts A; destruct (c_once _ _ C ts A) as [_ X]; apply (X x IX E)).
    assert (ONE : forall ts, In (AStart ts) (tr ++ [AStart (t_now (in_get (taken_st s x r)))]) -> ts = t_now (in_get (taken_st s x r))) by (intros ts A; apply in_app_or in A as [A|[A|[]]]; [elim (NO ts A)|congruence]).
    assert (LS : t_loop (in_get (taken_st s x r)) <> LOff) by (unfold in_get; destruct (t_in _); discriminate).
    assert (N0 : nloop r = 0%nat). { pose proof (nloop_popped _ _ _ P) as NL. assert (N1 : nloop [x] = 1%nat) by (unfold nloop; cbn; rewrite E; reflexivity). destruct (pl_loop _ _ H) as [LP _]. destruct (t_loop s); cbn in LP; lia. }
    assert (NE : forall e, In e r -> e_ev e <> EStart). { intros e I X. unfold nloop in N0. assert (I' : In e (filter (fun e => loopev (e_ev e)) r)) by (apply filter_In; rewrite X; auto). destruct (filter _ _); [destruct I'|discriminate]. }
    constructor.
    + intros ts A. rewrite (ONE ts A). lra.
    + intros ts _. split; [exact LS|]. unfold in_get. destruct (t_in _); cbn; [exact NE|]. intros e I. apply in_app_or in I as [I|[<-|[]]]; [apply NE; exact I|discriminate].
    + intros ts ts' A B. rewrite (ONE ts A), (ONE ts' B). lra.
    + intros _. exists (t_now (in_get (taken_st s x r))). apply in_or_app. right. left. reflexivity.
    + intros k a b tp ts I PI A. rewrite (ONE ts A). destruct (pl_msg _ _ H' _ _ _ _ PI) as [_ LE]. apply later_now; [exact LE|lra|right; lra].
  - (* run() is called *)
    assert (NO : forall ts, ~ In (AStart ts) tr) by (intros ts A; destruct (c_once _ _ C ts A) as [X _]; congruence).
    inversion TR; subst; rewrite app_nil_r in *.
    + exact C.
    + constructor.
      * intros ts A. elim (NO ts A).
      * intros ts A. elim (NO ts A).
      * intros ts ts' A. elim (NO ts A).
      * intros X. apply (c_begun _ _ C). cbn in X. destruct X as [X|[(e & I & X)|[X|X]]]; [discriminate| |auto|auto]. apply in_app_or in I as [I|[<-|[]]]; [right; left; exists e; auto|elim X; reflexivity].
      * intros k a b tp ts _ _ A. elim (NO ts A).
  - assert (OLD : forall ts, In (AStart ts) (tr ++ l) -> In (AStart ts) tr) by (intros ts A; apply in_app_or in A as [A|A]; [exact A|elim (NA ts A)]).
    constructor.
    + intros ts A. pose proof (c_past _ _ C ts (OLD ts A)). lra.
    + intros ts A. destruct (c_once _ _ C ts (OLD ts A)) as [X Y]. split; [auto|]. intros e I. destruct (QU e I) as [I'|N]; [apply Y; exact I'|exact N].
    + intros ts ts' A B. apply (c_same _ _ C); auto.
    + intros X. assert (K : exists ts, In (AStart ts) tr); [|destruct K as (ts & K); exists ts; apply in_or_app; left; exact K]. apply (c_begun _ _ C). clear C WT H'.
      destruct TR as [o|k a b fl R M|k cur a b fl hop R M N Hh|k cur a b fl R M N Hh|k cur hop fl tk R B|k cur hop fl tk R B|k cur hop fl tk R B S|k cur hop fl tk R B S|x r R P E|x r k R P E|x r k a b R P E M|x r k R P E M|x r k cur hop fl tk R P E|x r k cur hop fl R P E|t R L F|c R|net|a b R|R L].
      * rewrite app_nil_r in X. exact X.
      * right. right. left. congruence.
      * right. right. left. congruence.
      * right. right. left. congruence.
      * right. right. left. congruence.
      * right. right. left. congruence.
      * right. right. left. congruence.
      * right. right. left. congruence.
      * elim (NA (e_time x)). left. reflexivity.
      * right. left. exists x. split; [exact (proj1 (pop_in _ _ _ P))|congruence].
      * right. left. exists x. split; [exact (proj1 (pop_in _ _ _ P))|congruence].
      * right. left. exists x. split; [exact (proj1 (pop_in _ _ _ P))|congruence].
      * right. left. exists x. split; [exact (proj1 (pop_in _ _ _ P))|congruence].
      * right. left. exists x. split; [exact (proj1 (pop_in _ _ _ P))|congruence].
      * rewrite app_nil_r in X. exact X.
      * rewrite app_nil_r in X. exact X.
      * rewrite app_nil_r in X. exact X.
      * destruct (t_loop s) eqn:L; [| left; reflexivity |]; unfold in_put in X; cbn [t_loop] in X; rewrite ?L in X; cbn in X; rewrite settled_app in X; cbn in X; rewrite app_nil_r in X; destruct X as [X|[X|[X|X]]]; try discriminate; try (elim X; reflexivity); auto.
      * cbn in *. rewrite app_nil_r in X. destruct X as [X|[(e & I & X)|[X|X]]]; [discriminate| |congruence|auto]. apply in_app_or in I as [I|[<-|[]]]; [right; left; exists e; auto|elim X; reflexivity].
    + intros k a b tp ts I PI A. apply OLD in A. destruct (WT k I) as [I'|(a' & b' & -> & ->)].
      * assert (PI' : In (APut k a b tp) tr). { apply in_app_or in PI as [PI|PI]; [exact PI|exfalso]. inversion TR; subst; try (destruct PI; fail); destruct PI as [PI|[]]; try discriminate. injection PI as <- <- <- <-.
          destruct (pl_split _ _ H) as (w & W1 & W2 & _). rewrite W2 in I'. apply in_seq in I'. lia. }
        rewrite (c_wait _ _ C k a b tp ts I' PI' A). symmetry. destruct TS as [->|TS]; [reflexivity|]. eapply still_now; try eassumption; [intro Z; rewrite Z in I'; destruct I'|exists ts; exact A].
      * assert (PN : ~ In (APut (length (t_msgs s)) a b tp) tr) by (intro Z; destruct (pl_msg _ _ H _ _ _ _ Z) as [Z' _]; assert (Z2 : (length (t_msgs s) < length (t_msgs s))%nat) by (apply nth_error_Some; congruence); lia).
        apply in_app_or in PI as [PI|PI]; [elim PN; exact PI|]. inversion TR; subst; [destruct PI|]. destruct PI as [PI|[]]. injection PI as <- <- <-. rewrite now_put. cbn. apply later_now; [lra|apply (c_past _ _ C ts A)|left; lra].
Qed.
Lemma clocked_init : forall c net t0, clocked (init c net t0) [].
Proof.
  intros. constructor; try (intros; contradiction). cbn. intros [X|[(e & [] & _)|[X|X]]]; [discriminate|congruence..].
Qed.

(** ** Messages from [a] to [b], which are [D] connections apart, with clear ways *)
Definition qn (n : nat) : Q := inject_Z (Z.of_nat n).
Lemma qn_S n : qn (S n) == qn n + 1. Proof. unfold qn. rewrite Nat2Z.inj_succ, <- Z.add_1_r, inject_Z_plus. reflexivity. Qed.
Lemma qn_le n m : (n <= m)%nat -> qn n <= qn m. Proof. intro H. unfold qn. rewrite <- Zle_Qle. lia. Qed.
Lemma qn_pos n : 0 <= qn n. Proof. change 0 with (qn 0). apply qn_le. lia. Qed.
Lemma far_unique : forall net x y n m, far net x y n -> far net x y m -> n = m.
Proof. intros net x y n m [(p & P & <-) F] [(p' & P' & <-) F']. specialize (F _ P'). specialize (F' _ P). lia. Qed.
Lemma far_zero : forall net x n, far net x x n -> n = 0%nat.
Proof. intros net x n [_ F]. specialize (F [] (walk_nil _ x)). cbn in F. lia. Qed.
Section Pair.
Variable f : cfg.
Variable net0 : network.
Variables a b D : nat.
Hypothesis FAR : far net0 a b D.
Hypothesis G : good f.
Notation E := (connected net0).
Definition same_table (net : network) : Prop := wf_net net /\ forall x y, connected net x y <-> E x y.
Lemma hop_far : forall net cur hop r, same_table net -> cur <> b -> far net0 cur b r -> select_hop net cur b [] = Some (Some hop) ->
  E cur hop /\ exists r', r = S r' /\ far net0 hop b r'.
Proof.
  intros net cur hop r [W SE] N F H. destruct (C38_hop_partial net cur b [] W (fun x => x) (fun x => x)) as [(h & p & E1 & (P1 & P2 & P3))|[E1 _]]; rewrite H in E1; [|discriminate].
  injection E1 as <-. assert (U : forall x y, usable net [] x y <-> E x y) by (intros x y; unfold usable; rewrite SE; cbn; tauto).
  apply (walk_ext _ E _ _ _ U) in P1. inversion P1 as [|? ? ? ? C P4]; subst. split; [exact C|].
  assert (F1 : far net0 hop b (length p)).
  { split; [exists p; auto|]. intros p' P'. specialize (P3 (hop :: p')). cbn in P3. assert (length p < S (length p'))%nat; [|lia]. apply P3; [|discriminate]. apply (walk_ext _ E _ _ _ U). econstructor; eassumption. }
  exists (length p). split; [|exact F1]. apply (far_unique net0 cur b); [exact F|]. split; [exists (hop :: p); auto|]. intros p' P'. destruct p' as [|y p']; [inversion P'; congruence|].
  apply (P3 (y :: p')); [|discriminate]. apply (walk_ext _ E _ _ _ U). exact P'.
Qed.
Lemma hop_none : forall net cur r, same_table net -> cur <> b -> far net0 cur b r -> select_hop net cur b [] <> Some None.
Proof.
  intros net cur r [W SE] N [(p & P & _) _] H. destruct (C38_hop_partial net cur b [] W (fun x => x) (fun x => x)) as [(h & q & E1 & _)|[_ NW]]; [congruence|].
  assert (U : forall x y, usable net [] x y <-> E x y) by (intros x y; unfold usable; rewrite SE; cbn; tauto).
  apply (walk_ext _ E _ _ _ U) in P. apply NW in P as P0. subst p. inversion P. congruence.
Qed.
Lemma clear_free : forall c p cur hop r, clear net0 a b c -> walk E a p cur -> E cur hop -> far net0 hop b r -> (length p + S r = D)%nat -> CommsModel.blocked c cur hop = false.
Proof.
  intros c p cur hop r [C1 C2] P H [(q & Q & L) _] S. destruct (C2 cur hop) as (N1 & N2 & N3); [exists p, q; rewrite L, S; auto|].
  unfold CommsModel.blocked, CommsModel.link_compare. rewrite C1. cbn. assert (M1 : memb cur (CommsModel.cf_nodes c) = false) by (destruct (memb cur _) eqn:X; [apply memb_In in X; contradiction|reflexivity]).
  assert (M2 : memb hop (CommsModel.cf_nodes c) = false) by (destruct (memb hop _) eqn:X; [apply memb_In in X; contradiction|reflexivity]). rewrite M1, M2. cbn.
  destruct (existsb _ _) eqn:X; [|reflexivity]. exfalso. apply existsb_exists in X as ([u v] & I & X). cbn in X. apply andb_true_iff in X as [X1 X2]. apply Nat.eqb_eq in X1, X2. subst. contradiction.
Qed.

Definition mine (s : st) (k : nat) : Prop := nth_error (t_msgs s) k = Some (a, b).
(** The message arrives at [x]. *)
Definition eta (tr : list out) (k : nat) (x : Q) : Prop := exists tp ts, In (APut k a b tp) tr /\ In (AStart ts) tr /\ later tp ts + qn D * f_send f == x.
Definition at_select (now : Q) (tr : list out) (k cur : nat) (fl : list nat) : Prop :=
  fl = [] /\ exists r p, walk E a p cur /\ far net0 cur b r /\ (length p + r = D)%nat /\ eta tr k (now + qn r * f_send f).
Definition at_test (now : Q) (tr : list out) (k cur hop : nat) (fl : list nat) : Prop :=
  fl = [] /\ exists r p, walk E a p cur /\ E cur hop /\ far net0 hop b r /\ (length p + S r = D)%nat /\ eta tr k (now + qn (S r) * f_send f).
Definition at_send (t : Q) (tr : list out) (k hop : nat) (fl : list nat) : Prop :=
  fl = [] /\ exists r p, walk E a p hop /\ p <> [] /\ far net0 hop b r /\ (length p + r = D)%nat /\ eta tr k (t + qn r * f_send f).
Record led (s : st) (tr : list out) : Prop := mkLed {
  d_conf : clear net0 a b (t_conf s);
  d_net : same_table (t_net s);
  d_select : forall k cur fl, t_run s = Some (CSelect k cur fl) -> mine s k -> at_select (t_now s) tr k cur fl;
  d_test : forall k cur hop fl tk, t_run s = Some (CTest k cur hop fl tk) -> mine s k -> at_test (t_now s) tr k cur hop fl;
  d_send : forall e k cur hop fl, In e (t_queue s) -> e_ev e = ESend k cur hop fl -> mine s k -> at_send (e_time e) tr k hop fl;
  d_retry : forall e k cur hop fl tk, In e (t_queue s) -> e_ev e = ERetry k cur hop fl tk -> ~ mine s k;
  d_drop : forall k t, In (ADrop k t) tr -> ~ mine s k;
  d_del : forall k t, In (ADeliver k a b t) tr -> eta tr k t }.
Lemma eta_mono : forall tr l k x, eta tr k x -> eta (tr ++ l) k x.
Proof. intros tr l k x (tp & ts & A & B & C). exists tp, ts. rewrite !in_app_iff. auto. Qed.
Lemma eta_eq : forall tr k x y, x == y -> eta tr k x -> eta tr k y.
Proof. intros tr k x y Q (tp & ts & A & B & C). exists tp, ts. split; [exact A|]. split; [exact B|]. lra. Qed.
Lemma at_send_mono : forall t tr l k hop fl, at_send t tr k hop fl -> at_send t (tr ++ l) k hop fl.
Proof. intros t tr l k hop fl (A & r & p & B1 & B2 & B3 & B4 & B5). split; [exact A|]. exists r, p. repeat (split; [assumption|]). apply eta_mono. exact B5. Qed.
Lemma gone_in : forall s tr k, placed s tr -> In k (settled tr) \/ In k (moving s) -> (k < length (t_msgs s))%nat /\ ~ In k (waiting s).
Proof.
  intros s tr k H I. destruct (pl_split _ _ H) as (w & W1 & W2 & W3). assert (I' : In k (settled tr ++ moving s)) by (apply in_or_app; exact I).
  apply (Permutation_in _ (Permutation_sym W3)) in I'. apply in_seq in I'. split; [lia|]. rewrite W2. intro X. apply in_seq in X. lia.
Qed.
Lemma in_movs : forall q e k, In e q -> (exists cur hop fl, e_ev e = ESend k cur hop fl) \/ (exists cur hop fl tk, e_ev e = ERetry k cur hop fl tk) -> In k (movs q).
Proof. intros q e k I X. unfold movs. apply in_flat_map. exists e. split; [exact I|]. destruct X as [(cur & hop & fl & ->)|(cur & hop & fl & tk & ->)]; left; reflexivity. Qed.
Lemma led_step : forall s tr s' l, placed s tr -> led s tr -> clear net0 a b (t_conf s') -> same_table (t_net s') ->
  (forall k, (k < length (t_msgs s))%nat -> mine s' k -> mine s k) ->
  (forall e, In e (t_queue s') -> In e (t_queue s) \/
     (forall k cur hop fl, e_ev e = ESend k cur hop fl -> mine s' k -> at_send (e_time e) (tr ++ l) k hop fl) /\ (forall k cur hop fl tk, e_ev e = ERetry k cur hop fl tk -> ~ mine s' k)) ->
  (forall k cur fl, t_run s' = Some (CSelect k cur fl) -> mine s' k -> at_select (t_now s') (tr ++ l) k cur fl) ->
  (forall k cur hop fl tk, t_run s' = Some (CTest k cur hop fl tk) -> mine s' k -> at_test (t_now s') (tr ++ l) k cur hop fl) ->
  (forall o, In o l -> match o with ADrop k _ => ~ mine s' k | ADeliver k a' b' t => a' = a -> b' = b -> eta (tr ++ l) k t | _ => True end) ->
  led s' (tr ++ l).
Proof.
  intros s tr s' l H L C N MB Q RS RT O. constructor; auto.
  - intros e k cur hop fl I X M. destruct (Q e I) as [I'|[Y _]]; [|eapply Y; eassumption]. apply at_send_mono. eapply (d_send _ _ L); [exact I'|exact X|]. apply MB; [|exact M].
    apply (gone_in s tr k H). right. unfold moving. apply in_or_app. left. eapply in_movs; [exact I'|]. left. eauto.
  - intros e k cur hop fl tk I X M. destruct (Q e I) as [I'|[_ Y]]; [|eapply Y; eassumption]. eapply (d_retry _ _ L); [exact I'|exact X|]. apply MB; [|exact M].
    apply (gone_in s tr k H). right. unfold moving. apply in_or_app. left. eapply in_movs; [exact I'|]. right. eauto 8.
  - intros k t I M. apply in_app_or in I as [I|I]; [|exact (O _ I M)]. eapply (d_drop _ _ L); [exact I|]. apply MB; [|exact M]. apply (gone_in s tr k H). left. unfold settled. apply in_flat_map. exists (ADrop k t). split; [exact I|left; reflexivity].
  - intros k t I. apply in_app_or in I as [I|I]; [apply eta_mono; apply (d_del _ _ L); exact I|]. exact (O _ I eq_refl eq_refl).
Qed.
Lemma msgs_get : forall s, t_msgs (in_get s) = t_msgs s. Proof. intro s. unfold in_get. destruct (t_in s); reflexivity. Qed.
Lemma led_trans : forall s tr o s' l, (forall c, o = UConf c -> clear net0 a b c) -> (forall net, o = UNet net -> same_table net) ->
  timed f s -> placed s tr -> clocked s tr -> led s tr -> trans f s o s' l -> led s' (tr ++ l).
Proof.
  intros s tr o s' l OC ON T H C L TR. pose proof (d_conf _ _ L) as DC. pose proof (d_net _ _ L) as DN. destruct (timed_trans _ _ _ _ _ G T TR) as [_ TN].
  assert (AN : forall fl, fl = [] -> after_hop f fl = []) by (intros fl ->; unfold after_hop; destruct (f_global f); reflexivity).
  destruct TR as [o|k x y fl R M|k cur x y fl hop R M N Hh|k cur x y fl R M N Hh|k cur hop fl tk R B|k cur hop fl tk R B|k cur hop fl tk R B S|k cur hop fl tk R B S|x r R P Ev|x r k R P Ev|x r k u v R P Ev M|x r k R P Ev M|x r k cur hop fl tk R P Ev|x r k cur hop fl R P Ev|t R Lt F|c R|net|u v R|R Lo].
  - rewrite app_nil_r. exact L.
  - apply (led_step s); try assumption; cbn; try (intros; discriminate); auto.
    intros o [<-|[]] -> ->. destruct (d_select _ _ L _ _ _ R M) as (_ & r & p & _ & F & _ & X). apply far_zero in F. subst r. apply eta_mono. eapply eta_eq; [|exact X]. change (qn 0) with 0. ring.
  - apply (led_step s); try assumption; cbn; try (intros; discriminate); auto; [|intros ? []]. intros k' cur' hop' fl' tk' [= <- <- <- <- <-] MI. unfold mine in MI. cbn in MI. rewrite M in MI. injection MI as -> ->.
    destruct (d_select _ _ L _ _ _ R M) as (-> & r & p & W & F & Ln & X). destruct (hop_far _ _ _ _ DN N F Hh) as (EC & r' & -> & F'). split; [reflexivity|]. exists r', p. repeat (split; [assumption|]). apply eta_mono. exact X.
  - apply (led_step s); try assumption; cbn; try (intros; discriminate); auto. intros o [<-|[]] MI. unfold mine in MI. cbn in MI. rewrite M in MI. injection MI as -> ->.
    destruct (d_select _ _ L _ _ _ R M) as (-> & r & p & W & F & Ln & X). exact (hop_none _ _ _ DN N F Hh).
  - apply (led_step s); try assumption; cbn; try (intros; discriminate); auto; [|intros ? []]. intros k' cur' fl' [= <- <- <-] MI. exfalso.
    destruct (d_test _ _ L _ _ _ _ _ R MI) as (-> & r & p & W & EC & F & Ln & X). rewrite (clear_free _ _ _ _ _ DC W EC F Ln) in B. discriminate.
  - apply (led_step s); try assumption; cbn; try (intros; discriminate); auto; [|intros ? []]. intros e I. apply in_app_or in I as [I|[<-|[]]]; [left; exact I|right]. cbn. split; [intros; discriminate|]. intros k' cur' hop' fl' tk' [= <- <- <- <- <-] MI.
    destruct (d_test _ _ L _ _ _ _ _ R MI) as (-> & r & p & W & EC & F & Ln & X). rewrite (clear_free _ _ _ _ _ DC W EC F Ln) in B. discriminate.
  - apply (led_step s); try assumption; cbn; try (intros; discriminate); auto; [|intros ? []]. intros e I. apply in_app_or in I as [I|[<-|[]]]; [left; exact I|right]. cbn. split; [|intros; discriminate]. intros k' cur' hop' fl' [= <- <- <- <-] MI.
    destruct (d_test _ _ L _ _ _ _ _ R MI) as (-> & r & p & W & EC & F & Ln & X). split; [reflexivity|]. exists r, (p ++ [hop]). split; [eapply walk_snoc; eassumption|]. split; [destruct p; discriminate|]. split; [exact F|]. split; [rewrite app_length; cbn; lia|].
    apply eta_mono. eapply eta_eq; [|exact X]. rewrite qn_S. ring.
  - apply (led_step s); try assumption; cbn; try (intros; discriminate); auto; [|intros ? []]. intros k' cur' fl' [= <- <- <-] MI.
    destruct (d_test _ _ L _ _ _ _ _ R MI) as (-> & r & p & W & EC & F & Ln & X). split; [apply AN; reflexivity|]. exists r, (p ++ [hop]). split; [eapply walk_snoc; eassumption|]. split; [exact F|]. split; [rewrite app_length; cbn; lia|].
    apply eta_mono. eapply eta_eq; [|exact X]. rewrite qn_S. destruct G as [G1 _]. assert (Z : f_send f == 0) by lra. rewrite Z. ring.
  - destruct (pop_in _ _ _ P) as [_ IR]. apply (led_step s); try assumption; unfold in_get; destruct (t_in (taken_st s x r)); cbn; try (intros; discriminate); auto; try (intros o [<-|[]]; exact I); intros e IE; rewrite ?in_app_iff in IE; cbn in IE.
    destruct IE as [IE|[<-|[]]]; [left; apply IR; exact IE|right]. split; intros; discriminate.
  - destruct (pop_in _ _ _ P) as [_ IR]. apply (led_step s); try assumption; unfold in_get; destruct (t_in _); cbn; try (intros; discriminate); auto; try (intros o []; fail); intros e IE; rewrite ?in_app_iff in IE; cbn in IE.
    + destruct IE as [IE|[<-|[]]]; [left; apply IR; exact IE|right]. split; intros; discriminate.
    + destruct IE as [[IE|[<-|[]]]|[<-|[]]]; [left; apply IR; exact IE|right|right]; split; intros; discriminate.
  - destruct (pop_in _ _ _ P) as [IX IR]. apply (led_step s); try assumption; cbn; try (intros; discriminate); auto; [|intros ? []]. intros k' cur' fl' [= <- <- <-] MI. unfold mine in MI. cbn in MI. rewrite M in MI. injection MI as -> ->.
    split; [reflexivity|]. exists D, []. split; [constructor|]. split; [exact FAR|]. split; [reflexivity|]. destruct (pl_put _ _ H _ _ _ M) as (tp & PT). destruct (c_begun _ _ C) as (ts & ST); [right; left; exists x; split; [exact IX|congruence]|].
    apply eta_mono. exists tp, ts. split; [exact PT|]. split; [exact ST|]. assert (WK : In k (waiting s)) by (unfold waiting; apply in_or_app; left; unfold inis; apply in_flat_map; exists x; split; [exact IX|]; rewrite Ev; left; reflexivity).
    rewrite (c_wait _ _ C _ _ _ _ _ WK PT ST). assert (XT : e_time x == t_now s) by (unfold timed in T; rewrite Forall_forall in T; destruct (T x IX) as (_ & B & _); rewrite Ev in B; apply B; reflexivity). rewrite XT. reflexivity.
  - destruct (pop_in _ _ _ P) as [IX IR]. apply (led_step s); try assumption; cbn; try (intros; discriminate); auto; intros ? [].
  - destruct (pop_in _ _ _ P) as [IX IR]. apply (led_step s); try assumption; cbn; try (intros; discriminate); auto; [|intros ? []]. intros k' cur' hop' fl' tk' [= <- <- <- <- <-] MI. elim (d_retry _ _ L _ _ _ _ _ _ IX Ev MI).
  - destruct (pop_in _ _ _ P) as [IX IR]. apply (led_step s); try assumption; cbn; try (intros; discriminate); auto; [|intros ? []]. intros k' cur' fl' [= <- <- <-] MI. destruct (d_send _ _ L _ _ _ _ _ IX Ev MI) as (-> & r' & p & W & NP & F & Ln & X).
    split; [apply AN; reflexivity|]. exists r', p. repeat (split; [assumption|]). apply eta_mono. exact X.
  - apply (led_step s); try assumption; cbn; try (intros; congruence); auto; intros ? [].
  - apply (led_step s); try assumption; cbn; try (intros; congruence); auto; intros ? [].
  - apply (led_step s); try assumption; cbn; auto; try (intros ? []; fail); rewrite ?app_nil_r; intros; [eapply (d_select _ _ L)|eapply (d_test _ _ L)]; eassumption.
  - apply (led_step s); try assumption; unfold in_put, in_get; cbn.
    + destruct (t_loop s); try exact DC. destruct (t_in s); exact DC.
    + destruct (t_loop s); try exact DN. destruct (t_in s); exact DN.
    + intros k' LK MI. assert (MI' : nth_error (t_msgs s ++ [(u, v)]) k' = Some (a, b)) by (revert MI; unfold mine; destruct (t_loop s); try (cbn; auto; fail); destruct (t_in s); cbn; auto). rewrite nth_error_app1 in MI' by exact LK. exact MI'.
    + destruct (t_loop s); auto. destruct (t_in s); cbn; intros e IE; apply in_app_or in IE as [IE|[<-|[]]]; auto; right; split; intros; discriminate.
    + destruct (t_loop s); try (intros; discriminate). destruct (t_in s); intros; discriminate.
    + destruct (t_loop s); try (intros; discriminate). destruct (t_in s); intros; discriminate.
    + intros o [<-|[]]. exact I.
  - apply (led_step s); try assumption; cbn; try (intros; congruence); auto; [|intros ? []]. intros e IE. apply in_app_or in IE as [IE|[<-|[]]]; [left; exact IE|right]. split; intros; discriminate.
Qed.

(** Of two messages that will arrive at one moment, the one put first is never further back. *)
Definition agree (s : st) (x y : entry) : Prop := forall kx cx hx fx ky cy hy fy rx ry,
  e_ev x = ESend kx cx hx fx -> e_ev y = ESend ky cy hy fy -> mine s kx -> mine s ky -> far net0 hx b rx -> far net0 hy b ry ->
  e_time x + qn rx * f_send f == e_time y + qn ry * f_send f -> ((kx < ky)%nat -> (rx <= ry)%nat) /\ ((ky < kx)%nat -> (ry < rx)%nat).
Definition front (s : st) (k r : nat) : Prop := forall y ky cy hy fy ry,
  In y (t_queue s) -> e_ev y = ESend ky cy hy fy -> mine s ky -> far net0 hy b ry -> t_now s + qn r * f_send f == e_time y + qn ry * f_send f ->
  ((ky < k)%nat -> (ry < r)%nat) /\ ((k < ky)%nat -> (r <= ry)%nat).
Record tied (s : st) : Prop := mkTied {
  ti_queue : ForallOrdPairs (agree s) (t_queue s);
  ti_select : forall k cur fl r, t_run s = Some (CSelect k cur fl) -> mine s k -> far net0 cur b r -> front s k r;
  ti_test : forall k cur hop fl tk r, t_run s = Some (CTest k cur hop fl tk) -> mine s k -> far net0 hop b r -> front s k (S r) }.
Lemma fop_mid : forall A (R : A -> A -> Prop) l1 x l2, ForallOrdPairs R (l1 ++ x :: l2) ->
  (forall y, In y l1 -> R y x) /\ (forall y, In y l2 -> R x y) /\ ForallOrdPairs R (l1 ++ l2).
Proof.
  induction l1 as [|z l1 IH]; intros x l2 H; cbn in *; inversion H as [|? ? F1 F2]; subst.
  - rewrite Forall_forall in F1. repeat split; auto; intros ? [].
  - destruct (IH _ _ F2) as (A1 & A2 & A3). rewrite Forall_forall in F1. split; [intros y [<-|I]; [apply F1; apply in_or_app; right; left; reflexivity|auto]|]. split; [exact A2|].
    constructor; [|exact A3]. rewrite Forall_forall. intros y I. apply F1. apply in_app_or in I. apply in_or_app. destruct I; [left|right; right]; assumption.
Qed.
Lemma fop_app : forall A (R : A -> A -> Prop) l1 l2, ForallOrdPairs R l1 -> ForallOrdPairs R l2 -> (forall x y, In x l1 -> In y l2 -> R x y) -> ForallOrdPairs R (l1 ++ l2).
Proof.
  induction l1 as [|z l1 IH]; intros l2 H1 H2 H; cbn; [exact H2|]. inversion H1 as [|? ? F1 F2]; subst. constructor.
  - apply Forall_app. split; [exact F1|]. rewrite Forall_forall. intros y I. apply H; [left; reflexivity|exact I].
  - apply IH; auto. intros x y I J. apply H; [right; exact I|exact J].
Qed.
Lemma fop_impl : forall A (R R' : A -> A -> Prop) l, (forall x y, In x l -> In y l -> R x y -> R' x y) -> ForallOrdPairs R l -> ForallOrdPairs R' l.
Proof.
  intros A R R' l. induction l as [|z l IH]; intros I H; constructor; inversion H as [|? ? F1 F2]; subst.
  - rewrite Forall_forall in *. intros y Y. apply I; [left; reflexivity|right; exact Y|auto].
  - apply IH; [|exact F2]. intros x y X Y. apply I; right; assumption.
Qed.
Lemma fop_all : forall A (R : A -> A -> Prop) l, (forall x y, In y l -> R x y) -> ForallOrdPairs R l.
Proof. intros A R l. induction l as [|z l IH]; intro H; constructor; [rewrite Forall_forall; intros y Y; apply H; right; exact Y|apply IH; intros x y Y; apply H; right; exact Y]. Qed.
Lemma queue_tied : forall s tr s' q0 extra, placed s tr -> ForallOrdPairs (agree s) q0 -> incl q0 (t_queue s) -> t_queue s' = q0 ++ extra ->
  Forall (fun e => sending (e_ev e) = false) extra -> (forall k, (k < length (t_msgs s))%nat -> mine s' k -> mine s k) -> ForallOrdPairs (agree s') (t_queue s').
Proof.
  intros s tr s' q0 extra H F I Q N MB. rewrite Q.
  assert (NO : forall x y, In y extra -> agree s' x y) by (intros x y Y kx cx hx fx ky cy hy fy rx ry _ E2; rewrite Forall_forall in N; specialize (N y Y); rewrite E2 in N; discriminate).
  apply fop_app.
  - eapply fop_impl; [|exact F]. intros x y X Y A kx cx hx fx ky cy hy fy rx ry E1 E2 M1 M2. eapply A; try eassumption; apply MB; try assumption.
    + apply (gone_in s tr kx H). right. unfold moving. apply in_or_app. left. eapply in_movs; [apply I; exact X|left; eauto].
    + apply (gone_in s tr ky H). right. unfold moving. apply in_or_app. left. eapply in_movs; [apply I; exact Y|left; eauto].
  - apply fop_all. auto.
  - intros x y _ Y. apply NO. exact Y.
Qed.
Lemma tied_trans : forall s tr o s' l, timed f s -> placed s tr -> led s tr -> tied s -> trans f s o s' l -> tied s'.
Proof.
  intros s tr o s' l T H L TI TR. pose proof (ti_queue _ TI) as TQ. pose proof (d_net _ _ L) as DN.
  assert (NN : forall q0, ForallOrdPairs (agree s) q0 -> incl q0 (t_queue s) -> forall s', t_queue s' = q0 -> t_msgs s' = t_msgs s -> ForallOrdPairs (agree s') (t_queue s')).
  { intros q0 F I s1 Q M. apply (queue_tied s tr s1 q0 [] H F I); [rewrite app_nil_r; exact Q|constructor|]. intros k _ MI. unfold mine in *. rewrite <- M. exact MI. }
  assert (PO : forall x r, pop (t_queue s) = Some (x, r) -> ForallOrdPairs (agree s) r /\ incl r (t_queue s)).
  { intros x r P. destruct (pop_in _ _ _ P) as [_ IR]. split; [|exact IR]. destruct (pop_split _ _ _ P) as (l1 & l2 & Q & -> & _). rewrite Q in TQ. apply fop_mid in TQ. apply TQ. }
  destruct TR as [o|k x y fl R M|k cur x y fl hop R M N Hh|k cur x y fl R M N Hh|k cur hop fl tk R B|k cur hop fl tk R B|k cur hop fl tk R B S|k cur hop fl tk R B S|x r R P Ev|x r k R P Ev|x r k u v R P Ev M|x r k R P Ev M|x r k cur hop fl tk R P Ev|x r k cur hop fl R P Ev|t R Lt F|c R|net|u v R|R Lo].
  - exact TI.
  - constructor; cbn; try (intros; discriminate). apply (NN _ TQ (incl_refl _) (fst (deliver s k x y))); reflexivity.
  - constructor; cbn; try (intros; discriminate). { apply (NN _ TQ (incl_refl _) (with_run s _)); reflexivity. }
    intros k' cur' hop' fl' tk' r [= <- <- <- <- <-] MI FR. unfold mine in MI. cbn in MI. rewrite M in MI. injection MI as -> ->.
    destruct (d_select _ _ L _ _ _ R M) as (-> & r0 & p & W & F & Ln & X). destruct (hop_far _ _ _ _ DN N F Hh) as (EC & r' & -> & F'). rewrite (far_unique _ _ _ _ _ FR F'). exact (ti_select _ TI _ _ _ _ R M F).
  - constructor; cbn; try (intros; discriminate). apply (NN _ TQ (incl_refl _) (with_run s None)); reflexivity.
  - constructor; cbn; try (intros; discriminate). { apply (NN _ TQ (incl_refl _) (with_run s _)); reflexivity. }
    intros k' cur' fl' r' [= <- <- <-] MI FR. exfalso. destruct (d_test _ _ L _ _ _ _ _ R MI) as (-> & r & p & W & EC & F & Ln & X). rewrite (clear_free _ _ _ _ _ (d_conf _ _ L) W EC F Ln) in B. discriminate.
  - constructor; cbn; try (intros; discriminate). eapply (queue_tied s tr (with_run (schedule s _ _ _) None) _ [_] H TQ (incl_refl _)); [reflexivity|repeat constructor|auto].
  - constructor; cbn; try (intros; discriminate). apply fop_app; [exact TQ|repeat constructor|]. intros y z Y [<-|[]] ky cy hy fy kz cz hz fz ry rz E1 E2 M1 M2 F1 F2 Q. cbn in E2, Q. injection E2 as <- <- <- <-.
    destruct (ti_test _ TI _ _ _ _ _ _ R M2 F2 y ky cy hy fy ry Y E1 M1 F1) as [A1 A2]; [rewrite qn_S; lra|]. split; intro LT; [specialize (A1 LT)|specialize (A2 LT)]; lia.
  - constructor; cbn; try (intros; discriminate). { apply (NN _ TQ (incl_refl _) (with_run s _)); reflexivity. }
    intros k' cur' fl' r' _ _ _ y ky cy hy fy ry Y E2. exfalso. unfold timed in T. rewrite Forall_forall in T. destruct (T y Y) as (_ & _ & Z & _). rewrite E2 in Z. specialize (Z eq_refl). lra.
  - destruct (PO _ _ P) as [PF PI]. constructor; try (unfold in_get; destruct (t_in _); cbn; intros; discriminate).
    unfold in_get. destruct (t_in _); [apply (NN _ PF PI (with_in (taken_st s x r) [] LWait)); reflexivity|].
    eapply (queue_tied s tr (schedule (with_in (taken_st s x r) _ LBusy) _ _ _) r [_] H PF PI); [reflexivity|repeat constructor|auto].
  - destruct (PO _ _ P) as [PF PI]. constructor; try (unfold in_get; destruct (t_in _); cbn; intros; discriminate).
    unfold in_get. destruct (t_in _).
    + eapply (queue_tied s tr (with_in (schedule (taken_st s x r) _ _ _) _ LWait) r [_] H PF PI); [reflexivity|repeat constructor|auto].
    + eapply (queue_tied s tr (schedule (with_in (schedule (taken_st s x r) _ _ _) _ LBusy) _ _ _) r [_; _] H PF PI); [cbn; rewrite <- app_assoc; reflexivity|repeat constructor|auto].
  - destruct (PO _ _ P) as [PF PI]. constructor; cbn; try (intros; discriminate). { apply (NN _ PF PI (with_run (taken_st s x r) _)); reflexivity. }
    intros k' cur' fl' r' [= <- <- <-] MI FR y ky cy hy fy ry Y E2 M2 F2 Q. unfold mine in MI, M2. cbn in *. rewrite M in MI. injection MI as -> ->. rewrite (far_unique _ _ _ _ _ FR FAR).
    pose proof (PI y Y) as Y'. destruct (d_send _ _ L _ _ _ _ _ Y' E2 M2) as (_ & r1 & p & W & NP & F3 & Ln & X). rewrite (far_unique _ _ _ _ _ F2 F3). split; [intros _; destruct p; [contradiction|cbn in Ln; lia]|].
    intro LT. exfalso. destruct (pl_split _ _ H) as (w & W1 & W2 & W3).
    assert (KY : (ky < w)%nat). { assert (I' : In ky (seq 0 w)) by (apply (Permutation_in _ (Permutation_sym W3)); apply in_or_app; right; unfold moving; apply in_or_app; left; eapply in_movs; [exact Y'|left; eauto]). apply in_seq in I'. lia. }
    assert (KW : In k (waiting s)) by (unfold waiting; apply in_or_app; left; unfold inis; apply in_flat_map; exists x; split; [exact (proj1 (pop_in _ _ _ P))|]; rewrite Ev; left; reflexivity).
    rewrite W2 in KW. apply in_seq in KW. lia.
  - destruct (PO _ _ P) as [PF PI]. constructor; cbn; try (intros; discriminate). apply (NN _ PF PI (with_run (taken_st s x r) _)); reflexivity.
  - destruct (PO _ _ P) as [PF PI]. constructor; cbn; try (intros; discriminate). { apply (NN _ PF PI (with_run (taken_st s x r) _)); reflexivity. }
    intros k' cur' hop' fl' tk' r' [= <- <- <- <- <-] MI _. elim (d_retry _ _ L _ _ _ _ _ _ (proj1 (pop_in _ _ _ P)) Ev MI).
  - destruct (PO _ _ P) as [PF PI]. constructor; cbn; try (intros; discriminate). { apply (NN _ PF PI (with_run (taken_st s x r) _)); reflexivity. }
    intros k' cur' fl' r' [= <- <- <-] MI FR y ky cy hy fy ry Y E2 M2 F2 Q. cbn in Y, Q. destruct (pop_split _ _ _ P) as (l1 & l2 & Q2 & Q3 & B1 & B2). rewrite Q2 in TQ. destruct (fop_mid _ _ _ _ _ TQ) as (A1 & A2 & _).
    rewrite Q3 in Y. apply in_app_or in Y as [Y|Y].
    + destruct (A1 y Y _ _ _ _ _ _ _ _ _ _ E2 Ev M2 MI F2 FR) as [C1 C2]; [lra|]. split; [|intro LT; specialize (C2 LT); lia]. intro LT. specialize (C1 LT).
      destruct (Nat.eq_dec ry r') as [->|NE]; [exfalso|lia]. rewrite Forall_forall in B1. destruct (before_tie _ _ (B1 y Y)) as [U _]; [lra|]. unfold timed in T. rewrite Forall_forall in T.
      destruct (T x (proj1 (pop_in _ _ _ P))) as (_ & _ & _ & U2). rewrite Ev in U2. rewrite U in U2. discriminate.
    + destruct (A2 y Y _ _ _ _ _ _ _ _ _ _ Ev E2 MI M2 FR F2) as [C1 C2]; [lra|]. split; assumption.
  - constructor; cbn; try (intros; congruence). apply (NN _ TQ (incl_refl _) (mkT _ _ _ _ _ _ _ _ _)); reflexivity.
  - constructor; cbn; try (intros; congruence). apply (NN _ TQ (incl_refl _) (mkT _ _ _ _ _ _ _ _ _)); reflexivity.
  - constructor; cbn. { apply (NN _ TQ (incl_refl _) (mkT _ _ _ _ _ _ _ _ _)); reflexivity. }
    + intros k cur fl r R MI FR. exact (ti_select _ TI _ _ _ _ R MI FR).
    + intros k cur hop fl tk r R MI FR. exact (ti_test _ TI _ _ _ _ _ _ R MI FR).
  - assert (MB : forall k, (k < length (t_msgs s))%nat -> nth_error (t_msgs s ++ [(u, v)]) k = Some (a, b) -> mine s k) by (intros k LK X; rewrite nth_error_app1 in X by exact LK; exact X).
    unfold in_put. cbn. set (s1 := mkT _ _ _ _ _ _ _ _ _). constructor.
    + destruct (t_loop s); try (apply (queue_tied s tr (with_in s1 _ _) _ [] H TQ (incl_refl _)); [cbn; rewrite app_nil_r; reflexivity|constructor|exact MB]).
      unfold in_get. destruct (t_in (with_in s1 _ _)).
      * apply (queue_tied s tr (with_in (with_in s1 _ _) _ _) _ [] H TQ (incl_refl _)); [cbn; rewrite app_nil_r; reflexivity|constructor|exact MB].
      * eapply (queue_tied s tr (schedule (with_in (with_in s1 _ _) _ _) _ _ _) _ [_] H TQ (incl_refl _)); [reflexivity|repeat constructor|exact MB].
    + destruct (t_loop s); try (cbn; intros; discriminate). unfold in_get. destruct (t_in (with_in s1 _ _)); cbn; intros; discriminate.
    + destruct (t_loop s); try (cbn; intros; discriminate). unfold in_get. destruct (t_in (with_in s1 _ _)); cbn; intros; discriminate.
  - constructor; cbn; try (intros; congruence). eapply (queue_tied s tr (schedule (with_in s (t_in s) LBusy) _ _ _) _ [_] H TQ (incl_refl _)); [reflexivity|repeat constructor|auto].
Qed.

(** Messages from [a] to [b] arrive in the order in which they were put. *)
Lemma puts_app p q : puts a b (p ++ q) = puts a b p ++ puts a b q. Proof. apply flat_map_app. Qed.
Lemma arrivals_app p q : arrivals a b (p ++ q) = arrivals a b p ++ arrivals a b q. Proof. apply flat_map_app. Qed.
Lemma puts_in : forall tr k, In k (puts a b tr) <-> exists t, In (APut k a b t) tr.
Proof.
  intros tr k. unfold puts. rewrite in_flat_map. split.
  - intros (o & I & X). destruct o as [k' a' b' t| | |]; try contradiction. destruct (Nat.eqb a' a) eqn:A1; [|contradiction]. destruct (Nat.eqb b' b) eqn:A2; [|contradiction].
    destruct X as [->|[]]. apply Nat.eqb_eq in A1, A2. subst. exists t. exact I.
  - intros (t & I). exists (APut k a b t). split; [exact I|]. rewrite !Nat.eqb_refl. left. reflexivity.
Qed.
Lemma arrivals_in : forall tr k, In k (arrivals a b tr) <-> exists t, In (ADeliver k a b t) tr.
Proof.
  intros tr k. unfold arrivals. rewrite in_flat_map. split.
  - intros (o & I & X). destruct o as [| | |k' a' b' t]; try contradiction. destruct (Nat.eqb a' a) eqn:A1; [|contradiction]. destruct (Nat.eqb b' b) eqn:A2; [|contradiction].
    destruct X as [->|[]]. apply Nat.eqb_eq in A1, A2. subst. exists t. exact I.
  - intros (t & I). exists (ADeliver k a b t). split; [exact I|]. rewrite !Nat.eqb_refl. left. reflexivity.
Qed.
Lemma later_mono : forall x y z w, x <= y -> z == w -> later x z <= later y w.
Proof. intros x y z w A B. unfold later. destruct (Qltb x z) eqn:X; destruct (Qltb y w) eqn:Y; qbool; lra. Qed.
Lemma first_in_line : forall s tr k k' fl, timed f s -> placed s tr -> clocked s tr -> led s tr -> tied s ->
  t_run s = Some (CSelect k b fl) -> mine s k -> mine s k' -> (k' < k)%nat -> In k' (arrivals a b tr).
Proof.
  intros s tr k k' fl T H C L TI R M M' LT. destruct (pl_split _ _ H) as (w & W1 & W2 & W3).
  assert (KW : In k (seq 0 w)) by (apply (Permutation_in _ (Permutation_sym W3)); apply in_or_app; right; unfold moving; apply in_or_app; right; rewrite R; left; reflexivity).
  apply in_seq in KW. assert (KW' : In k' (seq 0 w)) by (apply in_seq; lia). apply (Permutation_in _ W3) in KW'. apply in_app_or in KW' as [I|I].
  - unfold settled in I. apply in_flat_map in I as (o & I & X). destruct o as [| |k1 t|k1 x y t]; try contradiction; destruct X as [->|[]].
    + elim (d_drop _ _ L _ _ I M').
    + destruct (pl_del _ _ H _ _ _ _ I) as [M1 _]. unfold mine in M'. rewrite M1 in M'. injection M' as -> ->. apply arrivals_in. exists t. exact I.
  - exfalso. unfold moving in I. apply in_app_or in I as [I|I]; [|rewrite R in I; destruct I as [I|[]]; lia].
    unfold movs in I. apply in_flat_map in I as (e & I & X). destruct (e_ev e) as [| | |k1 c h g t|k1 c h g] eqn:E1; try contradiction; destruct X as [->|[]].
    + exact (d_retry _ _ L _ _ _ _ _ _ I E1 M').
    + destruct (d_send _ _ L _ _ _ _ _ I E1 M') as (_ & r' & p' & _ & _ & F' & _ & (tp' & ts' & P1 & P2 & P3)).
      destruct (d_select _ _ L _ _ _ R M) as (_ & r & p & _ & F & _ & (tp & ts & P4 & P5 & P6)). apply far_zero in F as R0. subst r. change (qn 0) with 0 in P6.
      pose proof (pl_mono _ _ H _ _ _ _ _ _ _ _ P1 P4 (Nat.lt_le_incl _ _ LT)) as LE. pose proof (c_same _ _ C _ _ P2 P5) as SA. pose proof (later_mono _ _ _ _ LE SA) as LL.
      unfold timed in T. rewrite Forall_forall in T. destruct (T e I) as (NE & _ & PS & _). rewrite E1 in PS. specialize (PS eq_refl).
      assert (POS : 0 <= qn r' * f_send f) by (apply Qmult_le_0_compat; [apply qn_pos|lra]).
      destruct (ti_select _ TI _ _ _ _ R M F e k' c h g r' I E1 M' F') as [A1 _]; [change (qn 0) with 0; lra|]. specialize (A1 LT). lia.
Qed.
Definition ordered (s : st) (tr : list out) : Prop := StronglySorted lt (puts a b tr) /\ prefix (arrivals a b tr) (puts a b tr).
Lemma sorted_snoc : forall l n, StronglySorted lt l -> (forall k, In k l -> (k < n)%nat) -> StronglySorted lt (l ++ [n]).
Proof.
  induction l as [|x l IH]; intros n S B; cbn; [repeat constructor|]. inversion S as [|? ? S1 S2]; subst. constructor; [apply IH; [exact S1|intros; apply B; right; assumption]|].
  apply Forall_app. split; [exact S2|]. repeat constructor. apply B. left. reflexivity.
Qed.
Lemma next_in_line : forall l1 l2 k, StronglySorted lt l2 -> prefix l1 l2 -> In k l2 -> ~ In k l1 -> (forall k', In k' l2 -> (k' < k)%nat -> In k' l1) -> prefix (l1 ++ [k]) l2.
Proof.
  intros l1 l2 k S [r ->] I N B. apply in_app_or in I as [I|I]; [contradiction|]. destruct r as [|h r]; [contradiction|]. destruct I as [->|I]; [exists r; rewrite <- app_assoc; reflexivity|exfalso].
  assert (X : forall l, StronglySorted lt (l ++ h :: r) -> ~ In h l /\ (h < k)%nat).
  { clear - I. induction l as [|x l IH]; cbn; intro S; inversion S as [|? ? S1 S2]; subst.
    - rewrite Forall_forall in S2. split; [intros []|apply S2; exact I].
    - destruct (IH S1) as [A1 A2]. split; [|exact A2]. intros [->|J]; [|exact (A1 J)]. rewrite Forall_forall in S2. specialize (S2 h). assert (h < h)%nat; [apply S2; apply in_or_app; right; left; reflexivity|lia]. }
  destruct (X _ S) as [X1 X2]. apply X1. apply B; [apply in_or_app; right; left; reflexivity|exact X2].
Qed.
Lemma quiet_out : forall s o s' l, trans f s o s' l -> (puts a b l = [] /\ arrivals a b l = []) \/ (exists u v, l = [APut (length (t_msgs s)) u v (t_now s)]) \/
  (exists k u v fl, l = [ADeliver k u v (t_now s)] /\ t_run s = Some (CSelect k v fl) /\ nth_error (t_msgs s) k = Some (u, v)).
Proof. intros s o s' l TR. destruct TR; try (left; split; reflexivity); right; [right|left]; eauto 8. Qed.
Lemma ordered_trans : forall s tr o s' l, timed f s -> placed s tr -> clocked s tr -> led s tr -> tied s -> ordered s tr -> trans f s o s' l -> ordered s' (tr ++ l).
Proof.
  intros s tr o s' l T H C L TI [O1 O2] TR. unfold ordered. rewrite puts_app, arrivals_app. destruct (quiet_out _ _ _ _ TR) as [[-> ->]|[(u & v & ->)|(k & u & v & fl & -> & R & M)]].
  - rewrite !app_nil_r. split; assumption.
  - change (arrivals a b [APut (length (t_msgs s)) u v (t_now s)]) with (@nil nat). unfold puts at 2 4. cbn [flat_map]. rewrite !app_nil_r. destruct (_ && _); [|rewrite app_nil_r; split; assumption]. split.
    + apply sorted_snoc; [exact O1|]. intros k I. apply puts_in in I as (t & I). destruct (pl_msg _ _ H _ _ _ _ I) as [I' _]. apply nth_error_Some. congruence.
    + destruct O2 as [r O2]. exists (r ++ [length (t_msgs s)]). rewrite O2, app_assoc. reflexivity.
  - change (puts a b [ADeliver k u v (t_now s)]) with (@nil nat). unfold arrivals at 2. cbn [flat_map]. rewrite !app_nil_r. destruct (Nat.eqb u a) eqn:A1; [|cbn; rewrite app_nil_r; split; assumption]. destruct (Nat.eqb v b) eqn:A2; [|cbn; rewrite app_nil_r; split; assumption].
    apply Nat.eqb_eq in A1, A2. subst u v. split; [exact O1|]. cbn [andb]. apply next_in_line; try assumption.
    + apply puts_in. exact (pl_put _ _ H _ _ _ M).
    + intro X. apply arrivals_in in X as (t & X). destruct (pl_split _ _ H) as (w & W1 & W2 & W3). assert (ND : NoDup (settled tr ++ moving s)) by (eapply Permutation_NoDup; [exact W3|apply seq_NoDup]).
      assert (K1 : In k (settled tr)) by (unfold settled; apply in_flat_map; exists (ADeliver k a b t); split; [exact X|left; reflexivity]).
      assert (K2 : In k (moving s)) by (unfold moving; apply in_or_app; right; rewrite R; left; reflexivity).
      apply in_split in K1 as (z1 & z2 & E1). rewrite E1 in ND. rewrite <- app_assoc in ND. cbn in ND. apply NoDup_remove_2 in ND. apply ND. rewrite !in_app_iff. auto.
    + intros k' I LT. apply puts_in in I as (t & I). apply (first_in_line s tr k k' fl); try assumption. exact (proj1 (pl_msg _ _ H _ _ _ _ I)).
Qed.
Record whole (s : st) (tr : list out) : Prop := mkWhole { wh_timed : timed f s; wh_placed : placed s tr; wh_clocked : clocked s tr; wh_led : led s tr; wh_tied : tied s; wh_ordered : ordered s tr }.
Lemma whole_run : forall c net t0 os, same_table net -> clear net0 a b c -> (forall c', In (UConf c') os -> clear net0 a b c') -> (forall net', In (UNet net') os -> same_table net') ->
  whole (fst (run f (init c net t0) os)) (snd (run f (init c net t0) os)).
Proof.
  intros c net t0 os N C OC ON. change (snd (run f (init c net t0) os)) with ([] ++ snd (run f (init c net t0) os)). apply run_inv.
  - constructor; [constructor|apply placed_init|apply clocked_init| | |].
    + constructor; cbn; try (intros; contradiction); try (intros; discriminate); assumption.
    + constructor; cbn; try (intros; discriminate). constructor.
    + split; [constructor|exists []; reflexivity].
  - intros s tr o s' l I [W1 W2 W3 W4 W5 W6] TR. constructor.
    + apply (timed_trans f s o s' l G W1 TR).
    + eapply placed_trans; eassumption.
    + eapply clocked_trans; eassumption.
    + eapply led_trans; try eassumption; intros ? ->; auto.
    + eapply tied_trans; eassumption.
    + eapply ordered_trans; eassumption.
Qed.
End Pair.

Record sound (f : cfg) (s : st) (tr : list out) : Prop := mkSound { so_timed : timed f s; so_placed : placed s tr; so_clocked : clocked s tr }.
Lemma sound_run : forall f c net t0 os, good f -> sound f (fst (run f (init c net t0) os)) (snd (run f (init c net t0) os)).
Proof.
  intros f c net t0 os G. change (snd (run f (init c net t0) os)) with ([] ++ snd (run f (init c net t0) os)). apply run_inv.
  - constructor; [constructor|apply placed_init|apply clocked_init].
  - intros s tr o s' l I [W1 W2 W3] TR. constructor; [apply (timed_trans f s o s' l G W1 TR)|eapply placed_trans; eassumption|eapply clocked_trans; eassumption].
Qed.

(** ** However much is blocked, messages go along the connections, and each takes its time *)
Section Trod.
Variable f : cfg.
Hypothesis G : good f.
Variable E : nat -> nat -> Prop.
Lemma walk_on : forall x p y z, walk E x p y -> E y z -> walk E x (p ++ [z]) z.
Proof. intros x p y z W EZ. induction W; cbn; econstructor; eauto. constructor. Qed.
Definition within (net : network) : Prop := wf_net net /\ forall x y, connected net x y -> E x y.
(** The message is at [cur] at [t], having come a way from its source. *)
Definition here (s : st) (tr : list out) (k cur : nat) (t : Q) : Prop := forall a b, nth_error (t_msgs s) k = Some (a, b) ->
  exists p tp ts, walk E a p cur /\ In (APut k a b tp) tr /\ In (AStart ts) tr /\ later tp ts + qn (length p) * f_send f <= t.
Record trod (s : st) (tr : list out) : Prop := mkTrod {
  tr_net : within (t_net s);
  tr_select : forall k cur fl, t_run s = Some (CSelect k cur fl) -> here s tr k cur (t_now s);
  tr_test : forall k cur hop fl tk, t_run s = Some (CTest k cur hop fl tk) -> E cur hop /\ here s tr k cur (t_now s);
  tr_send : forall e k cur hop fl, In e (t_queue s) -> e_ev e = ESend k cur hop fl -> here s tr k hop (e_time e);
  tr_retry : forall e k cur hop fl tk, In e (t_queue s) -> e_ev e = ERetry k cur hop fl tk -> E cur hop /\ here s tr k cur (e_time e);
  tr_del : forall k a b t, In (ADeliver k a b t) tr -> exists p tp ts, walk E a p b /\ In (APut k a b tp) tr /\ In (AStart ts) tr /\ later tp ts + qn (length p) * f_send f <= t }.
Lemma here_step : forall s tr s' l k cur t t', here s tr k cur t -> t <= t' -> (forall m, nth_error (t_msgs s') k = Some m -> nth_error (t_msgs s) k = Some m) -> here s' (tr ++ l) k cur t'.
Proof.
  intros s tr s' l k cur t t' H T M a b X. destruct (H a b (M _ X)) as (p & tp & ts & A1 & A2 & A3 & A4). exists p, tp, ts. rewrite !in_app_iff.
  split; [exact A1|]. split; [auto|]. split; [auto|]. lra.
Qed.
Lemma here_on : forall s tr s' l k cur hop t t', here s tr k cur t -> E cur hop -> t + f_send f <= t' -> t_msgs s' = t_msgs s -> here s' (tr ++ l) k hop t'.
Proof.
  intros s tr s' l k cur hop t t' H EC T M a b X. rewrite M in X. destruct (H a b X) as (p & tp & ts & A1 & A2 & A3 & A4). exists (p ++ [hop]), tp, ts. rewrite !in_app_iff.
  split; [eapply walk_on; eassumption|]. split; [auto|]. split; [auto|]. rewrite app_length. cbn [length]. rewrite Nat.add_1_r, qn_S. lra.
Qed.
Lemma trod_step : forall s tr s' l, placed s tr -> trod s tr -> within (t_net s') ->
  (forall k m, (k < length (t_msgs s))%nat -> nth_error (t_msgs s') k = Some m -> nth_error (t_msgs s) k = Some m) ->
  (forall e, In e (t_queue s') -> In e (t_queue s) \/ (forall k cur hop fl, e_ev e = ESend k cur hop fl -> here s' (tr ++ l) k hop (e_time e)) /\
     (forall k cur hop fl tk, e_ev e = ERetry k cur hop fl tk -> E cur hop /\ here s' (tr ++ l) k cur (e_time e))) ->
  (forall k cur fl, t_run s' = Some (CSelect k cur fl) -> here s' (tr ++ l) k cur (t_now s')) ->
  (forall k cur hop fl tk, t_run s' = Some (CTest k cur hop fl tk) -> E cur hop /\ here s' (tr ++ l) k cur (t_now s')) ->
  (forall o, In o l -> match o with ADeliver k a b t => here s tr k b t /\ nth_error (t_msgs s) k = Some (a, b) | _ => True end) ->
  trod s' (tr ++ l).
Proof.
  intros s tr s' l H L N MB Q RS RT O. constructor; auto.
  - intros e k cur hop fl I X. destruct (Q e I) as [I'|[Y _]]; [|eapply Y; eassumption]. eapply here_step; [eapply (tr_send _ _ L); eassumption|lra|]. intros m. apply MB.
    apply (gone_in s tr k H). right. unfold moving. apply in_or_app. left. eapply in_movs; [exact I'|]. left. eauto.
  - intros e k cur hop fl tk I X. destruct (Q e I) as [I'|[_ Y]]; [|eapply Y; eassumption]. destruct (tr_retry _ _ L _ _ _ _ _ _ I' X) as [A1 A2]. split; [exact A1|]. eapply here_step; [exact A2|lra|]. intros m. apply MB.
    apply (gone_in s tr k H). right. unfold moving. apply in_or_app. left. eapply in_movs; [exact I'|]. right. eauto 8.
  - intros k a b t I. assert (X : exists p tp ts, walk E a p b /\ In (APut k a b tp) tr /\ In (AStart ts) tr /\ later tp ts + qn (length p) * f_send f <= t).
    { apply in_app_or in I as [I|I]; [apply (tr_del _ _ L); exact I|]. destruct (O _ I) as [A1 A2]. exact (A1 _ _ A2). }
    destruct X as (p & tp & ts & A1 & A2 & A3 & A4). exists p, tp, ts. rewrite !in_app_iff. auto.
Qed.
Lemma trod_trans : forall s tr o s' l, (forall net, o = UNet net -> within net) -> timed f s -> placed s tr -> clocked s tr -> trod s tr -> trans f s o s' l -> trod s' (tr ++ l).
Proof.
  intros s tr o s' l ON T H C L TR. pose proof (tr_net _ _ L) as DN. destruct G as [G1 G2].
  destruct TR as [o|k x y fl R M|k cur x y fl hop R M N Hh|k cur x y fl R M N Hh|k cur hop fl tk R B|k cur hop fl tk R B|k cur hop fl tk R B S|k cur hop fl tk R B S|x r R P Ev|x r k R P Ev|x r k u v R P Ev M|x r k R P Ev M|x r k cur hop fl tk R P Ev|x r k cur hop fl R P Ev|t R Lt F|c R|net|u v R|R Lo].
  - rewrite app_nil_r. exact L.
  - apply (trod_step s); try assumption; cbn; try (intros; discriminate); auto. intros o [<-|[]]. split; [exact (tr_select _ _ L _ _ _ R)|exact M].
  - apply (trod_step s); try assumption; cbn; try (intros; discriminate); auto; [|intros ? []]. intros k' cur' hop' fl' tk' [= <- <- <- <- <-].
    destruct DN as [DW DE]. split; [apply DE; exact (proj1 (C38_hop_connected _ _ _ _ _ DW Hh))|]. eapply here_step; [exact (tr_select _ _ L _ _ _ R)|apply Qle_refl|auto].
  - apply (trod_step s); try assumption; cbn; try (intros; discriminate); auto. intros o [<-|[]]. exact I.
  - apply (trod_step s); try assumption; cbn; try (intros; discriminate); auto; [|intros ? []]. intros k' cur' fl' [= <- <- <-].
    eapply here_step; [exact (proj2 (tr_test _ _ L _ _ _ _ _ R))|apply Qle_refl|auto].
  - apply (trod_step s); try assumption; cbn; try (intros; discriminate); auto; [|intros ? []]. intros e I. apply in_app_or in I as [I|[<-|[]]]; [left; exact I|right]. cbn. split; [intros; discriminate|]. intros k' cur' hop' fl' tk' [= <- <- <- <- <-].
    destruct (tr_test _ _ L _ _ _ _ _ R) as [A1 A2]. split; [exact A1|]. eapply here_step; [exact A2|lra|auto].
  - apply (trod_step s); try assumption; cbn; try (intros; discriminate); auto; [|intros ? []]. intros e I. apply in_app_or in I as [I|[<-|[]]]; [left; exact I|right]. cbn. split; [|intros; discriminate]. intros k' cur' hop' fl' [= <- <- <- <-].
    destruct (tr_test _ _ L _ _ _ _ _ R) as [A1 A2]. eapply here_on; [exact A2|exact A1|lra|reflexivity].
  - apply (trod_step s); try assumption; cbn; try (intros; discriminate); auto; [|intros ? []]. intros k' cur' fl' [= <- <- <-].
    destruct (tr_test _ _ L _ _ _ _ _ R) as [A1 A2]. eapply here_on; [exact A2|exact A1|lra|reflexivity].
  - destruct (pop_in _ _ _ P) as [_ IR]. apply (trod_step s); try assumption; unfold in_get; destruct (t_in (taken_st s x r)); cbn; try (intros; discriminate); auto; try (intros o [<-|[]]; exact I); intros e IE; rewrite ?in_app_iff in IE; cbn in IE.
    destruct IE as [IE|[<-|[]]]; [left; apply IR; exact IE|right]. split; intros; discriminate.
  - destruct (pop_in _ _ _ P) as [_ IR]. apply (trod_step s); try assumption; unfold in_get; destruct (t_in (schedule (taken_st s x r) (e_time x) true (EInit k))); cbn; try (intros; discriminate); auto; try (intros o []; fail); intros e IE; rewrite ?in_app_iff in IE; cbn in IE.
    + destruct IE as [IE|[<-|[]]]; [left; apply IR; exact IE|right]. split; intros; discriminate.
    + destruct IE as [[IE|[<-|[]]]|[<-|[]]]; [left; apply IR; exact IE|right|right]; split; intros; discriminate.
  - destruct (pop_in _ _ _ P) as [IX IR]. apply (trod_step s); try assumption; cbn; try (intros; discriminate); auto; [|intros ? []]. intros k' cur' fl' [= <- <- <-] a b X. cbn in X. rewrite M in X. injection X as <- <-.
    destruct (pl_put _ _ H _ _ _ M) as (tp & PT). destruct (c_begun _ _ C) as (ts & ST); [right; left; exists x; split; [exact IX|congruence]|].
    exists [], tp, ts. rewrite !in_app_iff. split; [constructor|]. split; [auto|]. split; [auto|]. assert (WK : In k (waiting s)) by (unfold waiting; apply in_or_app; left; unfold inis; apply in_flat_map; exists x; split; [exact IX|]; rewrite Ev; left; reflexivity).
    rewrite (c_wait _ _ C _ _ _ _ _ WK PT ST). assert (XT : e_time x == t_now s) by (unfold timed in T; rewrite Forall_forall in T; destruct (T x IX) as (_ & B & _); rewrite Ev in B; apply B; reflexivity). cbn [length]. change (qn 0) with 0. lra.
  - destruct (pop_in _ _ _ P) as [IX IR]. apply (trod_step s); try assumption; cbn; try (intros; discriminate); auto; intros ? [].
  - destruct (pop_in _ _ _ P) as [IX IR]. apply (trod_step s); try assumption; cbn; try (intros; discriminate); auto; [|intros ? []]. intros k' cur' hop' fl' tk' [= <- <- <- <- <-].
    destruct (tr_retry _ _ L _ _ _ _ _ _ IX Ev) as [A1 A2]. split; [exact A1|]. eapply here_step; [exact A2|apply Qle_refl|auto].
  - destruct (pop_in _ _ _ P) as [IX IR]. apply (trod_step s); try assumption; cbn; try (intros; discriminate); auto; [|intros ? []]. intros k' cur' fl' [= <- <- <-].
    eapply here_step; [exact (tr_send _ _ L _ _ _ _ _ IX Ev)|apply Qle_refl|auto].
  - apply (trod_step s); try assumption; cbn; try (intros; congruence); auto; intros ? [].
  - apply (trod_step s); try assumption; cbn; try (intros; congruence); auto; intros ? [].
  - apply (trod_step s); try assumption; cbn; auto; try (intros ? []; fail); rewrite ?app_nil_r; intros; [eapply (tr_select _ _ L)|eapply (tr_test _ _ L)]; eassumption.
  - apply (trod_step s); try assumption; unfold in_put, in_get; cbn.
    + destruct (t_loop s); try exact DN. destruct (t_in s); exact DN.
    + intros k' m LK MI. assert (MI' : nth_error (t_msgs s ++ [(u, v)]) k' = Some m) by (revert MI; destruct (t_loop s); try (cbn; auto; fail); destruct (t_in s); cbn; auto). rewrite nth_error_app1 in MI' by exact LK. exact MI'.
    + destruct (t_loop s); auto. destruct (t_in s); cbn; intros e IE; apply in_app_or in IE as [IE|[<-|[]]]; auto; right; split; intros; discriminate.
    + destruct (t_loop s); try (intros; discriminate). destruct (t_in s); intros; discriminate.
    + destruct (t_loop s); try (intros; discriminate). destruct (t_in s); intros; discriminate.
    + intros o [<-|[]]. exact I.
  - apply (trod_step s); try assumption; cbn; try (intros; congruence); auto; [|intros ? []]. intros e IE. apply in_app_or in IE as [IE|[<-|[]]]; [left; exact IE|right]. split; intros; discriminate.
Qed.
Lemma trod_run : forall c net t0 os, within net -> (forall net', In (UNet net') os -> within net') -> trod (fst (run f (init c net t0) os)) (snd (run f (init c net t0) os)).
Proof.
  intros c net t0 os N ON. change (snd (run f (init c net t0) os)) with ([] ++ snd (run f (init c net t0) os)).
  enough (X : sound f (fst (run f (init c net t0) os)) ([] ++ snd (run f (init c net t0) os)) /\ trod (fst (run f (init c net t0) os)) ([] ++ snd (run f (init c net t0) os))) by apply X.
  apply (run_inv f (fun s tr => sound f s tr /\ trod s tr)).
  - split; [constructor; [constructor|apply placed_init|apply clocked_init]|]. constructor; cbn; try (intros; contradiction); try (intros; discriminate). exact N.
  - intros s tr o s' l I [[W1 W2 W3] W4] TR. split.
    + constructor; [apply (timed_trans f s o s' l G W1 TR)|eapply placed_trans; eassumption|eapply clocked_trans; eassumption].
    + eapply trod_trans; try eassumption. intros ? ->; auto.
Qed.
End Trod.
