(** Runs with simpy's queue are runs of the model without an order. *)
From Coq Require Import Permutation.
From Verif Require Import Common RouteModel RouteSpec RouteProofs RouteProps ActiveModel HopModel HopSpec HopProofs OrderSpec.
From Verif Require CommsModel CommsProofs ActiveProofs.
Import CommsModel (TNew, TSelect, TCheck, TRetry, TSend, TMoved, TArrive, TDone, TDropped, TRaised, p_from, p_to, p_start, p_phase, mkP,
  ms_conf, ms_now, ms_running, ms_in, ms_procs, mkMS, mrun, mstep, go, minit, OGo, OTime, OConf, OStartRun, OSend, ORun).

Lemma mrun_app : forall g os1 m os2 m1 l1 m2 l2, mrun g m os1 = (m1, l1) -> mrun g m1 os2 = (m2, l2) -> mrun g m (os1 ++ os2) = (m2, l1 ++ l2).
Proof.
  intros g. induction os1 as [|o os1 IH]; intros m os2 m1 l1 m2 l2 H1 H2; cbn in *; [injection H1 as <- <-; exact H2|].
  destruct (mstep g m o) as [m3 l3]. destruct (mrun g m3 os1) as [m4 l4] eqn:R. injection H1 as <- <-. rewrite (IH _ _ _ _ _ _ R H2), app_assoc. reflexivity.
Qed.
Lemma mrun_one : forall g m o, mrun g m [o] = mstep g m o.
Proof. intros g m o. cbn. destruct (mstep g m o) as [m1 l1]. rewrite app_nil_r. reflexivity. Qed.
Lemma ends_app p q : ends (p ++ q) = ends p ++ ends q. Proof. apply flat_map_app. Qed.
Lemma ends_free_app p q : ends_free (p ++ q) = ends_free p ++ ends_free q. Proof. apply flat_map_app. Qed.
Lemma confs_free_app p q : confs_free (p ++ q) = confs_free p ++ confs_free q. Proof. apply flat_map_app. Qed.

Lemma Forall2_impl : forall A B (P Q : A -> B -> Prop) l1 l2, (forall a b, P a b -> Q a b) -> Forall2 P l1 l2 -> Forall2 Q l1 l2.
Proof. intros A B P Q l1 l2 H F. induction F; constructor; auto. Qed.

(** ** Where a message is *)
Definition mv (e : entry) : list nat := match e_ev e with ERetry k _ _ _ _ | ESend k _ _ _ => [k] | _ => [] end.
Definition about (e : entry) (k : nat) : Prop := e_ev e = EInit k \/ In k (mv e).
Lemma flat_unique : forall A (h : A -> list nat) l e x k, NoDup (flat_map h l) -> In e l -> In x l -> In k (h e) -> In k (h x) -> e = x.
Proof.
  intros A h. induction l as [|y l IH]; intros e x k ND E X KE KX; [contradiction|]. cbn in ND.
  assert (DJ : forall z, In z l -> In k (h z) -> In k (h y) -> False).
  { intros z Z K1 K2. clear - ND Z K1 K2. revert ND K2. generalize (h y). intro hy. induction hy as [|w hy IH]; intros ND K2; [contradiction|]. cbn in ND. inversion ND as [|? ? N1 N2]; subst. destruct K2 as [->|K2]; [|exact (IH N2 K2)].
    apply N1. apply in_or_app. right. apply in_flat_map. exists z. auto. }
  assert (N2 : NoDup (flat_map h l)) by (clear - ND; induction (h y) as [|w hy IH]; [exact ND|inversion ND; subst; auto]).
  destruct E as [->|E]; destruct X as [->|X]; auto; [exfalso; eapply DJ; eauto|exfalso; eapply DJ; eauto|]. eapply IH; eauto.
Qed.
Lemma spots : forall s tr, placed s tr -> NoDup (settled tr ++ movs (t_queue s) ++ on_stage (t_run s)) /\
  (forall k, In k (waiting s) -> ~ In k (settled tr ++ movs (t_queue s) ++ on_stage (t_run s))).
Proof.
  intros s tr H. destruct (pl_split _ _ H) as (w & W1 & W2 & W3). unfold moving in W3. split; [eapply Permutation_NoDup; [exact W3|apply seq_NoDup]|].
  intros k I J. apply (Permutation_in _ (Permutation_sym W3)) in J. apply in_seq in J. rewrite W2 in I. apply in_seq in I. lia.
Qed.
Lemma init_waits : forall s e k, In e (t_queue s) -> e_ev e = EInit k -> In k (waiting s).
Proof. intros s e k I X. unfold waiting. apply in_or_app. left. unfold inis. apply in_flat_map. exists e. split; [exact I|]. rewrite X. left. reflexivity. Qed.
Lemma mv_in : forall q e k, In e q -> In k (mv e) -> In k (movs q).
Proof. intros q e k I X. unfold movs. apply in_flat_map. exists e. auto. Qed.
Inductive shown (s : st) (tr : list out) (k : nat) : CommsModel.phase -> Prop :=
| ShNew e : In e (t_queue s) -> e_ev e = EInit k -> shown s tr k TNew
| ShSelect cur fl : t_run s = Some (CSelect k cur fl) -> shown s tr k (TSelect cur fl)
| ShTest cur hop fl tk : t_run s = Some (CTest k cur hop fl tk) -> shown s tr k (TCheck cur hop fl tk)
| ShRetry e cur hop fl tk due : In e (t_queue s) -> e_ev e = ERetry k cur hop fl tk -> e_time e == due -> shown s tr k (TRetry cur hop fl tk due)
| ShSend e cur hop fl due : In e (t_queue s) -> e_ev e = ESend k cur hop fl -> e_time e == due -> shown s tr k (TSend cur hop fl due)
| ShEnd ph : In k (settled tr) -> ph = TDone \/ ph = TDropped -> shown s tr k ph.
Section Unique.
Variables (s : st) (tr : list out) (k : nat) (ph : CommsModel.phase).
Hypothesis H : placed s tr.
Hypothesis SH : shown s tr k ph.
Lemma spot_in : In k (waiting s) /\ ph = TNew \/ In k (settled tr ++ movs (t_queue s) ++ on_stage (t_run s)).
Proof.
  destruct SH as [e I X|cur fl R|cur hop fl tk R|e cur hop fl tk due I X T|e cur hop fl due I X T|ph' I X]; [left; split; [eapply init_waits; eassumption|reflexivity]|right..]; rewrite !in_app_iff.
  - right. right. rewrite R. left. reflexivity.
  - right. right. rewrite R. left. reflexivity.
  - right. left. eapply mv_in; [exact I|]. unfold mv. rewrite X. left. reflexivity.
  - right. left. eapply mv_in; [exact I|]. unfold mv. rewrite X. left. reflexivity.
  - left. exact I.
Qed.
Lemma shown_new : forall x, In x (t_queue s) -> e_ev x = EInit k -> ph = TNew.
Proof. intros x I X. destruct spot_in as [[_ ->]|J]; [reflexivity|]. elim (proj2 (spots _ _ H) k (init_waits _ _ _ I X) J). Qed.
Lemma apart : forall (x y z : list nat), NoDup (x ++ y ++ z) -> (In k x -> In k y -> False) /\ (In k x -> In k z -> False) /\ (In k y -> In k z -> False).
Proof.
  intros x y z ND. assert (P : forall u v : list nat, NoDup (u ++ v) -> In k u -> In k v -> False).
  { induction u as [|w u IH]; intros v N I J; [contradiction|]. inversion N as [|? ? N1 N2]; subst. destruct I as [->|I]; [apply N1; apply in_or_app; right; exact J|exact (IH _ N2 I J)]. }
  split; [intros I J; apply (P _ _ ND I); apply in_or_app; left; exact J|]. split; [intros I J; apply (P _ _ ND I); apply in_or_app; right; exact J|].
  clear - P ND. intros I J. induction x as [|w x IH]; [exact (P y z ND I J)|]. inversion ND; subst. auto.
Qed.
Lemma not_new : In k (settled tr ++ movs (t_queue s) ++ on_stage (t_run s)) -> forall x, In x (t_queue s) -> e_ev x <> EInit k.
Proof. intros J x I X. exact (proj2 (spots _ _ H) k (init_waits _ _ _ I X) J). Qed.
Lemma shown_run : forall c, t_run s = Some c -> In k (on_stage (Some c)) -> ph = match c with CSelect _ cur fl => TSelect cur fl | CTest _ cur hop fl tk => TCheck cur hop fl tk end.
Proof.
  intros c R J. pose proof (proj1 (spots _ _ H)) as ND. rewrite R in ND. destruct (apart _ _ _ ND) as (A1 & A2 & A3).
  destruct SH as [e I X|cur fl R'|cur hop fl tk R'|e cur hop fl tk due I X T|e cur hop fl due I X T|ph' I X].
  - exfalso. eapply not_new; [|exact I|exact X]. rewrite R, !in_app_iff. auto.
  - rewrite R in R'. injection R' as ->. reflexivity.
  - rewrite R in R'. injection R' as ->. reflexivity.
  - exfalso. apply A3; [|exact J]. eapply mv_in; [exact I|]. unfold mv. rewrite X. left. reflexivity.
  - exfalso. apply A3; [|exact J]. eapply mv_in; [exact I|]. unfold mv. rewrite X. left. reflexivity.
  - exfalso. exact (A2 I J).
Qed.
Lemma shown_queue : forall x, In x (t_queue s) -> In k (mv x) ->
  match e_ev x with ERetry _ cur hop fl tk => exists due, ph = TRetry cur hop fl tk due /\ e_time x == due | ESend _ cur hop fl => exists due, ph = TSend cur hop fl due /\ e_time x == due | _ => False end.
Proof.
  intros x IX J. pose proof (proj1 (spots _ _ H)) as ND. destruct (apart _ _ _ ND) as (A1 & A2 & A3). pose proof (mv_in _ _ _ IX J) as JM.
  assert (NM : NoDup (movs (t_queue s))). { clear - ND. induction (settled tr) as [|w l IH]; [|inversion ND; auto]. cbn in ND. revert ND. generalize (on_stage (t_run s)). induction (movs (t_queue s)) as [|w l IH]; intros z ND; constructor; inversion ND; subst; [intro I; apply H1; apply in_or_app; auto|eauto]. }
  assert (U : forall e, In e (t_queue s) -> In k (mv e) -> e = x) by (intros e I K; exact (flat_unique _ mv _ _ _ k NM I IX K J)).
  destruct SH as [e I X|cur fl R'|cur hop fl tk R'|e cur hop fl tk due I X T|e cur hop fl due I X T|ph' I X].
  - exfalso. eapply not_new; [|exact I|exact X]. rewrite !in_app_iff. auto.
  - exfalso. apply A3; [exact JM|]. rewrite R'. left. reflexivity.
  - exfalso. apply A3; [exact JM|]. rewrite R'. left. reflexivity.
  - assert (e = x) by (apply U; [exact I|unfold mv; rewrite X; left; reflexivity]). subst e. rewrite X. eauto.
  - assert (e = x) by (apply U; [exact I|unfold mv; rewrite X; left; reflexivity]). subst e. rewrite X. eauto.
  - exfalso. exact (A1 I JM).
Qed.
End Unique.
Lemma shown_keep : forall s tr s' l k ph, shown s tr k ph -> (forall e, In e (t_queue s) -> about e k -> In e (t_queue s')) ->
  (t_run s' = t_run s \/ ~ In k (on_stage (t_run s))) -> shown s' (tr ++ l) k ph.
Proof.
  intros s tr s' l k ph SH Q R. destruct SH as [e I X|cur fl R'|cur hop fl tk R'|e cur hop fl tk due I X T|e cur hop fl due I X T|ph' I X].
  - eapply ShNew; [apply Q; [exact I|left; exact X]|exact X].
  - apply ShSelect. destruct R as [R|R]; [congruence|]. exfalso. apply R. rewrite R'. left. reflexivity.
  - apply ShTest. destruct R as [R|R]; [congruence|]. exfalso. apply R. rewrite R'. left. reflexivity.
  - eapply ShRetry; [apply Q; [exact I|right; unfold mv; rewrite X; left; reflexivity]|exact X|exact T].
  - eapply ShSend; [apply Q; [exact I|right; unfold mv; rewrite X; left; reflexivity]|exact X|exact T].
  - apply ShEnd; [|exact X]. rewrite settled_app. apply in_or_app. left. exact I.
Qed.

(** ** The relation *)
Section Ref.
Variable f : cfg.
Variable net : network.
Hypothesis G : good f.
Local Notation g := (manager f net).
Record sim (s : st) (tr : list out) (m : CommsModel.mst) : Prop := mkSim {
  si_now : t_now s == ms_now m;
  si_conf : t_conf s = ms_conf m;
  si_net : t_net s = net;
  si_run : ms_running m = true <-> exists ts, In (AStart ts) tr;
  si_in : Forall2 (fun k ab => nth_error (t_msgs s) k = Some ab) (gots (t_queue s) ++ t_in s) (ms_in m);
  si_len : (length (ms_procs m) + length (gots (t_queue s) ++ t_in s) = length (t_msgs s))%nat;
  si_procs : forall k p, nth_error (ms_procs m) k = Some p -> nth_error (t_msgs s) k = Some (p_from p, p_to p) /\ shown s tr k (p_phase p) /\
    exists tp ts, In (APut k (p_from p) (p_to p) tp) tr /\ In (AStart ts) tr /\ later tp ts == p_start p }.
Lemma store_of : forall a, CommsModel.store_from_actor g a = Some 0%nat.
Proof. reflexivity. Qed.
Lemma free_idle : forall s tr m, sim s tr m -> t_run s = None -> CommsModel.idle m = true.
Proof.
  intros s tr m S R. unfold CommsModel.idle. apply forallb_forall. intros p I. apply In_nth_error in I as (k & I). destruct (si_procs _ _ _ S _ _ I) as (_ & SH & _).
  destruct SH as [e J X|cur fl R'|cur hop fl tk R'|e cur hop fl tk due J X T|e cur hop fl due J X T|ph J [->| ->]]; try reflexivity; congruence.
Qed.
Definition setp (m : CommsModel.mst) (k : nat) (p : CommsModel.proc) (ph : CommsModel.phase) : CommsModel.mst :=
  mkMS (ms_conf m) (ms_now m) (ms_running m) (ms_in m) (upd k (mkP (p_from p) (p_to p) (p_start p) ph) (ms_procs m)).
Lemma ogo : forall m k p ph l, nth_error (ms_procs m) k = Some p -> CommsModel.active (p_phase p) = true \/ CommsModel.idle m = true ->
  go g (ms_conf m) (ms_now m) p = Some (ph, l) -> mrun g m [OGo k] = (setp m k p ph, map (fun x => (k, ms_now m, x)) l).
Proof.
  intros m k p ph l N A Go. rewrite mrun_one. unfold mstep. rewrite N. assert (X : CommsModel.active (p_phase p) || CommsModel.idle m = true) by (apply orb_true_iff; exact A).
  rewrite X, Go. reflexivity.
Qed.
Lemma setp_nth : forall m k p ph, nth_error (ms_procs m) k = Some p -> nth_error (ms_procs (setp m k p ph)) k = Some (mkP (p_from p) (p_to p) (p_start p) ph).
Proof. intros m k p ph N. unfold setp. cbn. rewrite CommsProofs.nth_upd, Nat.eqb_refl, N. reflexivity. Qed.
Lemma setp_setp : forall m k p ph ph', setp (setp m k p ph) k (mkP (p_from p) (p_to p) (p_start p) ph) ph' = setp m k p ph'.
Proof. intros. unfold setp. cbn. rewrite ActiveProofs.upd_upd. reflexivity. Qed.
(** Time goes on. *)
Lemma pass : forall s tr m t, sound f s tr -> sim s tr m -> t_run s = None -> t_now s <= t -> Forall (fun e => t <= e_time e) (t_queue s) ->
  exists extra t', mrun g m extra = (mkMS (ms_conf m) t' (ms_running m) (ms_in m) (ms_procs m), []) /\ t == t' /\ confs_free extra = [].
Proof.
  intros s tr m t [T H C] S R LE F. destruct (Qlt_le_dec (t_now s) t) as [LT|GE].
  2:{ exists [], (ms_now m). split; [destruct m; reflexivity|]. split; [|reflexivity]. rewrite <- (si_now _ _ _ S). lra. }
  exists [OTime t], t. split; [|split; reflexivity]. rewrite mrun_one. unfold mstep. rewrite (free_idle _ _ _ S R).
  unfold timed in T. rewrite Forall_forall in T, F. assert (NI : forall e, In e (t_queue s) -> instant (e_ev e) = false).
  { intros e I. destruct (instant (e_ev e)) eqn:X; [|reflexivity]. exfalso. destruct (T e I) as (_ & B & _). specialize (B X). specialize (F e I). lra. }
  assert (E1 : Qleb (ms_now m) t = true) by (apply Qleb_le; rewrite <- (si_now _ _ _ S); exact LE). rewrite E1.
  assert (E2 : forallb (CommsModel.lets_pass t) (ms_procs m) = true).
  { apply forallb_forall. intros p I. apply In_nth_error in I as (k & I). destruct (si_procs _ _ _ S _ _ I) as (_ & SH & _). unfold CommsModel.lets_pass.
    destruct SH as [e J X|cur fl R'|cur hop fl tk R'|e cur hop fl tk due J X TE|e cur hop fl due J X TE|ph J [->| ->]]; try reflexivity.
    - specialize (NI e J). rewrite X in NI. discriminate.
    - apply Qleb_le. rewrite <- TE. exact (F e J).
    - apply Qleb_le. rewrite <- TE. exact (F e J). }
  rewrite E2. assert (E3 : negb (ms_running m) || match ms_in m with [] => true | _ => false end = true).
  { destruct (ms_running m) eqn:RU; [|reflexivity]. cbn. destruct (proj1 (si_run _ _ _ S) RU) as (ts & ST). pose proof (si_in _ _ _ S) as SI.
    assert (GN : gots (t_queue s) = []). { destruct (gots (t_queue s)) as [|k l] eqn:GE; [reflexivity|exfalso]. assert (I : In k (gots (t_queue s))) by (rewrite GE; left; reflexivity). unfold gots in I. apply in_flat_map in I as (e & I & J). specialize (NI e I). destruct (e_ev e); try contradiction. discriminate. }
    destruct (pl_loop _ _ H) as [L1 L2]. assert (NL : nloop (t_queue s) = 0%nat). { unfold nloop. destruct (filter _ (t_queue s)) as [|e l] eqn:FE; [reflexivity|exfalso]. assert (I : In e (filter (fun e => loopev (e_ev e)) (t_queue s))) by (rewrite FE; left; reflexivity). apply filter_In in I as [I J]. specialize (NI e I). destruct (e_ev e); discriminate. }
    rewrite NL in L1. destruct (t_loop s) eqn:LO; [exfalso; exact (proj1 (c_once _ _ C _ ST) LO)| |discriminate]. rewrite GN, (L2 eq_refl) in SI. inversion SI. reflexivity. }
  rewrite E3. reflexivity.
Qed.
(** One message goes on. *)
Lemma sim_proc : forall s tr m s' l k p ph now', sim s tr m -> nth_error (ms_procs m) k = Some p -> t_now s' == now' -> t_conf s' = t_conf s -> t_net s' = t_net s ->
  t_msgs s' = t_msgs s -> gots (t_queue s') ++ t_in s' = gots (t_queue s) ++ t_in s -> (forall ts, ~ In (AStart ts) l) ->
  (forall k' e, k' <> k -> In e (t_queue s) -> about e k' -> In e (t_queue s')) -> (forall k', k' <> k -> ~ In k' (on_stage (t_run s))) -> shown s' (tr ++ l) k ph ->
  sim s' (tr ++ l) (mkMS (ms_conf m) now' (ms_running m) (ms_in m) (upd k (mkP (p_from p) (p_to p) (p_start p) ph) (ms_procs m))).
Proof.
  intros s tr m s' l k p ph now' S N NW CF NT MS GI NS KE KR SH. constructor; cbn.
  - exact NW.
  - rewrite CF. exact (si_conf _ _ _ S).
  - rewrite NT. exact (si_net _ _ _ S).
  - rewrite (si_run _ _ _ S). split; intros (ts & I); exists ts; [apply in_or_app; left; exact I|]. apply in_app_or in I as [I|I]; [exact I|elim (NS ts I)].
  - rewrite GI, MS. exact (si_in _ _ _ S).
  - rewrite CommsProofs.upd_len, GI, MS. exact (si_len _ _ _ S).
  - intros k' q N'. rewrite CommsProofs.nth_upd in N'. destruct (Nat.eqb k k') eqn:EK.
    + apply Nat.eqb_eq in EK. subst k'. rewrite N in N'. injection N' as <-. cbn. destruct (si_procs _ _ _ S _ _ N) as (A1 & _ & tp & ts & A2 & A3 & A4). rewrite MS. split; [exact A1|]. split; [exact SH|].
      exists tp, ts. rewrite !in_app_iff. auto.
    + apply Nat.eqb_neq in EK. destruct (si_procs _ _ _ S _ _ N') as (A1 & A0 & tp & ts & A2 & A3 & A4). rewrite MS. split; [exact A1|]. split.
      * eapply shown_keep; [exact A0| |right; apply KR; congruence]. intros e I AB. eapply KE; [|exact I|exact AB]. congruence.
      * exists tp, ts. rewrite !in_app_iff. auto.
Qed.
Lemma there : forall s tr m, placed s tr -> sim s tr m -> forall k, In k (inis (t_queue s)) \/ In k (settled tr ++ movs (t_queue s) ++ on_stage (t_run s)) -> exists p, nth_error (ms_procs m) k = Some p.
Proof.
  intros s tr m H S k I. enough (L : (k < length (ms_procs m))%nat) by (apply nth_error_Some in L; destruct (nth_error (ms_procs m) k); [eauto|congruence]).
  pose proof (si_len _ _ _ S) as SL. destruct (pl_split _ _ H) as (w & W1 & W2 & W3). unfold moving in W3. unfold waiting in W2.
  assert (LN : (length (inis (t_queue s)) + length (gots (t_queue s) ++ t_in s) = length (t_msgs s) - w)%nat) by (rewrite <- app_length, W2, seq_length; reflexivity).
  destruct I as [I|I].
  - pose proof (pl_inis _ _ H) as PI. destruct (inis (t_queue s)) as [|k0 [|]]; cbn in PI; try lia; [contradiction|]. destruct I as [->|[]]. cbn in W2, LN.
    destruct (length (t_msgs s) - w)%nat eqn:LW; [discriminate|]. cbn in W2. injection W2 as -> _. lia.
  - apply (Permutation_in _ (Permutation_sym W3)) in I. apply in_seq in I. lia.
Qed.
Lemma next_one : forall s tr m k l, placed s tr -> sim s tr m -> inis (t_queue s) = [] -> gots (t_queue s) ++ t_in s = k :: l -> k = length (ms_procs m).
Proof.
  intros s tr m k l H S NI E. pose proof (si_len _ _ _ S) as SL. destruct (pl_split _ _ H) as (w & W1 & W2 & W3). unfold waiting in W2. rewrite NI in W2. cbn in W2. rewrite E in SL, W2.
  assert (LN := f_equal (@length nat) W2). rewrite seq_length in LN. destruct (length (t_msgs s) - w)%nat eqn:LW; [discriminate|]. cbn in W2. injection W2 as -> _. cbn in *. lia.
Qed.
Lemma in_stage : forall s tr c k, t_run s = Some c -> In k (on_stage (Some c)) -> In k (settled tr ++ movs (t_queue s) ++ on_stage (t_run s)).
Proof. intros s tr c k R I. rewrite R, !in_app_iff. auto. Qed.
Lemma alone : forall c k, In k (on_stage (Some c)) -> forall k', k' <> k -> ~ In k' (on_stage (Some c)).
Proof. intros c k I k' NE J. destruct c; destruct I as [<-|[]]; destruct J as [<-|[]]; congruence. Qed.
Lemma pop_rest : forall q x r e, pop q = Some (x, r) -> In e q -> e = x \/ In e r.
Proof. intros q x r e P I. destruct (pop_split _ _ _ P) as (l1 & l2 & -> & -> & _). apply in_app_or in I as [I|[I|I]]; rewrite in_app_iff; auto. Qed.
Definition follows (s' : st) (tr' : list out) (l : list out) (o : op) (m : CommsModel.mst) : Prop := exists extra m' l', mrun g m extra = (m', l') /\ sim s' tr' m' /\
  Forall2 same_end (ends l) (ends_free l') /\ incl (confs_free extra) (confs [o]).
(** The process that runs goes on. *)
Lemma stage_step : forall s tr m s' l c k extra ph l', sound f s tr -> sim s tr m -> t_run s = Some c -> In k (on_stage (Some c)) ->
  (forall p, nth_error (ms_procs m) k = Some p -> nth_error (t_msgs s) k = Some (p_from p, p_to p) -> p_phase p = match c with CSelect _ cur fl => TSelect cur fl | CTest _ cur hop fl tk => TCheck cur hop fl tk end ->
     mrun g m extra = (setp m k p ph, l')) ->
  t_now s' = t_now s -> t_conf s' = t_conf s -> t_net s' = t_net s -> t_msgs s' = t_msgs s -> t_in s' = t_in s -> (exists ex, t_queue s' = t_queue s ++ ex /\ gots ex = []) -> (forall ts, ~ In (AStart ts) l) ->
  shown s' (tr ++ l) k ph -> Forall2 same_end (ends l) (ends_free l') -> confs_free extra = [] -> follows s' (tr ++ l) l UStep m.
Proof.
  intros s tr m s' l c k extra ph l' [T H C] S R K RUN E1 E2 E3 E4 E5 (ex & E6 & E7) NS SH EN CF. destruct (there _ _ _ H S k (or_intror (in_stage _ tr _ _ R K))) as (p & N).
  destruct (si_procs _ _ _ S _ _ N) as (M & SP & _). pose proof (shown_run _ _ _ _ H SP _ R K) as PH. specialize (RUN p N M PH).
  exists extra, (setp m k p ph), l'. split; [exact RUN|]. split; [|split; [exact EN|rewrite CF; intros ? []]].
  apply (sim_proc s tr m); try assumption; [rewrite E1; exact (si_now _ _ _ S)|rewrite E5, E6, gots_app, E7, app_nil_r; reflexivity|intros; rewrite E6; apply in_or_app; left; assumption|rewrite R; apply alone; exact K].
Qed.
(** An event of a message is processed. *)
Lemma queue_step : forall s tr m x r k, sound f s tr -> sim s tr m -> t_run s = None -> pop (t_queue s) = Some (x, r) -> about x k ->
  exists p extra t', nth_error (ms_procs m) k = Some p /\ nth_error (t_msgs s) k = Some (p_from p, p_to p) /\ shown s tr k (p_phase p) /\ CommsModel.idle m = true /\
    mrun g m extra = (mkMS (ms_conf m) t' (ms_running m) (ms_in m) (ms_procs m), []) /\ e_time x == t' /\ confs_free extra = [] /\
    (forall c ph, t_run (with_run (taken_st s x r) (Some c)) = Some c -> shown (with_run (taken_st s x r) (Some c)) (tr ++ []) k ph ->
       sim (with_run (taken_st s x r) (Some c)) (tr ++ []) (setp (mkMS (ms_conf m) t' (ms_running m) (ms_in m) (ms_procs m)) k p ph)).
Proof.
  intros s tr m x r k SO S R P A. pose proof SO as [T H C]. destruct (pop_in _ _ _ P) as [IX IR].
  assert (TH : exists p, nth_error (ms_procs m) k = Some p).
  { apply (there _ _ _ H S k). destruct A as [A|A]; [left; unfold inis; apply in_flat_map; exists x; split; [exact IX|rewrite A; left; reflexivity]|right; rewrite !in_app_iff; right; left; eapply mv_in; eassumption]. }
  destruct TH as (p & N). destruct (si_procs _ _ _ S _ _ N) as (M & SP & _). destruct (timed_taken _ _ _ _ T P) as [_ LE].
  destruct (pass s tr m (e_time x) SO S R LE) as (extra & t' & RUN & TE & CF); [apply Forall_forall; intros e I; exact (pop_later _ _ _ _ P I)|].
  exists p, extra, t'. split; [exact N|]. split; [exact M|]. split; [exact SP|]. split; [eapply free_idle; eassumption|]. split; [exact RUN|]. split; [exact TE|]. split; [exact CF|].
  intros c ph _ SH. unfold setp. cbn [ms_conf ms_now ms_running ms_in ms_procs]. apply (sim_proc s tr m); try assumption; try reflexivity.
  - cbn. f_equal. symmetry. apply (popped gots gots_app _ _ _ P). unfold gots. cbn. destruct A as [A|A]; [rewrite A; reflexivity|]. unfold mv in A. destruct (e_ev x); try contradiction; reflexivity.
  - intros ts [].
  - intros k' e NE I AB. cbn. destruct (pop_rest _ _ _ _ P I) as [->|J]; [exfalso|exact J]. apply NE. clear - A AB. unfold about, mv in *. destruct A as [A|A]; destruct AB as [B|B]; try congruence.
    + rewrite A in B. contradiction.
    + rewrite B in A. contradiction.
    + destruct (e_ev x); try contradiction; destruct A as [<-|[]]; destruct B as [<-|[]]; reflexivity.
  - rewrite R. intros k' _ [].
Qed.
Lemma ogo2 : forall m k p ph1 l1 ph2 l2, nth_error (ms_procs m) k = Some p -> CommsModel.active (p_phase p) = true \/ CommsModel.idle m = true ->
  go g (ms_conf m) (ms_now m) p = Some (ph1, l1) -> CommsModel.active ph1 = true -> go g (ms_conf m) (ms_now m) (mkP (p_from p) (p_to p) (p_start p) ph1) = Some (ph2, l2) ->
  mrun g m [OGo k; OGo k] = (setp m k p ph2, map (fun x => (k, ms_now m, x)) l1 ++ map (fun x => (k, ms_now m, x)) l2).
Proof.
  intros m k p ph1 l1 ph2 l2 N A G1 A1 G2. change [OGo k; OGo k] with ([OGo k] ++ [OGo k]). eapply mrun_app; [eapply ogo; eassumption|].
  rewrite <- (setp_setp m k p ph1 ph2). apply (ogo (setp m k p ph1)); [apply setp_nth; exact N|left; exact A1|exact G2].
Qed.
Lemma sim_frame : forall s tr m s' l m', sim s tr m -> t_now s' == ms_now m' -> t_conf s' = ms_conf m' -> t_net s' = net -> (ms_running m' = true <-> exists ts, In (AStart ts) (tr ++ l)) ->
  Forall2 (fun k ab => nth_error (t_msgs s') k = Some ab) (gots (t_queue s') ++ t_in s') (ms_in m') -> (length (ms_procs m) + length (gots (t_queue s') ++ t_in s') = length (t_msgs s'))%nat ->
  ms_procs m' = ms_procs m -> (exists ex, t_msgs s' = t_msgs s ++ ex) -> (forall e k, In e (t_queue s) -> about e k -> In e (t_queue s')) -> t_run s' = t_run s -> sim s' (tr ++ l) m'.
Proof.
  intros s tr m s' l m' S NW CF NT RU SI SL PR (ex & MS) KE KR. constructor; try assumption; [rewrite PR; exact SL|]. intros k p N. rewrite PR in N. destruct (si_procs _ _ _ S _ _ N) as (A1 & A0 & tp & ts & A2 & A3 & A4).
  split; [rewrite MS; rewrite nth_error_app1; [exact A1|apply nth_error_Some; congruence]|]. split; [eapply shown_keep; [exact A0|intros; eapply KE; eassumption|left; exact KR]|].
  exists tp, ts. rewrite !in_app_iff. auto.
Qed.
Lemma get_same : forall s, gots (t_queue (in_get s)) ++ t_in (in_get s) = gots (t_queue s) ++ t_in s.
Proof. intro s. unfold in_get. destruct (t_in s) as [|k r]; [reflexivity|]. cbn. rewrite gots_app. change (gots [mkE (t_now s) false (EGot k)]) with [k]. rewrite <- app_assoc. reflexivity. Qed.
Lemma get_keeps : forall s e, In e (t_queue s) -> In e (t_queue (in_get s)).
Proof. intros s e I. unfold in_get. destruct (t_in s); [exact I|]. cbn. apply in_or_app. left. exact I. Qed.
Lemma put_same : forall s k, gots (t_queue (in_put s k)) ++ t_in (in_put s k) = gots (t_queue s) ++ t_in s ++ [k].
Proof. intros s k. unfold in_put. destruct (t_loop s); try reflexivity. rewrite get_same. reflexivity. Qed.
Lemma put_keeps : forall s k e, In e (t_queue s) -> In e (t_queue (in_put s k)).
Proof. intros s k e I. unfold in_put. destruct (t_loop s); try exact I. apply get_keeps. exact I. Qed.
Lemma get_rest : forall s, t_now (in_get s) = t_now s /\ t_conf (in_get s) = t_conf s /\ t_net (in_get s) = t_net s /\ t_msgs (in_get s) = t_msgs s /\ t_run (in_get s) = t_run s.
Proof. intro s. unfold in_get. destruct (t_in s); repeat split. Qed.
Lemma put_rest : forall s k, t_now (in_put s k) = t_now s /\ t_conf (in_put s k) = t_conf s /\ t_net (in_put s k) = t_net s /\ t_msgs (in_put s k) = t_msgs s /\ t_run (in_put s k) = t_run s.
Proof. intros s k. unfold in_put. destruct (t_loop s); try (repeat split; fail). destruct (get_rest (with_in s (t_in s ++ [k]) LWait)) as (A & B & C & D & E). repeat split; assumption. Qed.
Lemma run_more : forall (tr l : list out), (forall ts, ~ In (AStart ts) l) -> (exists ts, In (AStart ts) tr) <-> exists ts, In (AStart ts) (tr ++ l).
Proof. intros tr l N. split; intros (ts & I); exists ts; [apply in_or_app; left; exact I|]. apply in_app_or in I as [I|I]; [exact I|elim (N ts I)]. Qed.
Lemma busy_ph : forall c, CommsModel.active (match c with CSelect _ cur fl => TSelect cur fl | CTest _ cur hop fl tk => TCheck cur hop fl tk end) = true.
Proof. intros []; reflexivity. Qed.
Lemma select_trans : forall s tr m k cur x y fl s' l ph l' extra, sound f s tr -> sim s tr m -> t_run s = Some (CSelect k cur fl) -> nth_error (t_msgs s) k = Some (x, y) ->
  (forall p, nth_error (ms_procs m) k = Some p -> p_to p = y -> p_phase p = TSelect cur fl -> mrun g m extra = (setp m k p ph, l')) ->
  t_now s' = t_now s -> t_conf s' = t_conf s -> t_net s' = t_net s -> t_msgs s' = t_msgs s -> t_in s' = t_in s -> t_queue s' = t_queue s -> (forall ts, ~ In (AStart ts) l) ->
  shown s' (tr ++ l) k ph -> Forall2 same_end (ends l) (ends_free l') -> confs_free extra = [] -> follows s' (tr ++ l) l UStep m.
Proof.
  intros s tr m k cur x y fl s' l ph l' extra SO S R M RUN E1 E2 E3 E4 E5 E6 NS SH EN CF. apply (stage_step s tr m s' l _ k extra ph l' SO S R); try assumption; [left; reflexivity| |exists []; rewrite app_nil_r; auto].
  intros p N M' PH. apply RUN; [exact N| |exact PH]. congruence.
Qed.
Lemma tries_same : CommsModel.tries g = tries f.
Proof. reflexivity. Qed.
Lemma sim_trans : forall s tr o s' l m, sound f s tr -> sim s tr m -> (forall net', o = UNet net' -> net' = net) -> trans f s o s' l -> follows s' (tr ++ l) l o m.
Proof.
  intros s tr o s' l m SO S ON TR. pose proof SO as [T H C]. pose proof (si_net _ _ _ S) as SN. pose proof (si_conf _ _ _ S) as SC. pose proof (si_now _ _ _ S) as SW.
  destruct TR as [o|k x y fl R M|k cur x y fl hop R M N Hh|k cur x y fl R M N Hh|k cur hop fl tk R B TK|k cur hop fl tk R B TK|k cur hop fl tk R B LS|k cur hop fl tk R B LS|x r R P Ev|x r k R P Ev|x r k u v R P Ev M|x r k R P Ev M|x r k cur hop fl tk R P Ev|x r k cur hop fl R P Ev|t R Lt F|c R|net'|u v R|R Lo].
  - exists [], m, []. split; [reflexivity|]. split; [rewrite app_nil_r; exact S|]. split; [constructor|intros ? []].
  - eapply (select_trans s tr m k y x y fl _ _ TDone [(k, ms_now m, CommsModel.OReached y); (k, ms_now m, CommsModel.OPut y 0%nat)] [OGo k; OGo k]); try eassumption; try reflexivity; [| | |].
    + intros p N PT PH. rewrite (ogo2 m k p TArrive [CommsModel.OReached y] TDone [CommsModel.OPut y 0%nat] N); [reflexivity|left; rewrite PH; reflexivity| |reflexivity|unfold go; cbn; rewrite PT; reflexivity].
      unfold go. rewrite PH, PT, Nat.eqb_refl. reflexivity.
    + intros ts [X|[]]. discriminate.
    + apply ShEnd; [|left; reflexivity]. rewrite settled_app. apply in_or_app. right. left. reflexivity.
    + cbn. constructor; [|constructor]. split; [reflexivity|]. split; [exact SW|reflexivity].
  - eapply (select_trans s tr m k cur x y fl _ _ (TCheck cur hop fl 0) [] [OGo k]); try eassumption; try reflexivity; [|intros ts []|apply ShTest; reflexivity|constructor].
    intros p N' PT PH. rewrite (ogo m k p (TCheck cur hop fl 0) [] N'); [reflexivity|left; rewrite PH; reflexivity|]. unfold go. rewrite PH, PT. apply Nat.eqb_neq in N. rewrite N. cbn. rewrite <- SN, Hh. reflexivity.
  - eapply (select_trans s tr m k cur x y fl _ _ TDropped [(k, ms_now m, CommsModel.ONoRoute cur)] [OGo k]); try eassumption; try reflexivity.
    + intros p N' PT PH. rewrite (ogo m k p TDropped [CommsModel.ONoRoute cur] N'); [reflexivity|left; rewrite PH; reflexivity|]. unfold go. rewrite PH, PT. apply Nat.eqb_neq in N. rewrite N. cbn. rewrite <- SN, Hh. reflexivity.
    + intros ts [X|[]]. discriminate.
    + apply ShEnd; [|right; reflexivity]. rewrite settled_app. apply in_or_app. right. left. reflexivity.
    + cbn. constructor; [|constructor]. split; [reflexivity|]. split; [exact SW|reflexivity].
  - eapply (stage_step s tr m _ _ _ k [OGo k] (TSelect cur (fl ++ [hop])) _ SO S R); try reflexivity; [left; reflexivity| |exists []; rewrite app_nil_r; auto|intros ts []|apply ShSelect; reflexivity|].
    + intros p N M PH. apply (ogo m k p _ [CommsModel.OCheck cur hop true; CommsModel.OStop cur hop] N); [left; rewrite PH; reflexivity|]. unfold go. rewrite PH. cbn. rewrite <- SC, B, tries_same, TK. reflexivity.
    + constructor.
  - eapply (stage_step s tr m _ _ _ k [OGo k] (TRetry cur hop fl (tk + 1) (ms_now m + f_rate f)) _ SO S R); try reflexivity; [left; reflexivity| |eexists; split; reflexivity|intros ts []| |].
    + intros p N M PH. apply (ogo m k p _ [CommsModel.OCheck cur hop true] N); [left; rewrite PH; reflexivity|]. unfold go. rewrite PH. cbn. rewrite <- SC, B, tries_same, TK. reflexivity.
    + eapply ShRetry; [apply in_or_app; right; left; reflexivity|reflexivity|]. cbn. rewrite SW. reflexivity.
    + constructor.
  - eapply (stage_step s tr m _ _ _ k [OGo k] (TSend cur hop fl (ms_now m + f_send f)) _ SO S R); try reflexivity; [left; reflexivity| |eexists; split; reflexivity|intros ts []| |].
    + intros p N M PH. apply (ogo m k p _ [CommsModel.OCheck cur hop false; CommsModel.OMoved cur hop] N); [left; rewrite PH; reflexivity|]. unfold go. rewrite PH. cbn. rewrite <- SC, B. apply Qltb_lt in LS. rewrite LS. reflexivity.
    + eapply ShSend; [apply in_or_app; right; left; reflexivity|reflexivity|]. cbn. rewrite SW. reflexivity.
    + constructor.
  - eapply (stage_step s tr m _ _ _ k [OGo k; OGo k] (TSelect hop (after_hop f fl)) _ SO S R); try reflexivity; [left; reflexivity| |exists []; rewrite app_nil_r; auto|intros ts []|apply ShSelect; reflexivity|].
    + intros p N M PH. apply (ogo2 m k p (TMoved cur hop fl) [CommsModel.OCheck cur hop false; CommsModel.OMoved cur hop] _ [] N); [left; rewrite PH; reflexivity| |reflexivity|reflexivity].
      unfold go. rewrite PH. cbn. rewrite <- SC, B. apply Qltb_ge in LS. rewrite LS. reflexivity.
    + constructor.
  - (* run() begins *)
    destruct (pop_in _ _ _ P) as [IX IR]. unfold timed in T. rewrite Forall_forall in T. destruct (T x IX) as (_ & TI & _). rewrite Ev in TI. specialize (TI eq_refl).
    pose proof (proj2 (popped gots gots_app _ _ _ P)) as PG. assert (G0 : gots [x] = []) by (unfold gots; cbn; rewrite Ev; reflexivity). specialize (PG G0).
    exists [OStartRun], (mkMS (ms_conf m) (ms_now m) true (ms_in m) (ms_procs m)), []. split; [rewrite mrun_one; unfold mstep; rewrite (free_idle _ _ _ S R); reflexivity|]. split; [|split; [constructor|intros ? []]].
    destruct (get_rest (taken_st s x r)) as (A1 & A2 & A3 & A4 & A5). apply (sim_frame s tr m); try assumption; rewrite ?A1, ?A2, ?A3, ?A4, ?A5, ?get_same; cbn; rewrite <- ?PG.
    + lra.
    + exact SC.
    + exact SN.
    + split; [intros _; exists (e_time x); apply in_or_app; right; left; reflexivity|reflexivity].
    + exact (si_in _ _ _ S).
    + exact (si_len _ _ _ S).
    + reflexivity.
    + exists []. rewrite app_nil_r. reflexivity.
    + intros e k I AB. apply get_keeps. cbn. destruct (pop_rest _ _ _ _ P I) as [->|J]; [exfalso|exact J]. unfold about, mv in AB. rewrite Ev in AB. destruct AB as [AB|[]]. discriminate.
    + symmetry. exact R.
  - (* run() takes a message *)
    destruct (pop_in _ _ _ P) as [IX IR]. pose proof T as T0. unfold timed in T. rewrite Forall_forall in T. destruct (T x IX) as (_ & TI & _ & TU). rewrite Ev in TI, TU. specialize (TI eq_refl).
    pose proof (no_init f s x r T0 P TU) as NI. pose proof (nloop_popped _ _ _ P) as NL. assert (N1 : nloop [x] = 1%nat) by (unfold nloop; cbn; rewrite Ev; reflexivity). destruct (pl_loop _ _ H) as [LB _].
    assert (N0 : nloop r = 0%nat) by (destruct (t_loop s); cbn in LB; lia). pose proof (gots_nloop r) as GL. assert (GR : gots r = []) by (destruct (gots r); [reflexivity|cbn in GL; lia]).
    destruct (popped gots gots_app _ _ _ P) as [PG _]. rewrite GR, app_nil_r in PG. assert (G1 : gots [x] = [k]) by (unfold gots; cbn; rewrite Ev; reflexivity). rewrite G1 in PG. apply Permutation_sym, Permutation_length_1_inv in PG.
    pose proof (next_one s tr m k (t_in s) H S NI) as NX. rewrite PG in NX. specialize (NX eq_refl). pose proof (si_in _ _ _ S) as SI. pose proof (si_len _ _ _ S) as SL. rewrite PG in SI, SL. cbn in SI, SL.
    inversion SI as [|k0 ab t0 l0 MK FR EQ1 EQ2]. subst k0 t0. destruct ab as [a b]. 
    assert (RU : exists ts, In (AStart ts) tr) by (apply (c_begun _ _ C); right; left; exists x; split; [exact IX|congruence]). pose proof (proj2 (si_run _ _ _ S) RU) as RM.
    exists [ORun], (mkMS (ms_conf m) (ms_now m) true l0 (ms_procs m ++ [mkP a b (ms_now m) TNew])), []. split; [rewrite mrun_one; unfold mstep; rewrite (free_idle _ _ _ S R), RM, <- EQ2; reflexivity|]. split; [|split; [constructor|intros ? []]].
    destruct (get_rest (schedule (taken_st s x r) (e_time x) true (EInit k))) as (A1 & A2 & A3 & A4 & A5). rewrite app_nil_r. constructor; rewrite ?A1, ?A2, ?A3, ?A4, ?A5, ?get_same; cbn; rewrite ?gots_app, ?GR; cbn.
    + lra.
    + exact SC.
    + exact SN.
    + split; [intros _; exact RU|reflexivity].
    + exact FR.
    + rewrite app_length. change (gots [mkE (e_time x) true (EInit k)]) with (@nil nat). cbn. lia.
    + intros k' p N. destruct (Nat.eq_dec k' k) as [->|NE].
      * rewrite NX, nth_error_app2, Nat.sub_diag in N by lia. injection N as <-. cbn. split; [exact MK|]. split.
        { eapply ShNew; [apply get_keeps; cbn; apply in_or_app; right; left; reflexivity|reflexivity]. }
        destruct RU as (ts & RU). destruct (pl_put _ _ H _ _ _ MK) as (tp & PU). exists tp, ts. split; [exact PU|]. split; [exact RU|]. rewrite <- SW.
        apply (c_wait _ _ C k a b tp ts); [|exact PU|exact RU]. unfold waiting. rewrite NI, PG. left. reflexivity.
      * assert (LT : (k' < length (ms_procs m))%nat). { assert (L : (k' < length (ms_procs m ++ [mkP a b (ms_now m) TNew]))%nat) by (apply nth_error_Some; congruence). rewrite app_length in L. cbn in L. lia. }
        rewrite nth_error_app1 in N by exact LT. destruct (si_procs _ _ _ S _ _ N) as (B1 & B2 & B3). split; [exact B1|]. split; [|exact B3].
        rewrite <- (app_nil_r tr). eapply shown_keep; [exact B2| |right; rewrite R; intros []]. intros e I AB. apply get_keeps. cbn. apply in_or_app. left.
        destruct (pop_rest _ _ _ _ P I) as [->|J]; [exfalso|exact J]. unfold about, mv in AB. rewrite Ev in AB. destruct AB as [AB|[]]. discriminate.
  - destruct (queue_step s tr m x r k SO S R P (or_introl Ev)) as (p & extra & t' & N & M' & SH & ID & RUN & TE & CF & SI).
    exists (extra ++ [OGo k]), (setp (mkMS (ms_conf m) t' (ms_running m) (ms_in m) (ms_procs m)) k p (TSelect u [])), []. split.
    + change (@nil (nat * Q * CommsModel.out)) with (@nil (nat * Q * CommsModel.out) ++ []) at 1. eapply mrun_app; [exact RUN|]. 
      assert (PH : p_phase p = TNew) by (apply (shown_new s tr k (p_phase p) H SH x); [exact (proj1 (pop_in _ _ _ P))|exact Ev]).
      apply (ogo (mkMS (ms_conf m) t' (ms_running m) (ms_in m) (ms_procs m)) k p _ [] N); [right; exact ID|]. unfold go. rewrite PH. cbn. replace (p_from p) with u by congruence. reflexivity.
    + split; [apply SI; [reflexivity|apply ShSelect; reflexivity]|]. split; [constructor|]. rewrite confs_free_app, CF. intros ? [].
  - destruct (queue_step s tr m x r k SO S R P (or_introl Ev)) as (p & extra & t' & N & M' & _). congruence.
  - assert (AB : about x k) by (right; unfold mv; rewrite Ev; left; reflexivity). destruct (queue_step s tr m x r k SO S R P AB) as (p & extra & t' & N & M' & SH & ID & RUN & TE & CF & SI).
    exists (extra ++ [OGo k]), (setp (mkMS (ms_conf m) t' (ms_running m) (ms_in m) (ms_procs m)) k p (TCheck cur hop fl tk)), []. split.
    + change (@nil (nat * Q * CommsModel.out)) with (@nil (nat * Q * CommsModel.out) ++ []) at 1. eapply mrun_app; [exact RUN|]. 
      pose proof (shown_queue s tr k (p_phase p) H SH x (proj1 (pop_in _ _ _ P))) as PQ. rewrite Ev in PQ. destruct PQ as (due & PH & DU); [unfold mv; rewrite Ev; left; reflexivity|].
      apply (ogo (mkMS (ms_conf m) t' (ms_running m) (ms_in m) (ms_procs m)) k p _ [] N); [right; exact ID|]. unfold go. rewrite PH. cbn. assert (QE : Qeqb t' due = true) by (apply Qeqb_eq; lra). rewrite QE. reflexivity.
    + split; [apply SI; [reflexivity|apply ShTest; reflexivity]|]. split; [constructor|]. rewrite confs_free_app, CF. intros ? [].
  - assert (AB : about x k) by (right; unfold mv; rewrite Ev; left; reflexivity). destruct (queue_step s tr m x r k SO S R P AB) as (p & extra & t' & N & M' & SH & ID & RUN & TE & CF & SI).
    exists (extra ++ [OGo k; OGo k]), (setp (mkMS (ms_conf m) t' (ms_running m) (ms_in m) (ms_procs m)) k p (TSelect hop (after_hop f fl))), []. split.
    + change (@nil (nat * Q * CommsModel.out)) with (@nil (nat * Q * CommsModel.out) ++ []) at 1. eapply mrun_app; [exact RUN|]. 
      pose proof (shown_queue s tr k (p_phase p) H SH x (proj1 (pop_in _ _ _ P))) as PQ. rewrite Ev in PQ. destruct PQ as (due & PH & DU); [unfold mv; rewrite Ev; left; reflexivity|].
      apply (ogo2 (mkMS (ms_conf m) t' (ms_running m) (ms_in m) (ms_procs m)) k p (TMoved cur hop fl) [] _ [] N); [right; exact ID| |reflexivity|reflexivity]. unfold go. rewrite PH. cbn. assert (QE : Qeqb t' due = true) by (apply Qeqb_eq; lra). rewrite QE. reflexivity.
    + split; [apply SI; [reflexivity|apply ShSelect; reflexivity]|]. split; [constructor|]. rewrite confs_free_app, CF. intros ? [].
  - destruct (pass s tr m t SO S R Lt F) as (extra & t' & RUN & TE & CF). exists extra, (mkMS (ms_conf m) t' (ms_running m) (ms_in m) (ms_procs m)), []. split; [exact RUN|]. split; [|split; [constructor|rewrite CF; intros ? []]].
    apply (sim_frame s tr m); try assumption; try reflexivity; [|exact (si_in _ _ _ S)|exact (si_len _ _ _ S)|exists []; rewrite app_nil_r; reflexivity|intros; assumption]. rewrite app_nil_r. exact (si_run _ _ _ S).
  - exists [OConf c], (mkMS c (ms_now m) (ms_running m) (ms_in m) (ms_procs m)), []. split; [rewrite mrun_one; unfold mstep; rewrite (free_idle _ _ _ S R); reflexivity|]. split; [|split; [constructor|cbn; intros z Z; exact Z]].
    apply (sim_frame s tr m); try assumption; try reflexivity; [|exact (si_in _ _ _ S)|exact (si_len _ _ _ S)|exists []; rewrite app_nil_r; reflexivity|intros; assumption]. rewrite app_nil_r. exact (si_run _ _ _ S).
  - exists [], m, []. split; [reflexivity|]. split; [|split; [constructor|intros ? []]]. apply (sim_frame s tr m); try assumption; try reflexivity; [exact (ON net' eq_refl)| |exact (si_in _ _ _ S)|exact (si_len _ _ _ S)|exists []; rewrite app_nil_r; reflexivity|intros; assumption]. rewrite app_nil_r. exact (si_run _ _ _ S).
  - exists [OSend u v], (mkMS (ms_conf m) (ms_now m) (ms_running m) (ms_in m ++ [(u, v)]) (ms_procs m)), []. split; [rewrite mrun_one; unfold mstep; rewrite (free_idle _ _ _ S R); reflexivity|]. split; [|split; [constructor|intros ? []]].
    set (s1 := mkT (t_now s) (t_conf s) (t_net s) (t_msgs s ++ [(u, v)]) (t_in s) (t_loop s) (t_queue s) None (t_box s)). destruct (put_rest s1 (length (t_msgs s))) as (A1 & A2 & A3 & A4 & A5).
    apply (sim_frame s tr m); try assumption; rewrite ?A1, ?A2, ?A3, ?A4, ?A5, ?put_same; cbn.
    + exact SW.
    + exact SC.
    + exact SN.
    + rewrite (si_run _ _ _ S). apply run_more. intros ts [X|[]]. discriminate.
    + rewrite app_assoc. apply Forall2_app.
      * eapply Forall2_impl; [|exact (si_in _ _ _ S)]. intros a b X. cbn beta in *. rewrite nth_error_app1; [exact X|]. apply nth_error_Some. congruence.
      * constructor; [|constructor]. rewrite nth_error_app2, Nat.sub_diag by lia. reflexivity.
    + pose proof (si_len _ _ _ S) as SL. rewrite !app_length in *. cbn. lia.
    + reflexivity.
    + exists [(u, v)]. reflexivity.
    + intros e k I AB. apply put_keeps. exact I.
    + symmetry. exact R.
  - exists [], m, []. split; [reflexivity|]. split; [|split; [constructor|intros ? []]]. apply (sim_frame s tr m); try assumption; try reflexivity; cbn.
    + rewrite app_nil_r. exact (si_run _ _ _ S).
    + rewrite gots_app, app_nil_r. exact (si_in _ _ _ S).
    + rewrite gots_app, app_nil_r. exact (si_len _ _ _ S).
    + exists []. rewrite app_nil_r. reflexivity.
    + intros e k I AB. apply in_or_app. left. exact I.
Qed.
(** The whole run *)
Lemma sim_run : forall c t0 os, (forall net', In (UNet net') os -> net' = net) -> exists mos m mtr, mrun g (minit c t0) mos = (m, mtr) /\
  sim (fst (run f (init c net t0) os)) (snd (run f (init c net t0) os)) m /\ Forall2 same_end (ends (snd (run f (init c net t0) os))) (ends_free mtr) /\ incl (confs_free mos) (confs os).
Proof.
  intros c t0 os ON. set (P := fun (s : st) (tr : list out) => sound f s tr /\ exists mos m mtr, mrun g (minit c t0) mos = (m, mtr) /\ sim s tr m /\ Forall2 same_end (ends tr) (ends_free mtr) /\ incl (confs_free mos) (confs os)).
  enough (X : P (fst (run f (init c net t0) os)) ([] ++ snd (run f (init c net t0) os))) by exact (proj2 X). apply run_inv.
  - split; [constructor; [constructor|apply placed_init|apply clocked_init]|]. exists [], (minit c t0), []. split; [reflexivity|]. split; [|split; [constructor|intros ? []]].
    constructor; cbn; try reflexivity; [split; [discriminate|intros (ts & [])]|constructor|]. intros k p N. destruct k; discriminate.
  - intros s tr o s' l I (SO & mos & m & mtr & E & S & EN & CF) TR. split.
    + destruct SO as [W1 W2 W3]. constructor; [apply (timed_trans f s o s' l G W1 TR)|eapply placed_trans; eassumption|eapply clocked_trans; eassumption].
    + destruct (sim_trans s tr o s' l m SO S) as (extra & m' & l' & E' & S' & EN' & CF'); [intros net' ->; apply ON; exact I|exact TR|].
      exists (mos ++ extra), m', (mtr ++ l'). split; [eapply mrun_app; eassumption|]. split; [exact S'|]. split; [rewrite ends_app, ends_free_app; apply Forall2_app; assumption|].
      rewrite confs_free_app. apply incl_app; [exact CF|]. intros z Z. specialize (CF' z Z). unfold confs in *. apply in_flat_map in CF' as (o' & [<-|[]] & Z'). apply in_flat_map. exists o. auto.
Qed.
End Ref.
