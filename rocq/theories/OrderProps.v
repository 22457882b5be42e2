(** What simpy's order of events leaves of the model without an order. *)
From Coq Require Import Permutation.
From Verif Require Import Common RouteModel RouteSpec RouteProofs RouteProps HopModel HopSpec HopProofs HopProps OrderSpec OrderProofs.
From Verif Require CommsModel CommsSpec CommsProofs CommsProps.

(** A run with simpy's queue is a run of the model without an order: of the same messages,
    begun at the same times, with the same ends, in the same order and at the same times. *)
Theorem C39_queue : forall f net c t0 os, good f -> (forall net', In (UNet net') os -> net' = net) -> let (s, tr) := run f (init c net t0) os in
  exists mos m mtr, CommsModel.mrun (manager f net) (CommsModel.minit c t0) mos = (m, mtr) /\
    CommsModel.ms_now m == t_now s /\ CommsModel.ms_conf m = t_conf s /\ incl (confs_free mos) (confs os) /\ Forall2 same_end (ends tr) (ends_free mtr) /\
    (forall k p, nth_error (CommsModel.ms_procs m) k = Some p -> exists tp ts, In (APut k (CommsModel.p_from p) (CommsModel.p_to p) tp) tr /\ In (AStart ts) tr /\ CommsModel.p_start p == later tp ts) /\
    (forall k a b tp ts, In (APut k a b tp) tr -> In (AStart ts) tr -> (exists p, nth_error (CommsModel.ms_procs m) k = Some p) \/ later tp ts == t_now s).
Proof.
  intros f net c t0 os G ON. destruct (sim_run f net G c t0 os ON) as (mos & m & mtr & E & S & EN & CF). pose proof (sound_run f c net t0 os G) as SO. destruct (run f (init c net t0) os) as [s tr]. cbn [fst snd] in *. destruct SO as [T H C].
  exists mos, m, mtr. split; [exact E|]. split; [symmetry; exact (si_now _ _ _ _ S)|]. split; [symmetry; exact (si_conf _ _ _ _ S)|]. split; [exact CF|]. split; [exact EN|]. split.
  - intros k p N. destruct (si_procs _ _ _ _ S _ _ N) as (_ & _ & tp & ts & A & B & D). exists tp, ts. split; [exact A|]. split; [exact B|symmetry; exact D].
  - intros k a b tp ts A B. destruct (pl_msg _ _ H _ _ _ _ A) as [M _]. assert (L : (k < length (t_msgs s))%nat) by (apply nth_error_Some; congruence). destruct (pl_split _ _ H) as (w & W1 & W2 & W3).
    destruct (Nat.lt_ge_cases k w) as [KW|KW].
    + left. apply (there net _ _ _ H S). right. change (movs (t_queue s) ++ on_stage (t_run s)) with (moving s). apply (Permutation_in _ W3). apply in_seq. lia.
    + right. apply (c_wait _ _ C k a b tp ts); [|exact A|exact B]. rewrite W2. apply in_seq. lia.
Qed.
Lemma ends_in : forall tr k t b, In (k, t, Some b) (ends tr) -> exists a, In (ADeliver k a b t) tr.
Proof.
  intros tr k t b I. unfold ends in I. apply in_flat_map in I as (o & I & J). destruct o; try contradiction; destruct J as [J|[]]; try discriminate. injection J as <- <- <-. eauto.
Qed.
Lemma puts_end : forall i mtr t b st, In (t, b, st) (CommsSpec.puts (CommsSpec.history i mtr)) -> In (i, t, Some b) (ends_free mtr).
Proof.
  intros i mtr t b st I. unfold CommsSpec.puts in I. apply in_flat_map in I as ([t1 o1] & I & J). unfold CommsSpec.history in I. apply in_flat_map in I as ([[k t2] o2] & I & K). cbn [fst snd] in *.
  destruct (Nat.eqb k i) eqn:E; [|contradiction]. apply Nat.eqb_eq in E. subst k. destruct K as [K|[]]. injection K as -> ->. destruct o1; try contradiction. destruct J as [J|[]]. injection J as <- <- <-.
  unfold ends_free. apply in_flat_map. eexists. split; [exact I|]. left. reflexivity.
Qed.
Lemma Forall2_in : forall A B (P : A -> B -> Prop) l1 l2 y, Forall2 P l1 l2 -> In y l2 -> exists x, In x l1 /\ P x y.
Proof. intros A B P l1 l2 y F. induction F as [|x z l1 l2 H F IH]; intros I; [contradiction|]. destruct I as [->|I]; [exists x; cbn; auto|]. destruct (IH I) as (x' & I' & H'). exists x'. cbn. auto. Qed.
(** Among all the other messages, too, a message gets around the nodes that are down in a
    time that the network and the settings bound. *)
Theorem C40_queue : forall f net bd, wf_net net -> good f -> 0 <= f_max f -> f_global f = true -> (forall x y, connected net x y -> connected net y x) ->
  exists bound, forall c t0 os, CommsProofs.only_nodes bd c -> (forall c', In (UConf c') os -> CommsProofs.only_nodes bd c') -> (forall net', In (UNet net') os -> net' = net) ->
    let (s, tr) := run f (init c net t0) os in
    forall k a b tp ts, In (APut k a b tp) tr -> In (AStart ts) tr -> ~ In a bd -> ~ In b bd -> (exists q, walk (usable net bd) a q b) -> later tp ts + bound < t_now s ->
    exists t, In (ADeliver k a b t) tr /\ forall t', ~ In (ADrop k t') tr.
Proof.
  intros f net bd WF G M0 GG SY. destruct (CommsProps.C40_around_nodes_partial (manager f net) net bd eq_refl WF (proj2 G) M0 GG SY) as (n & B).
  exists (inject_Z (Z.of_nat n) * CommsProofs.longest_wait (manager f net)). intros c t0 os O0 OA ON. pose proof (C39_queue f net c t0 os G ON) as Q. pose proof (sound_run f c net t0 os G) as SO. pose proof (C135_one_end f c net t0 os G) as ONE.
  destruct (run f (init c net t0) os) as [s tr]. cbn [fst snd] in *. destruct SO as [T H C]. destruct Q as (mos & m & mtr & E & EN & _ & CF & SE & PR & TH). intros k a b tp ts A ST Na Nb W L.
  assert (P0 : 0 <= inject_Z (Z.of_nat n) * CommsProofs.longest_wait (manager f net)).
  { apply Qmult_le_0_compat; [change 0 with (inject_Z 0); rewrite <- Zle_Qle; lia|]. destruct (CommsProofs.wait_pos (manager f net) (proj2 G)) as [X _]. apply Qlt_le_weak. exact X. }
  destruct (TH k a b tp ts A ST) as [(p & N)|Z]; [|lra]. destruct (PR k p N) as (tp' & ts' & A' & ST' & SP).
  destruct (pl_msg _ _ H _ _ _ _ A) as [M _]. destruct (pl_msg _ _ H _ _ _ _ A') as [M' _]. assert (X : a = CommsModel.p_from p /\ b = CommsModel.p_to p) by (rewrite M in M'; injection M' as -> ->; auto). destruct X as [-> ->].
  assert (OA' : CommsSpec.all_confs (CommsProofs.only_nodes bd) mos).
  { intros c' I. apply OA. assert (J : In c' (confs os)) by (apply CF; unfold confs_free; apply in_flat_map; exists (CommsModel.OConf c'); split; [exact I|left; reflexivity]). unfold confs in J. apply in_flat_map in J as (o & I' & J). destruct o; try contradiction. destruct J as [->|[]]. exact I'. }
  destruct (B c t0 mos m mtr k p O0 OA' E N Na Nb W) as (t & st & PU); [discriminate| |].
  - rewrite EN, SP. pose proof (pl_mono _ _ H _ _ _ _ _ _ _ _ A A' (Nat.le_refl k)) as L1. pose proof (pl_mono _ _ H _ _ _ _ _ _ _ _ A' A (Nat.le_refl k)) as L2. pose proof (c_same _ _ C _ _ ST ST') as L3.
    assert (LL : later tp ts == later tp' ts') by (unfold later; destruct (Qltb tp ts) eqn:Q1, (Qltb tp' ts') eqn:Q2; qbool; lra). lra.
  - assert (I : In (t, CommsModel.p_to p, st) (CommsSpec.puts (CommsSpec.history k mtr))) by (rewrite PU; left; reflexivity). apply puts_end in I. destruct (Forall2_in _ _ _ _ _ _ SE I) as ([[k' t'] b'] & I' & E1 & E2 & E3). cbn [fst snd] in *. subst k' b'.
    apply ends_in in I' as (a' & I'). destruct (pl_del _ _ H _ _ _ _ I') as [M2 _]. assert (a' = CommsModel.p_from p) by congruence. subst a'. exists t'. split; [exact I'|].
    intros t2 D. destruct ONE as (_ & ND & _). clear - ND I' D. apply in_split in I' as (l1 & l2 & ->). unfold settled in ND. rewrite flat_map_app in ND. cbn in ND. apply NoDup_remove_2 in ND. apply ND. rewrite <- flat_map_app.
    apply in_flat_map. exists (ADrop k t2). split; [|left; reflexivity]. apply in_app_or in D as [D|[D|D]]; [apply in_or_app; auto|discriminate|apply in_or_app; auto].
Qed.

(** ** Example: 1 is down, and messages from 0 to 2 go around it by 3 and 4; the second is put
    when the first is on its way *)
Definition ring : network := [(0%nat, [1%nat; 3%nat]); (1%nat, [0%nat; 2%nat]); (3%nat, [0%nat; 4%nat]); (4%nat, [3%nat; 2%nat]); (2%nat, [1%nat; 4%nat])].
Definition fr : cfg := mkF 1 1 (1 # 2) true.
Definition down1 : CommsModel.conf := CommsModel.mkC false [1%nat] [].
Definition os_ring : list op := [UPut 0 2; URun] ++ steps 5 ++ [UTime (1 # 4); UPut 0 2] ++ steps 60.
Example C40_queue_ex : wf_net ring /\ good fr /\ (forall x y, connected ring x y -> connected ring y x) /\ CommsProofs.only_nodes [1%nat] down1 /\ (exists q, walk (usable ring [1%nat]) 0 q 2) /\
  let (s, tr) := run fr (init down1 ring 0) os_ring in arrivals 0 2 tr = [0; 1]%nat /\ map (fun e => Qred (snd (fst e))) (ends tr) = [5 # 2; 11 # 4].
Proof.
  split; [repeat constructor; cbn; intuition discriminate|]. split; [split; cbn; lra|]. split.
  { intros x y X. unfold connected in *. destruct x as [|[|[|[|[|x]]]]]; cbn in X; try contradiction; repeat (destruct X as [<-|X]; [cbn; auto|]); contradiction. }
  split; [split; [reflexivity|]; split; [reflexivity|]; cbn; tauto|]. split.
  { exists [3; 4; 2]%nat. repeat (eapply walk_cons; [split; [|split]; cbn; [auto|intuition discriminate|intuition discriminate]|]). constructor. }
  destruct (run fr (init down1 ring 0) os_ring) as [s tr] eqn:R. vm_compute in R. injection R as <- <-. split; [reflexivity|]. vm_compute; reflexivity.
Qed.

Print Assumptions C39_queue.
Print Assumptions C40_queue.
