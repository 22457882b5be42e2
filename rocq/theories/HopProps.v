(** Many routed messages at once: C135 (what always holds, and order and time when shortest
    ways are clear), C136 (order otherwise). *)
From Coq Require Import Permutation.
From Verif Require Import Common RouteModel RouteSpec RouteProofs RouteProps HopModel HopSpec HopProofs.
From Verif Require CommsModel.

(** Every message ends at most once, by arriving or being given up, and when nothing is left
    to happen every message has ended. *)
Theorem C135_one_end : forall f c net t0 os, good f -> let (s, tr) := run f (init c net t0) os in
  all_puts tr = seq 0 (length (all_puts tr)) /\ NoDup (settled tr) /\ incl (settled tr) (all_puts tr) /\ (idle s -> Permutation (settled tr) (all_puts tr)).
Proof.
  intros f c net t0 os G. destruct (sound_run f c net t0 os G) as [T H C]. destruct (run f (init c net t0) os) as [s tr]. cbn [fst snd] in *.
  rewrite (pl_all _ _ H). rewrite seq_length. split; [reflexivity|]. destruct (pl_split _ _ H) as (w & W1 & W2 & W3).
  assert (ND : NoDup (settled tr ++ moving s)) by (eapply Permutation_NoDup; [exact W3|apply seq_NoDup]).
  split; [clear - ND; revert ND; generalize (moving s); induction (settled tr) as [|x l IH]; intros m ND; constructor; inversion ND; subst; [intro I; apply H1; apply in_or_app; left; exact I|eapply IH; eassumption]|]. split.
  - intros k I. assert (I' : In k (seq 0 w)) by (apply (Permutation_in _ (Permutation_sym W3)); apply in_or_app; left; exact I). apply in_seq in I'. apply in_seq. lia.
  - intros (I1 & I2 & I3). unfold moving in W3. rewrite I1, I2 in W3. change (movs [] ++ on_stage None) with (@nil nat) in W3. rewrite app_nil_r in W3.
    destruct (pl_loop _ _ H) as [L1 L2]. rewrite I1 in L1. unfold waiting in W2. rewrite I1 in W2. change (inis [] ++ gots [] ++ t_in s) with (t_in s) in W2.
    destruct (t_loop s) eqn:LO; [congruence| |cbn in L1; discriminate]. rewrite (L2 eq_refl) in W2. assert (w = length (t_msgs s)).
    { apply (f_equal (@length nat)) in W2. rewrite seq_length in W2. cbn [length] in W2. lia. }
    subst w. symmetry. exact W3.
Qed.
(** A store holds what came to its actor, in that order, and what came was put, for that
    actor, no later. *)
Theorem C135_stores : forall f c net t0 os, good f -> let (s, tr) := run f (init c net t0) os in
  (forall b, t_box s b = came b tr) /\ forall k a b t, In (ADeliver k a b t) tr -> t <= t_now s /\ exists tp, In (APut k a b tp) tr /\ tp <= t.
Proof.
  intros f c net t0 os G. destruct (sound_run f c net t0 os G) as [T H C].
  assert (X : forall k a b t, In (ADeliver k a b t) (snd (run f (init c net t0) os)) -> exists tp, In (APut k a b tp) (snd (run f (init c net t0) os)) /\ tp <= t).
  { clear - G. change (snd (run f (init c net t0) os)) with ([] ++ snd (run f (init c net t0) os)).
    enough (Y : sound f (fst (run f (init c net t0) os)) ([] ++ snd (run f (init c net t0) os)) /\
      forall k a b t, In (ADeliver k a b t) ([] ++ snd (run f (init c net t0) os)) -> exists tp, In (APut k a b tp) ([] ++ snd (run f (init c net t0) os)) /\ tp <= t) by apply Y.
    apply (run_inv f (fun s tr => sound f s tr /\ forall k a b t, In (ADeliver k a b t) tr -> exists tp, In (APut k a b tp) tr /\ tp <= t)).
    - split; [constructor; [constructor|apply placed_init|apply clocked_init]|intros ? ? ? ? []].
    - intros s tr o s' l I [[W1 W2 W3] W4] TR. split.
      + constructor; [apply (timed_trans f s o s' l G W1 TR)|eapply placed_trans; eassumption|eapply clocked_trans; eassumption].
      + intros k a b t J. apply in_app_or in J as [J|J].
        * destruct (W4 _ _ _ _ J) as (tp & P1 & P2). exists tp. rewrite in_app_iff. auto.
        * destruct TR; try contradiction; destruct J as [J|[]]; try discriminate. injection J as <- <- <- <-.
          destruct (pl_put _ _ W2 _ _ _ H0) as (tp & P). exists tp. rewrite in_app_iff. split; [auto|]. exact (proj2 (pl_msg _ _ W2 _ _ _ _ P)). }
  destruct (run f (init c net t0) os) as [s tr]. cbn [fst snd] in *. split; [exact (pl_box _ _ H)|]. intros k a b t I. split; [exact (proj2 (pl_del _ _ H _ _ _ _ I))|apply X; exact I].
Qed.
(** Whatever is blocked, and however the table changes: a message that arrives came a way of
    connections that were in the table at some time, and it took a transfer for each of them. *)
Theorem C135_way : forall f c net t0 os (E : nat -> nat -> Prop), good f -> wf_net net -> (forall x y, connected net x y -> E x y) ->
  (forall net', In (UNet net') os -> wf_net net' /\ forall x y, connected net' x y -> E x y) -> let (s, tr) := run f (init c net t0) os in
  forall k a b t, In (ADeliver k a b t) tr -> exists p tp ts, walk E a p b /\ In (APut k a b tp) tr /\ In (AStart ts) tr /\
    later tp ts + inject_Z (Z.of_nat (length p)) * f_send f <= t.
Proof.
  intros f c net t0 os E G W N ON. pose proof (trod_run f G E c net t0 os (conj W N) ON) as X. destruct (run f (init c net t0) os) as [s tr]. cbn in X. exact (tr_del _ _ _ _ X).
Qed.
(** Where no way leads, nothing arrives. *)
Theorem C135_no_way : forall f c net t0 os a b, good f -> fixed net os -> (forall p, ~ walk (connected net) a p b) ->
  arrivals a b (snd (run f (init c net t0) os)) = [].
Proof.
  intros f c net t0 os a b G [W FX] NW. pose proof (C135_way f c net t0 os (connected net) G W (fun x y H => H)) as X. destruct (run f (init c net t0) os) as [s tr]. cbn [snd].
  destruct (arrivals a b tr) as [|k l] eqn:A; [reflexivity|exfalso]. assert (I : In k (arrivals a b tr)) by (rewrite A; left; reflexivity). apply arrivals_in in I as (t & I).
  destruct (X (fun net' I' => let (A1, A2) := FX net' I' in conj A1 (fun x y => proj1 (A2 x y))) k a b t I) as (p & _ & _ & P & _). exact (NW p P).
Qed.
(** While no shortest way from [a] to [b] is blocked, messages from [a] to [b] arrive in the
    order in which they were put, whatever else is on its way and whatever else is blocked. *)
Theorem C135_in_order : forall f c net t0 os a b D, good f -> fixed net os -> far net a b D -> always_clear net a b c os -> let (s, tr) := run f (init c net t0) os in
  prefix (arrivals a b tr) (puts a b tr) /\ (idle s -> arrivals a b tr = puts a b tr).
Proof.
  intros f c net t0 os a b D G [W FX] F [C1 C2]. pose proof (C135_one_end f c net t0 os G) as X.
  destruct (whole_run f net a b D F G c net t0 os) as [T H C L TI [O1 O2]]; try assumption; [split; [exact W|tauto]|].
  destruct (run f (init c net t0) os) as [s tr]. cbn [fst snd] in *. split; [exact O2|]. intro ID. destruct X as (_ & _ & _ & X). specialize (X ID). destruct O2 as [r O2]. rewrite O2.
  destruct r as [|k r]; [symmetry; apply app_nil_r|exfalso]. assert (I : In k (puts a b tr)) by (rewrite O2; apply in_or_app; right; left; reflexivity).
  assert (NI : ~ In k (arrivals a b tr)).
  { assert (ND : NoDup (puts a b tr)) by (clear - O1; induction O1 as [|x l S IH FA]; constructor; [intro I; rewrite Forall_forall in FA; specialize (FA x I); lia|exact IH]).
    rewrite O2 in ND. apply NoDup_remove_2 in ND. intro J. apply ND. apply in_or_app. left. exact J. }
  apply puts_in in I as (t & I). destruct (pl_msg _ _ H _ _ _ _ I) as [M _]. assert (S : In k (settled tr)).
  { apply (Permutation_in _ (Permutation_sym X)). rewrite (pl_all _ _ H). apply in_seq. split; [lia|]. cbn. apply nth_error_Some. congruence. }
  unfold settled in S. apply in_flat_map in S as (o & S & Y). destruct o as [| |k1 t1|k1 x y t1]; try contradiction; destruct Y as [->|[]].
  - exact (d_drop _ _ _ _ _ _ _ L _ _ S M).
  - destruct (pl_del _ _ H _ _ _ _ S) as [M1 _]. rewrite M in M1. injection M1 as <- <-. apply NI. apply arrivals_in. exists t1. exact S.
Qed.
(** Each arrives exactly as many transfer times after it was put, or after run() began, as its
    destination is connections away. *)
Theorem C135_latency : forall f c net t0 os a b D, good f -> fixed net os -> far net a b D -> always_clear net a b c os -> let (s, tr) := run f (init c net t0) os in
  (forall k t, In (ADeliver k a b t) tr -> exists tp ts, In (APut k a b tp) tr /\ In (AStart ts) tr /\ t == later tp ts + inject_Z (Z.of_nat D) * f_send f) /\
  (forall k tp ts, In (APut k a b tp) tr -> In (AStart ts) tr -> later tp ts + inject_Z (Z.of_nat D) * f_send f < t_now s -> In k (arrivals a b tr)) /\
  (forall k t, In (ADrop k t) tr -> ~ In k (puts a b tr)).
Proof.
  intros f c net t0 os a b D G [W FX] F [C1 C2].
  destruct (whole_run f net a b D F G c net t0 os) as [T H C L TI O]; try assumption; [split; [exact W|tauto]|].
  destruct (run f (init c net t0) os) as [s tr]. cbn [fst snd] in *. split; [|split].
  - intros k t I. destruct (d_del _ _ _ _ _ _ _ L _ _ I) as (tp & ts & P1 & P2 & P3). exists tp, ts. split; [exact P1|]. split; [exact P2|]. symmetry. exact P3.
  - intros k tp ts P S LT. destruct G as [G1 _]. assert (M := proj1 (pl_msg _ _ H _ _ _ _ P)).
    assert (U : forall x, eta f a b D tr k x -> later tp ts + qn D * f_send f == x).
    { intros x (tp' & ts' & P1 & P2 & P3). rewrite <- P3. pose proof (pl_mono _ _ H _ _ _ _ _ _ _ _ P P1 (Nat.le_refl _)). pose proof (pl_mono _ _ H _ _ _ _ _ _ _ _ P1 P (Nat.le_refl _)).
      pose proof (c_same _ _ C _ _ P2 S). assert (E1 : later tp ts <= later tp' ts') by (apply later_mono; [assumption|symmetry; assumption]). assert (E2 : later tp' ts' <= later tp ts) by (apply later_mono; assumption). lra. }
    assert (Z : forall n, 0 <= qn n * f_send f) by (intro n; apply Qmult_le_0_compat; [apply qn_pos|exact G1]).
    change (inject_Z (Z.of_nat D)) with (qn D) in LT. assert (KM : (k < length (t_msgs s))%nat) by (apply nth_error_Some; congruence).
    destruct (pl_split _ _ H) as (w & W1 & W2 & W3). destruct (Nat.lt_ge_cases k w) as [KW|KW].
    + assert (KI : In k (settled tr ++ moving s)) by (apply (Permutation_in _ W3); apply in_seq; lia). apply in_app_or in KI as [I|I].
      * unfold settled in I. apply in_flat_map in I as (o & I & Y). destruct o as [| |k1 t1|k1 x y t1]; try contradiction; destruct Y as [->|[]].
        -- elim (d_drop _ _ _ _ _ _ _ L _ _ I M).
        -- destruct (pl_del _ _ H _ _ _ _ I) as [M1 _]. rewrite M in M1. injection M1 as <- <-. apply arrivals_in. exists t1. exact I.
      * exfalso. unfold moving in I. apply in_app_or in I as [I|I].
        -- unfold movs in I. apply in_flat_map in I as (e & I & X). unfold timed in T. rewrite Forall_forall in T. destruct (T e I) as (NE & _). destruct (e_ev e) as [| | |k1 c1 h g t|k1 c1 h g] eqn:E1; try contradiction; destruct X as [->|[]].
           ++ exact (d_retry _ _ _ _ _ _ _ L _ _ _ _ _ _ I E1 M).
           ++ destruct (d_send _ _ _ _ _ _ _ L _ _ _ _ _ I E1 M) as (_ & r' & p' & _ & _ & _ & _ & X). apply U in X. specialize (Z r'). lra.
        -- destruct (t_run s) as [[k1 cur fl|k1 cur hop fl tk]|] eqn:R; try contradiction; destruct I as [->|[]].
           ++ destruct (d_select _ _ _ _ _ _ _ L _ _ _ R M) as (_ & r' & p' & _ & _ & _ & X). apply U in X. specialize (Z r'). lra.
           ++ destruct (d_test _ _ _ _ _ _ _ L _ _ _ _ _ R M) as (_ & r' & p' & _ & _ & _ & _ & X). apply U in X. specialize (Z (1 + r')%nat). change (1 + r')%nat with (Datatypes.S r') in Z. lra.
    + exfalso. assert (WI : In k (waiting s)) by (rewrite W2; apply in_seq; lia). pose proof (c_wait _ _ C _ _ _ _ _ WI P S) as X. specialize (Z D). lra.
  - intros k t I J. apply puts_in in J as (tp & J). exact (d_drop _ _ _ _ _ _ _ L _ _ I (proj1 (pl_msg _ _ H _ _ _ _ J))).
Qed.

(** ** Examples *)
Definition open : CommsModel.conf := CommsModel.mkC false [] [].
(* 0 - 1 - 2, a longer way 0 - 3 - 4 - 2, and 5, which nothing leads to *)
Definition net1 : network := [(0%nat, [1%nat; 3%nat]); (1%nat, [0%nat; 2%nat]); (3%nat, [4%nat]); (4%nat, [2%nat]); (2%nat, [1%nat])].
Definition f1 : cfg := mkF 2 1 (1 # 2) false.
Definition steps (n : nat) : list op := repeat UStep n.
Lemma far02 : far net1 0 2 2.
Proof.
  split; [exists [1%nat; 2%nat]; split; [|reflexivity]; econstructor; [|econstructor; [|constructor]]; unfold connected; cbn; auto|].
  intros p P. inversion P as [|? y ? ? C Q]; subst. inversion Q as [|? z ? ? C2 Q2]; subst; [|cbn; lia]. unfold connected in C. cbn in C. destruct C as [C|[C|[]]]; discriminate.
Qed.
(* two messages before run(), one at the same time from 1, a fourth while they are on their
   way; the link from 3 to 4 is blocked, which is on no shortest way from 0 to 2 *)
Definition os1 : list op := [UPut 0 2; UPut 0 2; URun] ++ steps 5 ++ [UPut 1 2] ++ steps 8 ++ [UTime (1 # 4); UPut 0 2; UConf (CommsModel.mkC false [] [(3%nat, 4%nat)])] ++ steps 40.
Example C135_ex : let (s, tr) := run f1 (init open net1 0) os1 in
  idle s /\ puts 0 2 tr = [0; 1; 3]%nat /\ arrivals 0 2 tr = [0; 1; 3]%nat /\ came 2 tr = [2; 0; 1; 3]%nat /\ (exists t, In (ADeliver 3 0 2 t) tr /\ t == 5 # 4) /\
  fixed net1 os1 /\ always_clear net1 0 2 open os1.
Proof.
  destruct (run f1 (init open net1 0) os1) as [s tr] eqn:R. vm_compute in R. injection R as <- <-. split; [repeat split; discriminate|]. split; [reflexivity|]. split; [reflexivity|]. split; [reflexivity|].
  split; [eexists; split; [cbn; tauto|reflexivity]|]. split.
  - split; [repeat constructor; cbn; intuition discriminate|]. intros net' I. unfold os1, steps in I. cbn in I. repeat (destruct I as [I|I]; [discriminate|]). contradiction.
  - assert (Y : forall p q x y, walk (connected net1) 0 p x -> connected net1 x y -> walk (connected net1) y q 2 -> far net1 0 2 (length p + S (length q))%nat -> ~ (x = 3%nat /\ y = 4%nat)).
    { intros p q x y P C Q F [-> ->]. assert (LE := far_unique _ _ _ _ _ F far02). assert (L1 : (1 <= length p)%nat) by (inversion P; cbn; lia).
      assert (L2 : (1 <= length q)%nat) by (inversion Q; cbn; lia). lia. }
    split; [split; [reflexivity|cbn; auto]|]. intros c' I. unfold os1, steps in I. cbn in I. repeat (destruct I as [I|I]; [first [discriminate|injection I as <-; split; [reflexivity|]]|]); try contradiction.
    intros x y (p & q & P & C & Q & F). cbn. split; [auto|]. split; [auto|]. intros [X|[]]. injection X as <- <-. exact (Y p q _ _ P C Q F (conj eq_refl eq_refl)).
Qed.
(* nothing comes to 5, whose messages are given up *)
Example C135_no_way_ex : (forall p, ~ walk (connected net1) 0 p 5) /\ exists t, In (ADrop 0 t) (snd (run f1 (init open net1 0) ([UPut 0 5; URun] ++ steps 10))).
Proof.
  split; [|eexists; vm_compute; auto]. assert (X : forall x p y, walk (connected net1) x p y -> y = 5%nat -> x = 5%nat).
  { intros x p y P. induction P as [|x y p z C P IH]; intro Z; [exact Z|]. specialize (IH Z). subst y z. unfold connected in C.
    destruct x as [|[|[|[|[|x]]]]]; cbn in C; repeat (destruct C as [C|C]; [discriminate|]); contradiction. }
  intros p P. discriminate (X _ _ _ P eq_refl).
Qed.

(** ** C136: in order, always *)
Definition order_always : Prop := forall f c net t0 os a b, good f -> wf_net net -> (forall net', In (UNet net') os -> wf_net net') ->
  prefix (arrivals a b (snd (run f (init c net t0) os))) (puts a b (snd (run f (init c net t0) os))).
Theorem C136_order_partial : forall f c net t0 os a b D, good f -> fixed net os -> far net a b D -> always_clear net a b c os ->
  prefix (arrivals a b (snd (run f (init c net t0) os))) (puts a b (snd (run f (init c net t0) os))).
Proof. intros f c net t0 os a b D G FX F A. pose proof (C135_in_order f c net t0 os a b D G FX F A) as X. destruct (run f (init c net t0) os). apply X. Qed.
Lemma wf1 : wf_net net1. Proof. repeat constructor; cbn; intuition discriminate. Qed.
Lemma good1 : good f1. Proof. split; cbn; lra. Qed.
(* a link is blocked when the first comes to it and free before it tries again; the second
   does not wait *)
Definition os_retry : list op := [UPut 0 2; URun] ++ steps 5 ++ [UTime (1 # 4); UConf open; UPut 0 2] ++ steps 30.
Theorem C136_retry_refuted : ~ order_always.
Proof.
  intro H. unfold order_always in H. destruct (H f1 (CommsModel.mkC false [] [(0%nat, 1%nat)]) net1 0 os_retry 0%nat 2%nat good1 wf1) as [r X].
  - intros net' I. unfold os_retry, steps in I. cbn in I. repeat (destruct I as [I|I]; [discriminate|]). contradiction.
  - vm_compute in X. discriminate.
Qed.
(* without any waiting: the first goes round, the second need not *)
Definition f0 : cfg := mkF 0 1 (1 # 2) false.
Definition os_round : list op := [UPut 0 2; URun] ++ steps 7 ++ [UTime (1 # 4); UConf open; UPut 0 2] ++ steps 30.
Theorem C136_detour_refuted : ~ order_always /\
  let tr := snd (run f0 (init (CommsModel.mkC false [] [(0%nat, 1%nat)]) net1 0) os_round) in arrivals 0 2 tr = [1; 0]%nat /\ puts 0 2 tr = [0; 1]%nat.
Proof.
  split; [|vm_compute; auto]. intro H. unfold order_always in H. destruct (H f0 (CommsModel.mkC false [] [(0%nat, 1%nat)]) net1 0 os_round 0%nat 2%nat) as [r X]; [split; cbn; lra|exact wf1| |vm_compute in X; discriminate].
  intros net' I. unfold os_round, steps in I. cbn in I. repeat (destruct I as [I|I]; [discriminate|]). contradiction.
Qed.
(* with nothing blocked: a connection made meanwhile *)
Definition net2 : network := (0%nat, [1%nat; 3%nat; 2%nat]) :: List.tl net1.
Definition os_short : list op := [UPut 0 2; URun] ++ steps 5 ++ [UTime (1 # 4); UNet net2; UPut 0 2] ++ steps 30.
Theorem C136_connect_refuted : ~ order_always /\
  connect_nodes (fun _ => true) net1 0 2 false = Some net2 /\ let tr := snd (run f1 (init open net1 0) os_short) in arrivals 0 2 tr = [1; 0]%nat /\ puts 0 2 tr = [0; 1]%nat.
Proof.
  split; [|split; [reflexivity|vm_compute; auto]]. intro H. unfold order_always in H. destruct (H f1 open net1 0 os_short 0%nat 2%nat good1 wf1) as [r X]; [|vm_compute in X; discriminate].
  intros net' I. unfold os_short, steps in I. cbn in I. repeat (destruct I as [I|I]; [first [discriminate|injection I as <-; exact wf1]|]). contradiction.
Qed.

Print Assumptions C135_one_end.
Print Assumptions C135_stores.
Print Assumptions C135_way.
Print Assumptions C135_no_way.
Print Assumptions C135_in_order.
Print Assumptions C135_latency.
Print Assumptions C136_order_partial.
Print Assumptions C136_retry_refuted.
Print Assumptions C136_detour_refuted.
Print Assumptions C136_connect_refuted.
