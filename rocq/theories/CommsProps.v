(** C36, C37, C39, C40, C63: the comms managers. *)
From Coq Require Import Qround.
From Verif Require Import Common RouteModel RouteSpec RouteProofs RouteProps ActiveModel CommsModel CommsSpec CommsProofs.

(** ** C37: what is blocked *)
Theorem C37_blocked c a b :
  blocked c a b = true <-> cf_degraded c = true \/ In a (cf_nodes c) \/ In b (cf_nodes c) \/ In (a, b) (cf_links c).
Proof.
  unfold blocked, link_compare. rewrite orb_true_iff. assert (L : existsb (fun l => Nat.eqb a (fst l) && Nat.eqb b (snd l)) (cf_links c) = true <-> In (a, b) (cf_links c)).
  { rewrite existsb_exists. split.
    - intros ([x y] & I & H). apply andb_true_iff in H. destruct H as [H1 H2]. apply Nat.eqb_eq in H1, H2. cbn in H1, H2. subst. exact I.
    - intro I. exists (a, b). split; [exact I|]. cbn. rewrite !Nat.eqb_refl. reflexivity. }
  destruct (memb a (cf_nodes c)) eqn:A; cbn [orb].
  - apply memb_In in A. tauto.
  - apply memb_not in A. destruct (memb b (cf_nodes c)) eqn:B; [apply memb_In in B; tauto|]. apply memb_not in B. tauto.
Qed.
(** Blocking a link affects that link in that direction only. *)
Theorem C37_direction c a b x y : (x, y) <> (a, b) ->
  blocked (mkC (cf_degraded c) (cf_nodes c) ((a, b) :: cf_links c)) x y = blocked c x y.
Proof.
  intro N. apply eq_true_iff_eq. rewrite !C37_blocked. cbn [cf_degraded cf_nodes cf_links]. split; [|intuition].
  intros [H|[H|[H|[H|H]]]]; try congruence; auto.
Qed.
Example one_way : let c := mkC false [] [(1, 2)]%nat in blocked c 1 2 = true /\ blocked c 2 1 = false.
Proof. split; reflexivity. Qed.

(** Every attempt sees what is blocked at that moment, for both managers. *)
Theorem C37_attempt_truth g s o s' l i t a b v : mstep g s o = (s', l) -> In (i, t, OCheck a b v) l ->
  o = OGo i /\ t = ms_now s /\ v = blocked (ms_conf s) a b.
Proof.
  intros E I. destruct o as [c| |x y| |j|u]; unfold mstep in E.
  1-4: destruct (idle s); [|injection E as _ <-; destruct I].
  1-3: injection E as _ <-; destruct I.
  - destruct (ms_running s), (ms_in s) as [|[x y] q]; injection E as _ <-; destruct I.
  - destruct (nth_error (ms_procs s) j) as [p|]; [|injection E as _ <-; destruct I]. destruct (active (p_phase p) || idle s); [|injection E as _ <-; destruct I].
    destruct (go g (ms_conf s) (ms_now s) p) as [[ph os]|] eqn:G; injection E as _ <-; [|destruct I].
    apply in_map_iff in I. destruct I as (x & Ex & I). injection Ex as -> <- ->. split; [reflexivity|]. split; [reflexivity|].
    unfold go in G. destruct (p_phase p) as [|cur f|x y f k|x y f k due|x y f due|x y f| | | |]; try discriminate.
    + injection G as _ <-. destruct I.
    + destruct (Nat.eqb cur (p_to p)); [injection G as _ <-; destruct I as [I|[]]; discriminate|]. destruct (g_net g) as [net|]; [|discriminate].
      destruct (select_hop net cur (p_to p) f) as [[hop|]|]; [| |discriminate]; injection G as _ <-; [destruct I|destruct I as [I|[]]; discriminate].
    + destruct (blocked (ms_conf s) x y) eqn:B.
      * destruct (k =? tries g)%Z; injection G as _ <-; destruct I as [I|I]; try (injection I as <- <- <-; symmetry; exact B); [destruct I as [I|[]]; discriminate|destruct I].
      * injection G as _ <-. destruct I as [I|I]; [injection I as <- <- <-; symmetry; exact B|]. destruct (g_net g); [destruct I as [I|[]]; discriminate|destruct I].
    + destruct (Qeqb (ms_now s) due); [|discriminate]. injection G as _ <-. destruct I.
    + destruct (Qeqb (ms_now s) due); [|discriminate]. injection G as _ <-. destruct I.
    + destruct (g_net g); injection G as _ <-; [destruct I|destruct I as [I|[]]; discriminate].
    + destruct (store_from_actor g (p_to p)); injection G as _ <-; destruct I as [I|[]]; discriminate.
  - destruct (idle s); [|injection E as _ <-; destruct I]. destruct (_ && _); injection E as _ <-; destruct I.
Qed.

(** ** C36: point to point *)
Lemma attempts_app a b : attempts (a ++ b) = attempts a ++ attempts b.
Proof. apply flat_map_app. Qed.
Lemma waited_attempts rate t0 a b k w : waited rate t0 a b k w -> tried_every rate t0 (repeat true k) (attempts w) /\ puts w = [].
Proof.
  intros [<- H]. assert (AT : attempts w = map (fun e => (fst e, true)) w /\ puts w = []).
  { assert (A : forall e, In e w -> snd e = OCheck a b true) by (intros e I; apply In_nth_error in I; destruct I as [j I]; apply (H j e I)).
    clear H. induction w as [|e w IH]; [auto|]. destruct (IH ltac:(intros; apply A; right; assumption)) as [I1 I2]. cbn. rewrite (A e (or_introl eq_refl)). cbn.
    change (attempts w) with (flat_map (fun e => match snd e with OCheck _ _ b => [(fst e, b)] | _ => [] end) w) in I1.
    unfold puts in I2. rewrite I1, I2. auto. }
  destruct AT as [-> P]. split; [|exact P]. split.
  - rewrite map_map. clear. induction w as [|e w IH]; [reflexivity|]. cbn [map length repeat]. f_equal. exact IH.
  - intros j e N. rewrite nth_error_map in N. destruct (nth_error w j) as [e'|] eqn:Nj; [|discriminate]. injection N as <-. cbn. apply (H j e' Nj).
Qed.
Lemma tried_snoc rate t0 bs l t b : tried_every rate t0 bs l -> t == t0 + inject_Z (Z.of_nat (length bs)) * rate -> tried_every rate t0 (bs ++ [b]) (l ++ [(t, b)]).
Proof.
  intros [<- H] T. split; [rewrite map_app; reflexivity|]. intros j e N. destruct (Nat.lt_ge_cases j (length l)) as [J|J].
  - rewrite nth_error_app1 in N by exact J. apply H. exact N.
  - rewrite nth_error_app2 in N by exact J. destruct (j - length l)%nat as [|n] eqn:D; cbn in N; [|destruct n; discriminate]. injection N as <-. cbn.
    rewrite map_length in T. assert (j = length l) by lia. subst j. exact T.
Qed.
(** [tries] is the least number of retry periods that cover retry_max_time. *)
Theorem C36_tries g : 0 < g_rate g -> g_max g <= inject_Z (tries g) * g_rate g /\ forall n, g_max g <= inject_Z n * g_rate g -> (tries g <= n)%Z.
Proof.
  intro R. unfold tries. set (x := g_max g / g_rate g). assert (X : x * g_rate g == g_max g) by (unfold x; field; lra). split.
  - pose proof (Qle_ceiling x) as C. apply (Qmult_le_compat_r _ _ (g_rate g)) in C; lra.
  - intros n L. pose proof (Qceiling_lt x) as C. assert (x <= inject_Z n).
    { apply Qmult_lt_0_le_reg_r with (z := g_rate g); [exact R|]. lra. }
    apply Z.nlt_ge. intro N. assert (inject_Z n <= inject_Z (Qceiling x - 1)) by (rewrite <- Zle_Qle; lia). lra.
Qed.
Section PointToPoint.
Variable g : mgr.
Hypothesis NR : g_net g = None.
Hypothesis R0 : 0 < g_rate g.
Hypothesis M0 : 0 <= g_max g.
Variables (c0 : conf) (t0 : Q) (os : list mop) (s : mst) (tr : list (nat * Q * out)).
Hypothesis RUN : mrun g (minit c0 t0) os = (s, tr).
Variables (i : nat) (p : proc).
Hypothesis MSG : nth_error (ms_procs s) i = Some p.
Local Notation h := (history i tr).
Local Notation N := (Z.to_nat (tries g)).
Local Notation nth_try k := (p_start p + inject_Z (Z.of_nat k) * g_rate g).
Lemma inv36 : PI g (ms_now s) p h.
Proof. eapply ptp_inv; eauto. apply tries_nonneg; assumption. Qed.
Lemma sentence_attempts rest : sentence g p h rest -> (forall t r, rest t r -> attempts r = []) ->
  exists k t r, (k <= N)%nat /\ tried_every (g_rate g) (p_start p) (repeat true k ++ [false]) (attempts h) /\ t == nth_try k /\ rest t r /\ puts h = puts r.
Proof.
  intros (k & w & t & L & W & T & r & -> & R) A. exists k, t, r. split; [lia|]. destruct (waited_attempts _ _ _ _ _ _ W) as [W1 W2]. split; [|split; [exact T|split; [exact R|]]].
  - rewrite attempts_app. cbn. fold (attempts r). rewrite (A _ _ R). apply tried_snoc; [exact W1|]. rewrite repeat_length. exact T.
  - rewrite puts_app, W2. reflexivity.
Qed.
(** What the attempts look like at any moment: one every retry period, all but the
    last blocked, at most one more than [tries]. *)
Theorem C36_attempts : exists k b, tried_every (g_rate g) (p_start p) (repeat true k ++ b) (attempts h) /\
  ((k <= N)%nat /\ (b = [] \/ b = [false]) \/ b = [true] /\ k = N).
Proof.
  pose proof inv36 as H. unfold PI in H. destruct (p_phase p) as [|cur f|a b f k|a b f k due|a b f due|a b f| | | |].
  - destruct H as [-> _]. exists 0%nat, []. split; [split; [reflexivity|intros [|j] e X; discriminate]|]. left. split; [lia|auto].
  - destruct H.
  - destruct H as (-> & -> & n & -> & L & W & _). exists n, []. rewrite app_nil_r. split; [apply (waited_attempts _ _ _ _ _ _ W)|]. left. split; [lia|auto].
  - destruct H as (-> & -> & n & -> & L & W & _). exists n, []. rewrite app_nil_r. split; [apply (waited_attempts _ _ _ _ _ _ W)|]. left. split; [lia|auto].
  - destruct (sentence_attempts _ H) as (k & t & r & L & A & _); [intros ? ? (-> & _); reflexivity|]. exists k, [false]. auto.
  - destruct (sentence_attempts _ H) as (k & t & r & L & A & _); [intros ? ? (-> & _); reflexivity|]. exists k, [false]. auto.
  - destruct (sentence_attempts _ H) as (k & t & r & L & A & _); [intros ? ? (x & -> & _); reflexivity|]. exists k, [false]. auto.
  - destruct (sentence_attempts _ H) as (k & t & r & L & A & _); [intros ? ? (x & y & z & -> & _); reflexivity|]. exists k, [false]. auto.
  - destruct H as (n & w & t & L & W & T & ->). exists n, [true]. rewrite attempts_app. cbn. split; [|right; split; [reflexivity|lia]].
    apply tried_snoc; [apply (waited_attempts _ _ _ _ _ _ W)|]. rewrite repeat_length. exact T.
  - destruct (sentence_attempts _ H) as (k & t & r & L & A & _); [intros ? ? (x & y & -> & _); reflexivity|]. exists k, [false]. auto.
Qed.
(** Delivered: once, to the destination's store, at the first attempt that was not
    blocked plus the transfer time. *)
Theorem C36_delivered : p_phase p = TDone -> exists k t st, (k <= N)%nat /\
  tried_every (g_rate g) (p_start p) (repeat true k ++ [false]) (attempts h) /\
  puts h = [(t, p_to p, st)] /\ t == nth_try k + hop_time g /\ store_from_actor g (p_to p) = Some st.
Proof.
  intro Ph. pose proof inv36 as H. unfold PI in H. rewrite Ph in H.
  destruct (sentence_attempts _ H) as (k & t & r & L & A & T & (t2 & t3 & st & -> & T2 & T3 & SF) & P); [intros ? ? (x & y & z & -> & _); reflexivity|].
  exists k, t3, st. split; [exact L|]. split; [exact A|]. split; [exact P|]. split; [lra|exact SF].
Qed.
(** Dropped: N+1 attempts, all blocked, and nothing put. *)
Theorem C36_dropped : p_phase p = TDropped ->
  tried_every (g_rate g) (p_start p) (repeat true (S N)) (attempts h) /\ puts h = [].
Proof.
  intro Ph. pose proof inv36 as H. unfold PI in H. rewrite Ph in H. destruct H as (n & w & t & L & W & T & ->). destruct (waited_attempts _ _ _ _ _ _ W) as [W1 W2].
  rewrite attempts_app, puts_app, W2. cbn [attempts puts flat_map snd fst app]. split; [|reflexivity].
  assert (n = N) by lia. subst n. replace (repeat true (S N)) with (repeat true N ++ [true]) by (symmetry; rewrite <- repeat_cons; reflexivity).
  apply tried_snoc; [exact W1|]. rewrite repeat_length. exact T.
Qed.
(** No store to put it into: SimulationError after the transfer time, nothing put. *)
Theorem C36_no_store : p_phase p = TRaised -> store_from_actor g (p_to p) = None /\ puts h = [] /\
  exists k, (k <= N)%nat /\ tried_every (g_rate g) (p_start p) (repeat true k ++ [false]) (attempts h).
Proof.
  intro Ph. pose proof inv36 as H. unfold PI in H. rewrite Ph in H.
  destruct (sentence_attempts _ H) as (k & t & r & L & A & T & (t2 & t3 & -> & T2 & T3 & SF) & P); [intros ? ? (x & y & -> & _); reflexivity|].
  split; [exact SF|]. split; [exact P|]. exists k. auto.
Qed.
(** Nothing is put before. *)
Theorem C36_not_before : p_phase p <> TDone -> puts h = [].
Proof.
  pose proof inv36 as H. unfold PI in H. destruct (p_phase p) as [|cur f|a b f k|a b f k due|a b f due|a b f| | | |] eqn:Ph; intro ND; try congruence.
  - destruct H as [-> _]. reflexivity.
  - destruct H.
  - destruct H as (-> & -> & n & -> & L & W & _). apply (waited_attempts _ _ _ _ _ _ W).
  - destruct H as (-> & -> & n & -> & L & W & _). apply (waited_attempts _ _ _ _ _ _ W).
  - destruct (sentence_attempts _ H) as (k & t & r & _ & _ & _ & (-> & _) & ->); [intros ? ? (-> & _); reflexivity|reflexivity].
  - destruct (sentence_attempts _ H) as (k & t & r & _ & _ & _ & (-> & _) & ->); [intros ? ? (-> & _); reflexivity|reflexivity].
  - destruct (sentence_attempts _ H) as (k & t & r & _ & _ & _ & (x & -> & _) & ->); [intros ? ? (x & -> & _); reflexivity|reflexivity].
  - apply C36_dropped. exact Ph.
  - apply C36_no_store. exact Ph.
Qed.
(** Finished messages: delivered (or without store) exactly if an attempt was not blocked. *)
Theorem C36_iff : finished p -> (p_phase p = TDropped <-> forall t, ~ In (t, false) (attempts h)).
Proof.
  intro F. split.
  - intros Ph t I. destruct (C36_dropped Ph) as [[A _] _]. apply (in_map snd) in I. rewrite A in I. apply repeat_spec in I. discriminate.
  - intro NF. assert (X : forall k, tried_every (g_rate g) (p_start p) (repeat true k ++ [false]) (attempts h) -> False).
    { intros k [A _]. assert (I : In false (map snd (attempts h))) by (rewrite A; apply in_or_app; right; left; reflexivity).
      apply in_map_iff in I. destruct I as ([t b] & E & I). cbn in E. subst b. exact (NF t I). }
    destruct F as [F|[F|F]]; [|exact F|]; exfalso.
    + destruct (C36_delivered F) as (k & t & st & _ & A & _). exact (X k A).
    + destruct (C36_no_store F) as (_ & _ & k & _ & A). exact (X k A).
Qed.
(** Not finished: it can move now, or waits for a time to come. *)
Theorem C36_progress : finished p \/ go g (ms_conf s) (ms_now s) p <> None \/ exists due, waits_until p due /\ ms_now s < due.
Proof.
  pose proof inv36 as H. unfold PI in H. unfold finished, go, waits_until. rewrite NR. destruct (p_phase p) as [|cur f|a b f k|a b f k due|a b f due|a b f| | | |]; try contradiction; auto.
  - right. left. discriminate.
  - right. left. destruct (blocked (ms_conf s) a b); [destruct (k =? tries g)%Z|]; discriminate.
  - right. destruct H as (-> & -> & n & -> & L & W & D & T). destruct (Qeqb (ms_now s) due) eqn:Eq; [left; discriminate|]. right. exists due. split; [reflexivity|]. qbool. lra.
  - right. destruct H as (k & w & t & _ & _ & _ & r & _ & _ & _ & T). destruct (Qeqb (ms_now s) due) eqn:Eq; [left; discriminate|]. right. exists due. split; [reflexivity|]. qbool. lra.
  - right. left. discriminate.
  - right. left. destruct (store_from_actor g (p_to p)); discriminate.
Qed.
Theorem C36_deadline : finished p \/ ms_now s <= nth_try N + hop_time g.
Proof.
  assert (HT : 0 <= hop_time g) by (unfold hop_time; destruct (Qltb 0 (g_send g)) eqn:Sd; qbool; lra).
  assert (MO : forall k, (k <= N)%nat -> nth_try k <= nth_try N).
  { intros k L. apply Qplus_le_r. apply Qmult_le_compat_r; [|lra]. rewrite <- Zle_Qle. lia. }
  pose proof inv36 as H. unfold PI in H. unfold finished. destruct (p_phase p) as [|cur f|a b f k|a b f k due|a b f due|a b f| | | |]; try contradiction; auto; right.
  - destruct H as [_ T]. specialize (MO 0%nat ltac:(lia)). change (inject_Z (Z.of_nat 0)) with 0 in MO. lra.
  - destruct H as (-> & -> & n & -> & L & W & T). specialize (MO n ltac:(lia)). unfold at_try in T. lra.
  - destruct H as (-> & -> & n & -> & L & W & D & T). specialize (MO n ltac:(lia)). unfold at_try in D. lra.
  - destruct H as (k & w & t & L & _ & T & r & _ & _ & D & T2). specialize (MO k ltac:(lia)). unfold at_try in T. lra.
  - destruct H as (k & w & t & L & _ & T & r & _ & _ & D). specialize (MO k ltac:(lia)). unfold at_try in T. lra.
  - destruct H as (k & w & t & L & _ & T & r & _ & t2 & _ & D & D2). specialize (MO k ltac:(lia)). unfold at_try in T. lra.
Qed.
End PointToPoint.

(** The number of moves of a message is bounded: it cannot keep going in one instant. *)
Theorem C36_bounded g c0 t0 os i : g_net g = None -> 0 < g_rate g -> 0 <= g_max g ->
  (busy g (minit c0 t0) os i <= 2 * Z.to_nat (tries g) + 6)%nat.
Proof.
  intros NR R0 M0. pose proof (tries_nonneg g R0 M0) as N0.
  set (mu := fun p => match p_phase p with TNew => 2 * Z.to_nat (tries g) + 6 | TCheck _ _ _ k => 2 * Z.to_nat (tries g - k) + 5 | TRetry _ _ _ k _ => 2 * Z.to_nat (tries g - k) + 6
    | TSend _ _ _ _ => 4 | TMoved _ _ _ => 3 | TArrive => 2 | _ => 0 end%nat).
  apply (count_init g (fun _ => True) (PI g) (fun _ _ => False) mu).
  - intros now a b. split; reflexivity.
  - intros c now p h ph l _. apply PI_go; assumption.
  - intros now t p h. apply PI_time; assumption.
  - intros d a b [].
  - intros a b t. apply le_n.
  - intros c now p h ph l _ H G _. unfold mu, with_phase. cbn [p_phase]. unfold go in G. rewrite NR in G. unfold PI in H.
    destruct (p_phase p) as [|cur f|a b f k|a b f k due|a b f due|a b f| | | |]; try discriminate.
    + injection G as <- <-. rewrite Z.sub_0_r. lia.
    + destruct H.
    + destruct H as (-> & -> & n & -> & L & _). destruct (blocked c (p_from p) (p_to p)).
      * destruct (Z.of_nat n =? tries g)%Z eqn:Z; injection G as <- <-; [lia|]. apply Z.eqb_neq in Z. lia.
      * injection G as <- <-. destruct (Qltb 0 (g_send g)); lia.
    + destruct (Qeqb now due); [|discriminate]. injection G as <- <-. lia.
    + destruct (Qeqb now due); [|discriminate]. injection G as <- <-. lia.
    + injection G as <- <-. lia.
    + destruct (store_from_actor g (p_to p)); injection G as <- <-; lia.
  - exact Logic.I.
  - apply all_true.
  - intros p _ [].
Qed.
(** Messages are taken in the order in which they were sent, each once. *)
Lemma order_step g s o : map (fun p => (p_from p, p_to p)) (ms_procs (fst (mstep g s o))) ++ ms_in (fst (mstep g s o)) =
  (map (fun p => (p_from p, p_to p)) (ms_procs s) ++ ms_in s) ++ match o with OSend a b => if idle s then [(a, b)] else [] | _ => [] end.
Proof.
  destruct o as [c| |a b| |j|t]; unfold mstep.
  1-4: destruct (idle s); [|rewrite app_nil_r; reflexivity].
  - rewrite app_nil_r. reflexivity.
  - rewrite app_nil_r. reflexivity.
  - cbn. rewrite app_assoc. reflexivity.
  - rewrite app_nil_r. destruct (ms_running s), (ms_in s) as [|[a b] q] eqn:Q; cbn; rewrite ?Q; try reflexivity. rewrite map_app, <- app_assoc. reflexivity.
  - rewrite app_nil_r. destruct (nth_error (ms_procs s) j) as [p|] eqn:N; [|reflexivity]. destruct (active (p_phase p) || idle s); [|reflexivity].
    destruct (go g (ms_conf s) (ms_now s) p) as [[ph l]|]; [|reflexivity]. cbn. f_equal. revert j N. induction (ms_procs s) as [|x l0 IH]; intros [|j] N; cbn in *; try discriminate; [injection N as ->; reflexivity|].
    f_equal. apply IH. exact N.
  - rewrite app_nil_r. destruct (idle s); [|reflexivity]. destruct (_ && _); reflexivity.
Qed.
Theorem C36_order g c0 t0 os s tr : mrun g (minit c0 t0) os = (s, tr) ->
  map (fun p => (p_from p, p_to p)) (ms_procs s) ++ ms_in s = sends g (minit c0 t0) os.
Proof.
  assert (G : forall s0, map (fun p => (p_from p, p_to p)) (ms_procs (fst (mrun g s0 os))) ++ ms_in (fst (mrun g s0 os)) =
    (map (fun p => (p_from p, p_to p)) (ms_procs s0) ++ ms_in s0) ++ sends g s0 os).
  { induction os as [|o os' IH]; intro s0; cbn [mrun sends]; [cbn; rewrite app_nil_r; reflexivity|]. specialize (IH (fst (mstep g s0 o))). rewrite order_step in IH.
    destruct (mstep g s0 o) as [s1 l1]. cbn [fst] in *. destruct (mrun g s1 os') as [s2 l2]. cbn [fst] in *. rewrite IH, <- app_assoc. reflexivity. }
  intro E. specialize (G (minit c0 t0)). rewrite E in G. exact G.
Qed.

(** The manager is not stuck: once running it keeps running, and takes the oldest message;
    and the clock moves to any time before which nothing is to be done. *)
Theorem C36_running g s os : ms_running s = true -> ms_running (fst (mrun g s os)) = true.
Proof.
  revert s. induction os as [|o os IH]; intros s R; [exact R|]. cbn [mrun].
  assert (ms_running (fst (mstep g s o)) = true) as R1.
  { destruct o as [c| |x y| |j|u]; unfold mstep.
    1-4: destruct (idle s); [|exact R].
    1-3: cbn; auto.
    - rewrite R. destruct (ms_in s) as [|[x y] q]; [exact R|reflexivity].
    - destruct (nth_error (ms_procs s) j) as [p|]; [|exact R]. destruct (active (p_phase p) || idle s); [|exact R].
      destruct (go g (ms_conf s) (ms_now s) p) as [[ph os']|]; exact R.
    - destruct (idle s); [|exact R]. destruct (_ && _); exact R. }
  destruct (mstep g s o) as [s1 l1]. cbn [fst] in R1. specialize (IH s1 R1). destruct (mrun g s1 os). exact IH.
Qed.
Theorem C36_taken g s a b l : ms_running s = true -> idle s = true -> ms_in s = (a, b) :: l ->
  exists p, p_from p = a /\ p_to p = b /\ p_start p = ms_now s /\ p_phase p = TNew /\
    mstep g s ORun = (mkMS (ms_conf s) (ms_now s) true l (ms_procs s ++ [p]), []).
Proof.
  intros R I E. exists (mkP a b (ms_now s) TNew). unfold mstep. rewrite I, R, E. auto.
Qed.
Theorem C36_clock g s t : idle s = true -> ms_now s <= t -> (ms_running s = true -> ms_in s = []) ->
  (forall p, In p (ms_procs s) -> p_phase p <> TNew /\ forall due, waits_until p due -> t <= due) ->
  mstep g s (OTime t) = (mkMS (ms_conf s) t (ms_running s) (ms_in s) (ms_procs s), []).
Proof.
  intros I T R P. unfold mstep. rewrite I. rewrite (proj2 (Qleb_le _ _) T).
  assert (forallb (lets_pass t) (ms_procs s) = true) as ->.
  { apply forallb_forall. intros p J. destruct (P p J) as [N D]. unfold lets_pass. unfold waits_until in D.
    destruct (p_phase p); try reflexivity; [congruence|apply Qleb_le, D; reflexivity|apply Qleb_le, D; reflexivity]. }
  assert (negb (ms_running s) || match ms_in s with [] => true | _ => false end = true) as ->.
  { destruct (ms_running s); [|reflexivity]. rewrite (R eq_refl). reflexivity. }
  reflexivity.
Qed.

(** Example: rate 1, at most 3/2 long, send time 2; degraded until time 1. *)
Definition ptp : mgr := mkM (3 # 2) 1 2 false None 7 [] (fun _ => [(4, [6]); (5, [7; 8])]%nat).
Definition clear : conf := mkC false [] [].
Definition down : conf := mkC true [] [].
Definition story : list mop :=
  [OStartRun; OSend 0 1; ORun; OGo 0; OGo 0; OTime 1; OGo 0; OGo 0; OConf clear; OTime 2; OGo 0; OGo 0; OTime 4; OGo 0; OGo 0; OGo 0]%nat.
Example story_told : tries ptp = 2%Z /\ let '(s, tr) := mrun ptp (minit down 0) story in
  map p_phase (ms_procs s) = [TDone] /\ attempts (history 0 tr) = [(0, true); (1, true); (2, false)] /\ puts (history 0 tr) = [(4, 1%nat, 5%nat)].
Proof. vm_compute. auto. Qed.
Example story_down : let '(s, tr) := mrun ptp (minit down 0) [OStartRun; OSend 0 1; ORun; OGo 0; OGo 0; OTime 1; OGo 0; OGo 0; OTime 2; OGo 0; OGo 0]%nat in
  map p_phase (ms_procs s) = [TDropped] /\ attempts (history 0 tr) = [(0, true); (1, true); (2, true)].
Proof. vm_compute. auto. Qed.

(** ** C63: the store a message is put into *)
Theorem C63_connected d a b st : dict_get (dict_set d a st) b = if Nat.eqb a b then Some st else dict_get d b.
Proof.
  induction d as [|[k v] d IH]; cbn; [destruct (Nat.eqb a b); reflexivity|]. destruct (Nat.eqb k a) eqn:K; cbn.
  - apply Nat.eqb_eq in K. subst k. destruct (Nat.eqb a b); reflexivity.
  - destruct (Nat.eqb k b) eqn:Kb; [|exact IH]. apply Nat.eqb_eq in Kb. subst k. rewrite Nat.eqb_sym in K. rewrite K. reflexivity.
Qed.
Theorem C63_choice g a :
  match dict_get (g_connected g) a with
  | Some st => store_from_actor g a = Some st
  | None => match store_from_actor g a with
            | Some st => exists l1 modes l2, g_comm g a = l1 ++ (st, modes) :: l2 /\ In (g_mode g) modes /\ forall e, In e l1 -> ~ In (g_mode g) (snd e)
            | None => forall e, In e (g_comm g a) -> ~ In (g_mode g) (snd e)
            end
  end.
Proof.
  unfold store_from_actor. destruct (dict_get (g_connected g) a) as [st|]; [reflexivity|]. induction (g_comm g a) as [|[n ms] l IH]; cbn; [intros e []|].
  destruct (memb (g_mode g) ms) eqn:M.
  - apply memb_In in M. exists [], ms, l. split; [reflexivity|]. split; [exact M|intros e []].
  - apply memb_not in M. destruct (get_state (g_mode g) l) as [st|].
    + destruct IH as (l1 & modes & l2 & -> & I & F). exists ((n, ms) :: l1), modes, l2. split; [reflexivity|]. split; [exact I|]. intros e [<-|H]; [exact M|apply F; exact H].
    + intros e [<-|H]; [exact M|apply IH; exact H].
Qed.
Example by_mode : store_from_actor ptp 1 = Some 5%nat /\ store_from_actor (mkM 1 1 1 false None 7 (dict_set [] 1 9) (g_comm ptp)) 1 = Some 9%nat /\
  store_from_actor (mkM 1 1 1 false None 9 [] (g_comm ptp)) 1 = None.
Proof. vm_compute. auto. Qed.

(** ** C39: routed messages *)
Section Routed.
Variable g : mgr.
Variable net : network.
Hypothesis GN : g_net g = Some net.
Hypothesis WF : wf_net net.
Hypothesis R0 : 0 < g_rate g.
Variables (c0 : conf) (t0 : Q) (os : list mop) (s : mst) (tr : list (nat * Q * out)).
Hypothesis RUN : mrun g (minit c0 t0) os = (s, tr).
Variables (i : nat) (p : proc).
Hypothesis MSG : nth_error (ms_procs s) i = Some p.
Local Notation h := (history i tr).
Local Notation E := (connected net).
Lemma inv39 : RI g net (ms_now s) p h.
Proof. eapply route_inv; eauto. Qed.
(** Whatever is blocked: the hops follow connections from the sender on; a message
    is put at most once, after a walk to its destination, into its store. *)
Theorem C39_walk : exists v x, moves h = legs (p_from p) v /\ walk E (p_from p) v x /\
  (puts h = [] /\ p_phase p <> TDone \/
   x = p_to p /\ p_phase p = TDone /\ exists t st, puts h = [(t, p_to p, st)] /\ store_from_actor g (p_to p) = Some st).
Proof.
  destruct inv39 as (v & x & M & W & H). exists v, x. split; [exact M|]. split; [exact W|].
  destruct (p_phase p); try (left; split; [tauto|discriminate]).
  - destruct H as (_ & _ & -> & _). left. split; [reflexivity|discriminate].
  - right. destruct H as (-> & t & st & P & SF & _). split; [reflexivity|]. split; [reflexivity|]. exists t, st. auto.
Qed.
(** No attempt blocked: delivered along a shortest path, after that many transfer times. *)
Theorem C39_delivered : never_blocked h -> p_phase p = TDone -> exists v t st,
  moves h = legs (p_from p) v /\ quickest E (p_from p) v (p_to p) /\ puts h = [(t, p_to p, st)] /\
  t == p_start p + inject_Z (Z.of_nat (length v)) * hop_time g.
Proof.
  intros NB Ph. destruct inv39 as (v & x & M & W & H). rewrite Ph in H. destruct H as (-> & t & st & P & SF & Hn). destruct (Hn NB) as [[O _] T].
  exists v, t, st. split; [exact M|]. split; [|split; [exact P|exact T]]. split; [exact W|]. intros p' Wp. destruct (O p' Wp) as (q & _ & L). lia.
Qed.
(** No attempt blocked: dropped only if there is no way; delivered only if there is one. *)
Theorem C39_dropped : never_blocked h -> finished p -> (p_phase p = TDropped <-> ~ exists q, walk E (p_from p) q (p_to p)).
Proof.
  intros NB F. destruct inv39 as (v & x & M & W & H). split.
  - intros Ph (q & Wq). rewrite Ph in H. destruct H as (_ & Nx & Hn). destruct (Hn NB) as [[O _] NW]. destruct (O q Wq) as (q' & Wq' & _).
    pose proof (NW q' Wq'). subst q'. inversion Wq'. congruence.
  - intro NW. destruct F as [F|[F|F]]; [|exact F|]; rewrite F in H; exfalso; apply NW; exists v.
    + destruct H as (-> & _). exact W.
    + destruct H as (-> & _). exact W.
Qed.
(** No attempt blocked: finished by the time a shortest path takes, at once if there is no way. *)
Theorem C39_deadline : never_blocked h -> finished p \/
  (forall q, walk E (p_from p) q (p_to p) -> ms_now s <= p_start p + inject_Z (Z.of_nat (length q)) * hop_time g) /\
  ((~ exists q, walk E (p_from p) q (p_to p)) -> ms_now s == p_start p).
Proof.
  intro NB. assert (HT : 0 <= hop_time g) by (unfold hop_time; destruct (Qltb 0 (g_send g)) eqn:Sd; qbool; lra).
  destruct inv39 as (v & x & M & W & H). unfold finished.
  assert (K : forall v' x', walk E (p_from p) v' x' -> onway net p v' x' -> forall n, (length n <= length v')%nat -> ms_now s <= at_hop g p n -> (v' = [] -> ms_now s == p_start p) ->
    (forall q, walk E (p_from p) q (p_to p) -> ms_now s <= p_start p + inject_Z (Z.of_nat (length q)) * hop_time g) /\ ((~ exists q, walk E (p_from p) q (p_to p)) -> ms_now s == p_start p)).
  { intros v' x' W' [O1 O2] n Ln T T0. split.
    - intros q Wq. destruct (O1 q Wq) as (q' & _ & L). unfold at_hop in T. assert (inject_Z (Z.of_nat (length n)) * hop_time g <= inject_Z (Z.of_nat (length q)) * hop_time g).
      { apply Qmult_le_compat_r; [|exact HT]. rewrite <- Zle_Qle. lia. } lra.
    - intro NW. destruct O2 as [O2|(q & Wq)]; [auto|]. exfalso. apply NW. exists (v' ++ q). eapply walk_trans; eauto. }
  assert (Z0 : forall u, at_hop g p [] == u -> u == p_start p).
  { unfold at_hop. cbn. change (inject_Z 0) with 0. intros u Hu. lra. }
  destruct (p_phase p) as [|cur f|a b f k|a b f k due|a b f due|a b f| | | |]; auto; right.
  - destruct H as (-> & -> & Hh & T). apply (K [] (p_from p) W) with (n := []); [|exact (le_n _)|unfold at_hop; cbn; change (inject_Z 0) with 0; lra|auto].
    split; [intros q Wq; exists q; split; [exact Wq|apply le_n]|auto].
  - destruct H as (-> & _ & Hn). destruct (Hn NB) as (_ & O & T). apply (K v cur W O v (le_n _)); [lra|]. intros ->. apply Z0. symmetry. exact T.
  - destruct H as (-> & _ & EE & _ & Hn). destruct (Hn NB) as (_ & O & T). apply (K (v ++ [b]) b (walk_snoc' _ _ _ _ _ W EE) O v); [rewrite app_length; lia|lra|].
    intro X. destruct v; discriminate.
  - destruct H as (_ & _ & _ & _ & X & _). contradiction.
  - destruct H as (-> & NV & _ & Hn & T). destruct (Hn NB) as (_ & O & D). apply (K v b W O v (le_n _)); [lra|]. intros ->. congruence.
  - destruct H as (-> & _ & Hn). destruct (Hn NB) as (_ & O & T). apply (K v b W O v (le_n _)); [lra|]. intros ->. apply Z0. symmetry. exact T.
  - destruct H as (-> & _ & Hn). destruct (Hn NB) as (O & T). apply (K v (p_to p) W O v (le_n _)); [lra|]. intros ->. apply Z0. symmetry. exact T.
Qed.
(** Not finished: it can move now, or waits for a time to come. *)
Theorem C39_progress : finished p \/ go g (ms_conf s) (ms_now s) p <> None \/ exists due, waits_until p due /\ ms_now s < due.
Proof.
  destruct inv39 as (v & x & M & W & H). unfold finished, go, waits_until. rewrite GN. destruct (p_phase p) as [|cur f|a b f k|a b f k due|a b f due|a b f| | | |]; auto.
  - right. left. discriminate.
  - right. left. destruct (Nat.eqb cur (p_to p)); [discriminate|]. pose proof (C38_total net cur (p_to p) f) as T. destruct (select_hop net cur (p_to p) f) as [[hop|]|]; congruence.
  - right. left. destruct (blocked (ms_conf s) a b); [destruct (k =? tries g)%Z|]; discriminate.
  - right. destruct H as (_ & _ & _ & _ & _ & T). destruct (Qeqb (ms_now s) due) eqn:Eq; [left; discriminate|]. right. exists due. split; [reflexivity|]. qbool. lra.
  - right. destruct H as (_ & _ & _ & _ & T). destruct (Qeqb (ms_now s) due) eqn:Eq; [left; discriminate|]. right. exists due. split; [reflexivity|]. qbool. lra.
  - right. left. discriminate.
  - right. left. destruct (store_from_actor g (p_to p)); discriminate.
Qed.
End Routed.

(** Example: the network of the class documentation (A=0 ... H=7), one transfer takes 2. *)
Definition routed (glob : bool) (net : network) (mx : Q) : mgr := mkM mx 1 2 glob (Some net) 7 [] (fun _ => [(5, [7])]%nat).
Definition gos (n : nat) : list mop := repeat (OGo 0) n.
Example docs_message : let '(s, tr) := mrun (routed false docs 1) (minit clear 0) ([OStartRun; OSend 0 2; ORun] ++ gos 3 ++ [OTime 2] ++ gos 4 ++ [OTime 4] ++ gos 4)%nat in
  map p_phase (ms_procs s) = [TDone] /\ moves (history 0 tr) = [(0, 1); (1, 2)]%nat /\ puts (history 0 tr) = [(4, 2%nat, 5%nat)].
Proof. vm_compute. auto. Qed.
Example docs_no_way : let '(s, tr) := mrun (routed false docs 1) (minit clear 0) ([OStartRun; OSend 2 0; ORun] ++ gos 2)%nat in
  map p_phase (ms_procs s) = [TDropped].
Proof. vm_compute. reflexivity. Qed.

(** ** C40: going around failures *)
(** With failed hops ignored for good, as long as the destination itself is not given
    up as a hop: a bounded number of moves, whatever is blocked and unblocked in the
    course of time. *)
Theorem C40_terminates_partial g net : g_net g = Some net -> wf_net net -> 0 < g_rate g -> 0 <= g_max g -> g_global g = true ->
  exists n, forall c0 t0 os s tr i p, mrun g (minit c0 t0) os = (s, tr) -> nth_error (ms_procs s) i = Some p -> ~ gave_up (history i tr) (p_to p) ->
    (busy g (minit c0 t0) os i <= n)%nat /\
    (finished p \/ ms_now s <= p_start p + inject_Z (Z.of_nat n) * longest_wait g).
Proof.
  intros GN WF R0 M0 GG. pose proof (tries_nonneg g R0 M0) as N0. exists (moves_bound g net). intros c0 t0 os s tr i p E N NG. split.
  - apply (around_count g net GN WF R0 N0 GG). rewrite E. cbn [fst snd]. intros q Nq. rewrite N in Nq. injection Nq as <-. exact NG.
  - destruct (around_inv g net GN WF R0 N0 GG _ _ _ _ _ _ _ E N) as [H|(_ & T & L)]; [contradiction|].
    destruct (wait_pos g R0) as (W & _). assert (CR : credit g net p <= p_start p + inject_Z (Z.of_nat (moves_bound g net)) * longest_wait g).
    { unfold credit. assert (0 <= inject_Z (Z.of_nat (mu g net p))) by (change 0 with (inject_Z 0); rewrite <- Zle_Qle; lia).
      assert (P0 : 0 <= inject_Z (Z.of_nat (mu g net p)) * longest_wait g) by (apply Qmult_le_0_compat; [assumption|apply Qlt_le_weak; exact W]). clear - P0.
      generalize dependent (inject_Z (Z.of_nat (mu g net p))). generalize (inject_Z (Z.of_nat (moves_bound g net))). generalize (longest_wait g). intros w z x X. lra. }
    unfold TI in T. unfold finished. destruct (p_phase p); auto; right; (eapply Qle_trans; [|exact CR]); first [exact T|eapply Qle_trans; [apply T|apply T]].
Qed.
(** Two-way connections, some nodes blocked and nothing else, failed hops ignored for
    good: if there is a way around the blocked nodes, the message is never dropped. *)
Theorem C40_delivered_partial g net bd c0 t0 os s tr i p : g_net g = Some net -> wf_net net -> g_global g = true ->
  (forall a b, connected net a b -> connected net b a) ->
  only_nodes bd c0 -> all_confs (only_nodes bd) os -> mrun g (minit c0 t0) os = (s, tr) -> nth_error (ms_procs s) i = Some p ->
  ~ In (p_from p) bd -> ~ In (p_to p) bd -> (exists q, walk (usable net bd) (p_from p) q (p_to p)) ->
  p_phase p <> TDropped /\ ~ gave_up (history i tr) (p_to p).
Proof.
  intros GN WF GG SY O0 OA E N Nf Nt Wq. destruct (avoid_inv g net GN WF GG SY bd _ _ _ _ _ _ _ O0 OA E N) as [NG H]; [split; assumption|exact Nt|].
  split; [|exact NG]. intro Ph. rewrite Ph in H. exact H.
Qed.
(** So then it is delivered within a fixed time. *)
Theorem C40_around_nodes_partial g net bd : g_net g = Some net -> wf_net net -> 0 < g_rate g -> 0 <= g_max g -> g_global g = true ->
  (forall a b, connected net a b -> connected net b a) ->
  exists n, forall c0 t0 os s tr i p, only_nodes bd c0 -> all_confs (only_nodes bd) os -> mrun g (minit c0 t0) os = (s, tr) -> nth_error (ms_procs s) i = Some p ->
    ~ In (p_from p) bd -> ~ In (p_to p) bd -> (exists q, walk (usable net bd) (p_from p) q (p_to p)) -> store_from_actor g (p_to p) <> None ->
    p_start p + inject_Z (Z.of_nat n) * longest_wait g < ms_now s ->
    exists t st, puts (history i tr) = [(t, p_to p, st)].
Proof.
  intros GN WF R0 M0 GG SY. destruct (C40_terminates_partial g net GN WF R0 M0 GG) as [n B]. exists n.
  intros c0 t0 os s tr i p O0 OA E N Nf Nt Wq ST L. destruct (C40_delivered_partial g net bd c0 t0 os s tr i p GN WF GG SY O0 OA E N Nf Nt Wq) as [ND NG].
  destruct (B _ _ _ _ _ _ _ E N NG) as [_ [F|F]]; [|lra].
  destruct (inv39 g net GN WF R0 _ _ _ _ _ E _ _ N) as (v & x & _ & _ & H).
  destruct F as [F|[F|F]]; [|contradiction|]; rewrite F in H.
  - destruct H as (_ & t & st & P & _). exists t, st. exact P.
  - destruct H as (_ & _ & SF). contradiction.
Qed.
(** Example: a square 0-1-3-2-0 with 1 blocked. *)
Definition square : network := connect_all [(0,1,true);(1,3,true);(0,2,true);(2,3,true)]%nat.
Example around_the_square : let '(s, tr) := mrun (routed true square 0) (minit (mkC false [1%nat] []) 0)
    ([OStartRun; OSend 0 3; ORun] ++ gos 5 ++ [OTime 2] ++ gos 4 ++ [OTime 4] ++ gos 4)%nat in
  map p_phase (ms_procs s) = [TDone] /\ moves (history 0 tr) = [(0, 2); (2, 3)]%nat.
Proof. vm_compute. auto. Qed.

(** *** Where it fails *)
(** A neighbour that cannot be reached directly is tried forever, whatever other ways there are. *)
Theorem C40_blocked_neighbour g net a b c0 t0 os s tr i p : g_net g = Some net -> a <> b -> connected net a b ->
  blocked c0 a b = true -> all_confs (fun c => blocked c a b = true) os -> mrun g (minit c0 t0) os = (s, tr) -> nth_error (ms_procs s) i = Some p ->
  p_from p = a -> p_to p = b -> ~ finished p /\ puts (history i tr) = [] /\ moves (history i tr) = [] .
Proof.
  intros GN NE C B0 BA E N Fa Tb. destruct (forever_inv g net GN a b NE C _ _ _ _ _ _ _ B0 BA E N Fa Tb) as (H & P & M).
  split; [|auto]. intros [F|[F|F]]; rewrite F in H; exact H.
Qed.
Definition detour : network := connect_all [(0,1,false);(0,2,false);(2,1,false)]%nat.
Definition cut01 : conf := mkC false [] [(0, 1)]%nat.
Theorem C40_detour_refuted :
  walk (open_link detour cut01) 0 [2; 1]%nat 1 /\
  (forall glob t0 os s tr i p, all_confs (fun c => c = cut01) os -> mrun (routed glob detour 1) (minit cut01 t0) os = (s, tr) ->
    nth_error (ms_procs s) i = Some p -> p_from p = 0%nat -> p_to p = 1%nat -> ~ finished p) /\
  (let '(s, _) := mrun (routed true detour 1) (minit cut01 0) ([OStartRun; OSend 0 1; ORun] ++ gos 3 ++ [OTime 1] ++ gos 4 ++ [OTime 2] ++ gos 2)%nat in
   map p_phase (ms_procs s) = [TSelect 0 [1; 1]]%nat).
Proof.
  split; [|split].
  - apply walk_cons with (y := 2%nat); [split; [vm_compute; auto|reflexivity]|]. apply walk_cons with (y := 1%nat); [split; [vm_compute; auto|reflexivity]|]. constructor.
  - intros glob t0 os s tr i p A E N F T.
    destruct (C40_blocked_neighbour (routed glob detour 1) detour 0 1 cut01 t0 os s tr i p) as [H _]; try assumption; try reflexivity; [discriminate|vm_compute; auto|].
    intros c I. rewrite (A c I). reflexivity.
  - vm_compute. reflexivity.
Qed.
(** With no retries (retry_max_time 0) such a message does not even let time pass. *)
Theorem C40_hang g net a b c0 t0 os s tr i p : g_net g = Some net -> tries g = 0%Z -> a <> b -> connected net a b ->
  blocked c0 a b = true -> all_confs (fun c => blocked c a b = true) os -> mrun g (minit c0 t0) os = (s, tr) -> nth_error (ms_procs s) i = Some p ->
  p_from p = a -> p_to p = b -> ms_now s == p_start p /\ (p_phase p = TNew \/ active (p_phase p) = true).
Proof.
  intros GN T0 NE CAB B0 BA E N Fa Tb.
  pose (J := (fun now p (h : list (Q * out)) => p_from p = a -> p_to p = b -> now == p_start p /\
     match p_phase p with TNew => True | TSelect x _ => x = a | TCheck x y _ k => x = a /\ y = b /\ k = 0%Z | _ => False end)).
  assert (K : J (ms_now s) p (history i tr)).
  { eapply (reach_I g (fun c => blocked c a b = true) J); eauto; unfold J.
    - intros now x y _ _. split; [reflexivity|exact Logic.I].
    - intros c now q h ph l B H G F T. cbn [with_phase p_from p_to p_start p_phase] in *. destruct (H F T) as [S H']. clear H. split; [exact S|].
      unfold go in G. rewrite GN in G. destruct (p_phase q) as [|cur f|x y f k|x y f k due|x y f due|x y f| | | |]; try discriminate; try contradiction.
      + injection G as <- <-. exact F.
      + subst cur. rewrite T, (proj2 (Nat.eqb_neq _ _) NE), (C38_direct _ _ _ _ CAB) in G. injection G as <- <-. auto.
      + destruct H' as (-> & -> & ->). rewrite B, T0 in G. injection G as <- <-. reflexivity.
    - intros now t q h H A L Le F T. destruct (H F T) as [S H']. split; [|exact H']. unfold lets_pass in L. destruct (p_phase q); try discriminate; contradiction. }
  destruct (K Fa Tb) as [S H]. split; [exact S|]. destruct (p_phase p); try contradiction; auto.
Qed.
(** Without global_ignore a message can go back and forth forever although there is an
    open way: 0-1-3 is short but 1 is blocked, 0-2-4-5-6-3 is open, and from 2 the way
    back over 0 and 1 is shorter. *)
Definition pingpong : network := connect_all [(0,1,false);(1,3,false);(0,2,true);(2,4,false);(4,5,false);(5,6,false);(6,3,false)]%nat.
Definition no1 : conf := mkC false [1%nat] [].
Theorem C40_pingpong_refuted :
  walk (open_link pingpong no1) 0 [2; 4; 5; 6; 3]%nat 3 /\
  (forall t0 os s tr i p, all_confs (fun c => c = no1) os -> mrun (routed false pingpong 0) (minit no1 t0) os = (s, tr) ->
    nth_error (ms_procs s) i = Some p -> p_from p = 0%nat -> p_to p = 3%nat -> ~ finished p) /\
  (let '(s, tr) := mrun (routed false pingpong 0) (minit no1 0) ([OStartRun; OSend 0 3; ORun] ++ gos 5 ++ [OTime 2] ++ gos 4 ++ [OTime 4] ++ gos 6 ++ [OTime 6] ++ gos 4 ++ [OTime 8])%nat in
   moves (history 0 tr) = [(0, 2); (2, 0); (0, 2); (2, 0)]%nat).
Proof.
  split; [|split].
  - repeat (eapply walk_cons; [split; [vm_compute; auto|reflexivity]|]). constructor.
  - intros t0 os s tr i p A E N F T.
    pose (J := (fun (now : Q) p (h : list (Q * out)) => p_from p = 0%nat -> p_to p = 3%nat ->
       match p_phase p with
       | TNew => True
       | TSelect 0 f => f = [] \/ f = [1%nat]
       | TSelect 2 f => f = []
       | TCheck 0 1 f k => f = [] /\ k = 0%Z
       | TCheck 0 2 f k | TCheck 2 0 f k => True
       | TSend 0 2 f _ | TMoved 0 2 f | TSend 2 0 f _ | TMoved 2 0 f => True
       | _ => False
       end)).
    assert (K : J (ms_now s) p (history i tr)).
    { eapply (reach_I (routed false pingpong 0) (fun c => c = no1) J); eauto; unfold J.
      - intros now x y _ _. exact Logic.I.
      - intros c now q h ph l -> H G F' T'. cbn [with_phase p_from p_to p_phase] in *. specialize (H F' T').
        unfold go in G. rewrite T' in G.
        destruct (p_phase q) as [|cur f|x y f k|x y f k due|x y f due|x y f| | | |]; try discriminate; try contradiction.
        + injection G as <- <-. rewrite F'. auto.
        + destruct cur as [|[|[|cur]]]; try contradiction.
          * destruct H as [-> | ->]; injection G as <- <-; auto.
          * subst f. injection G as <- <-. exact Logic.I.
        + destruct x as [|[|[|x]]]; try contradiction; destruct y as [|[|[|y]]]; try contradiction.
          * destruct H as [-> ->]. injection G as <- <-. auto.
          * injection G as <- <-. exact Logic.I.
          * injection G as <- <-. exact Logic.I.
        + destruct (Qeqb now due); [|discriminate]. injection G as <- <-. destruct x as [|[|[|x]]]; try contradiction; destruct y as [|[|[|y]]]; try contradiction; exact Logic.I.
        + injection G as <- <-. destruct x as [|[|[|x]]]; try contradiction; destruct y as [|[|[|y]]]; try contradiction; auto. }
    specialize (K F T). intros [H|[H|H]]; rewrite H in K; exact K.
  - vm_compute. reflexivity.
Qed.
(** global_ignore ignores the node, not the link: dropped although 0-2-1-3 is open. *)
Definition diamond : network := connect_all [(0,1,false);(0,2,false);(2,1,false);(1,3,false)]%nat.
Theorem C40_ignored_node_refuted :
  walk (open_link diamond cut01) 0 [2; 1; 3]%nat 3 /\
  let '(s, tr) := mrun (routed true diamond 0) (minit cut01 0) ([OStartRun; OSend 0 3; ORun] ++ gos 4)%nat in map p_phase (ms_procs s) = [TDropped].
Proof. split; [|vm_compute; reflexivity]. repeat (eapply walk_cons; [split; [vm_compute; auto|reflexivity]|]). constructor. Qed.
(** One-way connections: a message that has moved to a dead end is dropped there although
    its sender had an open way (0-2-5-6-3). *)
Definition trap : network := connect_all [(0,1,false);(1,4,false);(4,3,false);(0,2,false);(2,5,false);(5,6,false);(6,3,false)]%nat.
Definition no4 : conf := mkC false [4%nat] [].
Theorem C40_dead_end_refuted :
  walk (open_link trap no4) 0 [2; 5; 6; 3]%nat 3 /\
  let '(s, tr) := mrun (routed true trap 0) (minit no4 0) ([OStartRun; OSend 0 3; ORun] ++ gos 3 ++ [OTime 2] ++ gos 5)%nat in map p_phase (ms_procs s) = [TDropped].
Proof. split; [|vm_compute; reflexivity]. repeat (eapply walk_cons; [split; [vm_compute; auto|reflexivity]|]). constructor. Qed.

Print Assumptions C37_blocked.
Print Assumptions C37_direction.
Print Assumptions C37_attempt_truth.
Print Assumptions C36_attempts.
Print Assumptions C36_delivered.
Print Assumptions C36_dropped.
Print Assumptions C36_no_store.
Print Assumptions C36_not_before.
Print Assumptions C36_iff.
Print Assumptions C36_progress.
Print Assumptions C36_deadline.
Print Assumptions C36_bounded.
Print Assumptions C36_order.
Print Assumptions C63_connected.
Print Assumptions C63_choice.
Print Assumptions C39_walk.
Print Assumptions C39_delivered.
Print Assumptions C39_dropped.
Print Assumptions C39_deadline.
Print Assumptions C39_progress.
Print Assumptions C40_terminates_partial.
Print Assumptions C40_delivered_partial.
Print Assumptions C40_around_nodes_partial.
Print Assumptions C40_blocked_neighbour.
Print Assumptions C40_detour_refuted.
Print Assumptions C40_hang.
Print Assumptions C40_pingpong_refuted.
Print Assumptions C40_ignored_node_refuted.
Print Assumptions C40_dead_end_refuted.
Print Assumptions C36_tries.

Print Assumptions C36_running.
Print Assumptions C36_taken.
Print Assumptions C36_clock.
