(** Proofs about the comms managers. *)
From Coq Require Import Qround.
From Verif Require Import Common RouteModel RouteSpec RouteProofs RouteProps ActiveModel CommsModel CommsSpec.

Lemma history_app i a b : history i (a ++ b) = history i a ++ history i b.
Proof. apply flat_map_app. Qed.
Lemma history_own i t l : history i (map (fun x => (i, t, x)) l) = map (fun x => (t, x)) l.
Proof. induction l as [|x l IH]; [reflexivity|]. cbn. rewrite Nat.eqb_refl. cbn. f_equal. exact IH. Qed.
Lemma history_other i j t l : i <> j -> history j (map (fun x => (i, t, x)) l) = [].
Proof. intro N. induction l as [|x l IH]; [reflexivity|]. cbn. apply Nat.eqb_neq in N. rewrite N. exact IH. Qed.
Lemma nth_upd {B} (l : list B) i x j : nth_error (upd i x l) j = if Nat.eqb i j then match nth_error l i with Some _ => Some x | None => None end else nth_error l j.
Proof.
  revert i j. induction l as [|a l IH]; intros i j.
  - destruct i, j; cbn; try reflexivity. destruct (Nat.eqb i j); reflexivity.
  - destruct i as [|i], j as [|j]; cbn; try reflexivity. apply IH.
Qed.
Lemma upd_len {B} (l : list B) i x : length (upd i x l) = length l.
Proof. revert i. induction l as [|a l IH]; intros [|i]; cbn; auto. Qed.

(** ** Invariants of one message, kept by the manager *)
Section Inv.
Variable g : mgr.
Variable Pc : conf -> Prop.
Variable I : Q -> proc -> list (Q * out) -> Prop.
Definition with_phase (p : proc) (ph : phase) : proc := mkP (p_from p) (p_to p) (p_start p) ph.
Hypothesis I_new : forall now a b, I now (mkP a b now TNew) [].
Hypothesis I_go : forall c now p h ph l, Pc c -> I now p h -> go g c now p = Some (ph, l) -> I now (with_phase p ph) (h ++ map (fun x => (now, x)) l).
Hypothesis I_time : forall now t p h, I now p h -> active (p_phase p) = false -> lets_pass t p = true -> now <= t -> I t p h.
Definition MI (s : mst) (tr : list (nat * Q * out)) : Prop :=
  Pc (ms_conf s) /\ (forall i p, nth_error (ms_procs s) i = Some p -> I (ms_now s) p (history i tr)) /\
  (forall i, (length (ms_procs s) <= i)%nat -> history i tr = []).
Lemma step_MI s o s' l tr : MI s tr -> (forall c, o = OConf c -> Pc c) -> mstep g s o = (s', l) -> MI s' (tr ++ l).
Proof.
  intros (C & P & F) PC E. assert (SAME : MI s (tr ++ [])) by (rewrite app_nil_r; unfold MI; auto).
  destruct o as [c| |a b| |i|t]; unfold mstep in E.
  1-4: destruct (idle s) eqn:ID; [|injection E as <- <-; exact SAME].
  - injection E as <- <-. rewrite app_nil_r. split; [apply PC; reflexivity|split; assumption].
  - injection E as <- <-. rewrite app_nil_r. split; [exact C|split; assumption].
  - injection E as <- <-. rewrite app_nil_r. split; [exact C|split; assumption].
  - destruct (ms_running s), (ms_in s) as [|[a b] q]; try (injection E as <- <-; exact SAME). injection E as <- <-. rewrite app_nil_r.
    split; [exact C|]. cbn [ms_procs ms_now]. split.
    + intros i p H. destruct (Nat.lt_ge_cases i (length (ms_procs s))) as [L|L]; [rewrite nth_error_app1 in H by exact L; apply P; exact H|].
      rewrite nth_error_app2 in H by exact L. rewrite (F i L). destruct (i - length (ms_procs s))%nat as [|n]; cbn in H; [injection H as <-; apply I_new|].
      destruct n; discriminate.
    + intros i L. rewrite app_length in L. cbn in L. apply F. lia.
  - destruct (nth_error (ms_procs s) i) as [p|] eqn:N; [|injection E as <- <-; exact SAME].
    destruct (active (p_phase p) || idle s); [|injection E as <- <-; exact SAME].
    destruct (go g (ms_conf s) (ms_now s) p) as [[ph out]|] eqn:G; [|injection E as <- <-; exact SAME].
    injection E as <- <-. split; [exact C|]. cbn [ms_procs ms_now]. split.
    + intros j q H. rewrite nth_upd in H. rewrite history_app. destruct (Nat.eqb i j) eqn:Eij.
      * apply Nat.eqb_eq in Eij. subst j. rewrite N in H. injection H as <-. rewrite history_own. eapply I_go; eauto.
      * apply Nat.eqb_neq in Eij. rewrite history_other by exact Eij. rewrite app_nil_r. apply P. exact H.
    + intros j L. rewrite upd_len in L. rewrite history_app, history_other, app_nil_r; [apply F; exact L|]. intros ->.
      assert (j < length (ms_procs s))%nat by (apply nth_error_Some; congruence). lia.
  - destruct (idle s) eqn:ID; [|injection E as <- <-; exact SAME].
    destruct (Qleb (ms_now s) t && forallb (lets_pass t) (ms_procs s) && (negb (ms_running s) || match ms_in s with [] => true | _ => false end)) eqn:B;
      injection E as <- <-; [|exact SAME]. rewrite app_nil_r. apply andb_true_iff in B. destruct B as [B _]. apply andb_true_iff in B. destruct B as [B1 B2].
    split; [exact C|]. cbn [ms_procs ms_now]. split; [|exact F]. intros i p H. pose proof (nth_error_In _ _ H) as IN.
    eapply I_time; [apply P; exact H| | |].
    + unfold idle in ID. rewrite forallb_forall in ID. apply ID in IN. apply negb_true_iff in IN. exact IN.
    + rewrite forallb_forall in B2. apply B2. exact IN.
    + qbool. exact B1.
Qed.
Lemma run_MI os : forall s tr, MI s tr -> all_confs Pc os -> MI (fst (mrun g s os)) (tr ++ snd (mrun g s os)).
Proof.
  induction os as [|o os IH]; intros s tr M PC; cbn [mrun].
  - cbn. rewrite app_nil_r. exact M.
  - destruct (mstep g s o) as [s1 l1] eqn:E. assert (M1 : MI s1 (tr ++ l1)).
    { eapply step_MI; eauto. intros c ->. apply PC. left. reflexivity. }
    specialize (IH s1 (tr ++ l1) M1). destruct (mrun g s1 os) as [s2 l2]. cbn in *. rewrite app_assoc. apply IH. intros c H. apply PC. right. exact H.
Qed.
Lemma reach_I c0 t0 os s tr i p : Pc c0 -> all_confs Pc os -> mrun g (minit c0 t0) os = (s, tr) -> nth_error (ms_procs s) i = Some p ->
  I (ms_now s) p (history i tr).
Proof.
  intros P0 PC E N. assert (M0 : MI (minit c0 t0) []). { split; [exact P0|]. split; [|reflexivity]. intros j q H. destruct j; discriminate. }
  pose proof (run_MI os _ _ M0 PC) as (_ & M & _). rewrite E in M. apply M. exact N.
Qed.
End Inv.

Lemma waited_nil rate t0 a b : waited rate t0 a b 0 [].
Proof. split; [reflexivity|]. intros [|j] e H; discriminate. Qed.
Lemma waited_snoc rate t0 a b k w t : waited rate t0 a b k w -> t == t0 + inject_Z (Z.of_nat k) * rate -> waited rate t0 a b (S k) (w ++ [(t, OCheck a b true)]).
Proof.
  intros [L W] T. split; [rewrite app_length; cbn; lia|]. intros j e H. destruct (Nat.lt_ge_cases j k) as [J|J].
  - rewrite nth_error_app1 in H by lia. apply W. exact H.
  - rewrite nth_error_app2 in H by lia. rewrite L in H. destruct (j - k)%nat as [|n] eqn:D; cbn in H; [|destruct n; discriminate].
    injection H as <-. assert (j = k) by lia. subst j. auto.
Qed.
Lemma tries_nonneg g : 0 < g_rate g -> 0 <= g_max g -> (0 <= tries g)%Z.
Proof.
  intros R M. unfold tries. assert (D : 0 <= g_max g / g_rate g) by (apply Qle_shift_div_l; [exact R|lra]).
  pose proof (Qle_ceiling (g_max g / g_rate g)) as C. assert (H : inject_Z 0 <= inject_Z (Qceiling (g_max g / g_rate g))) by (change (inject_Z 0) with 0; lra).
  rewrite <- Zle_Qle in H. exact H.
Qed.

(** ** Point to point *)
Lemma all_true os : all_confs (fun _ => True) os.
Proof. intros c _. exact Logic.I. Qed.

Section PtP.
Variable g : mgr.
Hypothesis NR : g_net g = None.
Hypothesis R0 : 0 < g_rate g.
Hypothesis N0 : (0 <= tries g)%Z.
Definition at_try (p : proc) (k : nat) : Q := p_start p + inject_Z (Z.of_nat k) * g_rate g.
Definition sentence (p : proc) (h : list (Q * out)) (rest : Q -> list (Q * out) -> Prop) : Prop :=
  exists k w t, (Z.of_nat k <= tries g)%Z /\ waited (g_rate g) (p_start p) (p_from p) (p_to p) k w /\ t == at_try p k /\
    exists r, h = w ++ (t, OCheck (p_from p) (p_to p) false) :: r /\ rest t r.
Definition PI (now : Q) (p : proc) (h : list (Q * out)) : Prop :=
  match p_phase p with
  | TNew => h = [] /\ now == p_start p
  | TCheck a b f k => a = p_from p /\ b = p_to p /\ exists n, k = Z.of_nat n /\ (k <= tries g)%Z /\
      waited (g_rate g) (p_start p) a b n h /\ now == at_try p n
  | TRetry a b f k due => a = p_from p /\ b = p_to p /\ exists n, k = Z.of_nat n /\ (k <= tries g)%Z /\
      waited (g_rate g) (p_start p) a b n h /\ due == at_try p n /\ now <= due
  | TSend _ _ _ due => sentence p h (fun t r => r = [] /\ due == t + hop_time g /\ now <= due)
  | TMoved _ _ _ => sentence p h (fun t r => r = [] /\ now == t + hop_time g)
  | TArrive => sentence p h (fun t r => exists t2, r = [(t2, OSent)] /\ t2 == t + hop_time g /\ now == t2)
  | TDone => sentence p h (fun t r => exists t2 t3 s, r = [(t2, OSent); (t3, OPut (p_to p) s)] /\ t2 == t + hop_time g /\ t3 == t2 /\ store_from_actor g (p_to p) = Some s)
  | TRaised => sentence p h (fun t r => exists t2 t3, r = [(t2, OSent); (t3, OError)] /\ t2 == t + hop_time g /\ t3 == t2 /\ store_from_actor g (p_to p) = None)
  | TDropped => exists n w t, Z.of_nat n = tries g /\ waited (g_rate g) (p_start p) (p_from p) (p_to p) n w /\ t == at_try p n /\
      h = w ++ [(t, OCheck (p_from p) (p_to p) true); (t, OStop (p_from p) (p_to p))]
  | TSelect _ _ => False
  end.
Lemma sent_weak p h (P R : Q -> list (Q * out) -> Prop) : sentence p h P -> (forall t r, P t r -> R t r) -> sentence p h R.
Proof. intros (k & w & t & A & B & C & r & D & E) H. exists k, w, t. repeat (split; [assumption|]). exists r. auto. Qed.
Lemma PI_go c now p h ph l : PI now p h -> go g c now p = Some (ph, l) -> PI now (with_phase p ph) (h ++ map (fun x => (now, x)) l).
Proof.
  unfold PI, go. rewrite NR. destruct (p_phase p) as [|cur f|a b f k|a b f k due|a b f due|a b f| | | |] eqn:Ph; intros H G; cbn [with_phase p_phase p_from p_to p_start]; try discriminate; try contradiction.
  - injection G as <- <-. destruct H as [-> T]. cbn [p_phase]. split; [reflexivity|]. split; [reflexivity|]. exists 0%nat. split; [reflexivity|]. split; [exact N0|].
    cbn [map app]. split; [apply waited_nil|]. unfold at_try. cbn. change (inject_Z 0) with 0. lra.
  - destruct H as (-> & -> & n & -> & L & W & T). destruct (blocked c (p_from p) (p_to p)) eqn:B.
    + destruct (Z.of_nat n =? tries g)%Z eqn:Z.
      * injection G as <- <-. cbn [p_phase map]. apply Z.eqb_eq in Z. exists n, h, now. auto.
      * injection G as <- <-. cbn [p_phase map]. apply Z.eqb_neq in Z. split; [reflexivity|]. split; [reflexivity|]. exists (S n). split; [lia|]. split; [lia|].
        split; [apply waited_snoc; [exact W|exact T]|]. unfold at_try in *. cbn [with_phase p_start]. rewrite Nat2Z.inj_succ, <- Z.add_1_r, inject_Z_plus. change (inject_Z 1) with 1. split; [lra|].
        rewrite <- (Qplus_0_r now) at 1. apply Qplus_le_r. lra.
    + injection G as <- <-. cbn [map]. destruct (Qltb 0 (g_send g)) eqn:Sd; cbn [p_phase]; exists n, h, now; (split; [exact L|]); (split; [exact W|]); (split; [exact T|]);
        exists []; (split; [reflexivity|]); (split; [reflexivity|]); unfold hop_time; rewrite Sd; [|ring].
      split; [reflexivity|]. qbool. lra.
  - destruct H as (-> & -> & n & -> & L & W & D & T). destruct (Qeqb now due) eqn:E; [|discriminate]. injection G as <- <-. cbn [p_phase map]. rewrite app_nil_r.
    split; [reflexivity|]. split; [reflexivity|]. exists n. repeat (split; [first [reflexivity|assumption]|]). qbool. unfold at_try in *. cbn [with_phase p_start]. lra.
  - destruct (Qeqb now due) eqn:E; [|discriminate]. injection G as <- <-. cbn [p_phase map]. rewrite app_nil_r. eapply sent_weak; [exact H|]. cbn beta. intros t r (-> & D & T).
    split; [reflexivity|]. qbool. lra.
  - injection G as <- <-. cbn [p_phase map]. destruct H as (k & w & t & A & B & C & r & -> & -> & T). exists k, w, t. repeat (split; [assumption|]).
    exists [(now, OSent)]. split; [rewrite <- app_assoc; reflexivity|]. exists now. auto using Qeq_refl.
  - destruct H as (k & w & t & A & B & C & r & -> & t2 & -> & T2 & T). destruct (store_from_actor g (p_to p)) as [s|] eqn:SF; injection G as <- <-; cbn [p_phase map];
      exists k, w, t; repeat (split; [assumption|]).
    + exists [(t2, OSent); (now, OPut (p_to p) s)]. split; [rewrite <- app_assoc; reflexivity|]. exists t2, now, s. auto.
    + exists [(t2, OSent); (now, OError)]. split; [rewrite <- app_assoc; reflexivity|]. exists t2, now. auto.
Qed.
Lemma PI_time now t p h : PI now p h -> active (p_phase p) = false -> lets_pass t p = true -> now <= t -> PI t p h.
Proof.
  unfold PI, lets_pass. destruct (p_phase p) as [|cur f|a b f k|a b f k due|a b f due|a b f| | | |]; cbn [active]; intros H A L T; try discriminate; try exact H.
  - destruct H as (-> & -> & n & -> & Le & W & D & _). split; [reflexivity|]. split; [reflexivity|]. exists n. repeat (split; [first [reflexivity|assumption]|]). qbool. exact L.
  - eapply sent_weak; [exact H|]. cbn beta. intros u r (-> & D & _). qbool. auto.
Qed.
Lemma ptp_inv c0 t0 os s tr i p : mrun g (minit c0 t0) os = (s, tr) -> nth_error (ms_procs s) i = Some p -> PI (ms_now s) p (history i tr).
Proof.
  intros E N. eapply (reach_I g (fun _ => True) PI); eauto.
  - intros now a b. split; [reflexivity|]. cbn. reflexivity.
  - intros c now q h ph l _. apply PI_go.
  - apply PI_time.
  - apply all_true.
Qed.
End PtP.

(** ** Routing *)
Lemma legs_app (E : nat -> nat -> Prop) x p y q : walk E x p y -> legs x (p ++ [q]) = legs x p ++ [(y, q)].
Proof. induction 1 as [|x y p z _ _ IH]; [reflexivity|]. cbn [app legs]. rewrite IH. reflexivity. Qed.
Lemma walk_snoc' (E : nat -> nat -> Prop) x p y z : walk E x p y -> E y z -> walk E x (p ++ [z]) z.
Proof. induction 1; intro H1; cbn; econstructor; eauto. constructor. Qed.
Lemma walk_trans (E : nat -> nat -> Prop) x p y q z : walk E x p y -> walk E y q z -> walk E x (p ++ q) z.
Proof. induction 1; cbn; [auto|]. intro. econstructor; eauto. Qed.
Lemma moves_app a b : moves (a ++ b) = moves a ++ moves b.
Proof. apply flat_map_app. Qed.
Lemma puts_app a b : puts (a ++ b) = puts a ++ puts b.
Proof. apply flat_map_app. Qed.
Lemma nb_app a b : never_blocked (a ++ b) -> never_blocked a /\ never_blocked b.
Proof. intro H. split; intros t x y I; apply (H t x y); apply in_or_app; auto. Qed.
Lemma usable_nil net x y : usable net [] x y <-> connected net x y.
Proof. unfold usable. cbn. tauto. Qed.

Section Route.
Variable g : mgr.
Variable net : network.
Hypothesis GN : g_net g = Some net.
Hypothesis WF : wf_net net.
Hypothesis R0 : 0 < g_rate g.
Local Notation E := (connected net).
Definition onway (p : proc) (v : list nat) (x : nat) : Prop :=
  (forall p', walk E (p_from p) p' (p_to p) -> exists q, walk E x q (p_to p) /\ (length v + length q <= length p')%nat) /\
  (v = [] \/ exists q, walk E x q (p_to p)).
Definition at_hop (p : proc) (v : list nat) : Q := p_start p + inject_Z (Z.of_nat (length v)) * hop_time g.
Definition RI (now : Q) (p : proc) (h : list (Q * out)) : Prop :=
  exists v x, moves h = legs (p_from p) v /\ walk E (p_from p) v x /\
  match p_phase p with
  | TNew => x = p_from p /\ v = [] /\ h = [] /\ now == p_start p
  | TSelect cur f => x = cur /\ puts h = [] /\ (never_blocked h -> f = [] /\ onway p v x /\ now == at_hop p v)
  | TCheck cur hop f k => x = cur /\ cur <> p_to p /\ E cur hop /\ puts h = [] /\ (never_blocked h -> f = [] /\ onway p (v ++ [hop]) hop /\ now == at_hop p v)
  | TRetry cur hop f k due => x = cur /\ cur <> p_to p /\ E cur hop /\ puts h = [] /\ ~ never_blocked h /\ now <= due
  | TSend cur hop f due => x = hop /\ v <> [] /\ puts h = [] /\ (never_blocked h -> f = [] /\ onway p v x /\ due == at_hop p v) /\ now <= due
  | TMoved cur hop f => x = hop /\ puts h = [] /\ (never_blocked h -> f = [] /\ onway p v x /\ now == at_hop p v)
  | TArrive => x = p_to p /\ puts h = [] /\ (never_blocked h -> onway p v x /\ now == at_hop p v)
  | TDone => x = p_to p /\ exists t s, puts h = [(t, p_to p, s)] /\ store_from_actor g (p_to p) = Some s /\ (never_blocked h -> onway p v x /\ t == at_hop p v)
  | TRaised => x = p_to p /\ puts h = [] /\ store_from_actor g (p_to p) = None
  | TDropped => puts h = [] /\ x <> p_to p /\ (never_blocked h -> onway p v x /\ no_way E x (p_to p))
  end.
Lemma RI_go c now p h ph l : RI now p h -> go g c now p = Some (ph, l) -> RI now (with_phase p ph) (h ++ map (fun x => (now, x)) l).
Proof.
  intros (v & x & M & W & H). unfold go, RI. rewrite GN. unfold with_phase. cbn [p_phase p_from p_to p_start].
  rewrite moves_app, puts_app. 
  destruct (p_phase p) as [|cur f|a b f k|a b f k due|a b f due|a b f| | | |] eqn:Ph; intro G; try discriminate.
  - injection G as <- <-. destruct H as (-> & -> & -> & T). exists [], (p_from p). cbn. split; [reflexivity|]. split; [constructor|]. split; [reflexivity|]. split; [reflexivity|].
    intros _. split; [reflexivity|]. split; [split; [intros p' Wp; exists p'; split; [exact Wp|apply le_n]|left; reflexivity]|]. unfold at_hop. cbn. change (inject_Z 0) with 0. lra.
  - destruct H as (-> & P & NB). destruct (Nat.eqb cur (p_to p)) eqn:C.
    + injection G as <- <-. apply Nat.eqb_eq in C. cbn. rewrite !app_nil_r. exists v, cur. split; [exact M|]. split; [exact W|]. split; [exact C|]. split; [exact P|].
      intro Hn. apply nb_app in Hn. destruct Hn as [Hn _]. destruct (NB Hn) as (_ & O & T). auto.
    + apply Nat.eqb_neq in C. destruct (select_hop net cur (p_to p) f) as [[hop|]|] eqn:SH; [| |discriminate]; injection G as <- <-; cbn; rewrite !app_nil_r.
      * exists v, cur. split; [exact M|]. split; [exact W|]. split; [reflexivity|]. split; [exact C|]. split; [apply (C38_hop_connected _ _ _ _ _ WF SH)|]. split; [exact P|].
        intro Hn. destruct (NB Hn) as (-> & O & T). split; [reflexivity|]. split; [|exact T].
        destruct O as [O _].
        destruct (C38_hop_partial net cur (p_to p) [] WF) as [(h' & r & SH' & S)|[SH' _]]; [intros []|intros []| |congruence].
        rewrite SH in SH'. injection SH' as <-. apply (shortest_ext _ E) in S; [|intros; apply usable_nil]. destruct S as (S1 & _ & S3).
        inversion S1 as [|? ? ? ? _ Wr]; subst. split; [|right; exists r; exact Wr]. intros p' Wp. destruct (O p' Wp) as (q & Wq & L).
        exists r. split; [exact Wr|]. rewrite app_length. cbn [length].
        assert (NE : q <> []) by (intros ->; inversion Wq; congruence). specialize (S3 q Wq NE). cbn in S3. lia.
      * exists v, cur. split; [exact M|]. split; [exact W|]. split; [exact P|]. split; [exact C|]. intro Hn. apply nb_app in Hn. destruct Hn as [Hn _].
        destruct (NB Hn) as (-> & O & T). split; [exact O|]. destruct (C38_hop_partial net cur (p_to p) [] WF) as [(h' & r & SH' & S)|[SH' S]]; [intros []|intros []|congruence|].
        intros q Wq. apply S. apply (walk_ext _ E); [intros; apply usable_nil|exact Wq].
  - destruct H as (-> & C & EE & P & NB). destruct (blocked c a b) eqn:B.
    + destruct (k =? tries g)%Z; injection G as <- <-; cbn; rewrite !app_nil_r; exists v, a; (split; [exact M|]); (split; [exact W|]).
      * split; [reflexivity|]. split; [exact P|]. intro Hn. exfalso. apply (Hn now a b). apply in_or_app. right. left. reflexivity.
      * split; [reflexivity|]. split; [exact C|]. split; [exact EE|]. split; [exact P|]. split; [|lra]. intro Hn. apply (Hn now a b). apply in_or_app. right. left. reflexivity.
    + injection G as <- <-. assert (M' : moves h ++ [(a, b)] = legs (p_from p) (v ++ [b])).
      { rewrite M, (legs_app _ _ _ _ b W). reflexivity. }
      assert (W' : walk E (p_from p) (v ++ [b]) b) by (eapply walk_snoc'; eauto).
      assert (AT : at_hop p (v ++ [b]) == at_hop p v + (if Qltb 0 (g_send g) then g_send g else 0)).
      { unfold at_hop. rewrite app_length. cbn [length]. rewrite Nat2Z.inj_add, inject_Z_plus. change (inject_Z (Z.of_nat 1)) with 1. unfold hop_time. ring. }
      destruct (Qltb 0 (g_send g)) eqn:Sd; cbn; rewrite !app_nil_r; exists (v ++ [b]), b; (split; [exact M'|]); (split; [exact W'|]); (split; [reflexivity|]).
      * split; [intro X; destruct v; discriminate|]. split; [exact P|]. split; [|qbool; lra]. intro Hn. apply nb_app in Hn. destruct Hn as [Hn _]. destruct (NB Hn) as (-> & O & T). split; [reflexivity|]. split; [exact O|].
        unfold at_hop in *. cbn [p_start]. lra.
      * split; [exact P|]. intro Hn. apply nb_app in Hn. destruct Hn as [Hn _]. destruct (NB Hn) as (-> & O & T). split; [reflexivity|]. split; [exact O|].
        unfold at_hop in *. cbn [p_start]. lra.
  - destruct H as (-> & C & EE & P & NB & T). destruct (Qeqb now due); [|discriminate]. injection G as <- <-. cbn. rewrite !app_nil_r. exists v, a.
    repeat (split; [first [assumption|reflexivity]|]). intro Hn. contradiction.
  - destruct H as (-> & NV & P & NB & T). destruct (Qeqb now due) eqn:Eq; [|discriminate]. injection G as <- <-. cbn. rewrite !app_nil_r. exists v, b.
    repeat (split; [first [assumption|reflexivity]|]). intro Hn. destruct (NB Hn) as (-> & O & D). split; [reflexivity|]. split; [exact O|]. qbool. unfold at_hop in *. cbn [p_start]. lra.
  - destruct H as (-> & P & NB). injection G as <- <-. cbn. rewrite !app_nil_r. exists v, b.
    repeat (split; [first [assumption|reflexivity]|]). intro Hn. destruct (NB Hn) as (-> & O & D). split; [destruct (g_global g); reflexivity|]. auto.
  - destruct H as (-> & P & NB). destruct (store_from_actor g (p_to p)) as [s|] eqn:SF; injection G as <- <-; cbn; rewrite ?app_nil_r; exists v, (p_to p);
      repeat (split; [first [assumption|reflexivity]|]); [|auto].
    exists now, s. rewrite P. split; [reflexivity|]. split; [reflexivity|]. intro Hn. apply nb_app in Hn. destruct Hn as [Hn _]. exact (NB Hn).
Qed.
Lemma RI_time now t p h : RI now p h -> active (p_phase p) = false -> lets_pass t p = true -> now <= t -> RI t p h.
Proof.
  intros (v & x & M & W & H). unfold RI, lets_pass. destruct (p_phase p) as [|cur f|a b f k|a b f k due|a b f due|a b f| | | |]; cbn [active]; intros A L T; try discriminate;
    exists v, x; (split; [exact M|]); (split; [exact W|]); try exact H; qbool; tauto.
Qed.
Lemma route_inv c0 t0 os s tr i p : mrun g (minit c0 t0) os = (s, tr) -> nth_error (ms_procs s) i = Some p -> RI (ms_now s) p (history i tr).
Proof.
  intros Eq N. eapply (reach_I g (fun _ => True) RI); eauto.
  - intros now a b. exists [], a. cbn. split; [reflexivity|]. split; [constructor|]. repeat (split; [reflexivity|]). reflexivity.
  - intros c now q h ph l _. apply RI_go.
  - apply RI_time.
  - apply all_true.
Qed.
End Route.

(** ** Counting the moves of a message *)
Lemma step_keeps g s o i p : nth_error (ms_procs s) i = Some p -> exists ph, nth_error (ms_procs (fst (mstep g s o))) i = Some (with_phase p ph).
Proof.
  intro N. assert (SAME : exists ph, nth_error (ms_procs s) i = Some (with_phase p ph)) by (exists (p_phase p); rewrite N; destruct p; reflexivity).
  destruct o as [c| |a b| |j|t]; unfold mstep.
  1-4: destruct (idle s); [|exact SAME].
  1-3: exact SAME.
  - destruct (ms_running s), (ms_in s) as [|[a b] q]; try exact SAME. cbn. rewrite nth_error_app1; [exact SAME|]. apply nth_error_Some. congruence.
  - destruct (nth_error (ms_procs s) j) as [q|] eqn:Nj; [|exact SAME]. destruct (active (p_phase q) || idle s); [|exact SAME].
    destruct (go g (ms_conf s) (ms_now s) q) as [[ph l]|]; [|exact SAME]. cbn. rewrite nth_upd. destruct (Nat.eqb j i) eqn:Eji; [|exact SAME].
    apply Nat.eqb_eq in Eji. subst j. rewrite Nj in *. injection N as ->. exists ph. reflexivity.
  - destruct (idle s); [|exact SAME]. destruct (_ && _); exact SAME.
Qed.
Lemma run_keeps g os : forall s i p, nth_error (ms_procs s) i = Some p -> exists ph, nth_error (ms_procs (fst (mrun g s os))) i = Some (with_phase p ph).
Proof.
  induction os as [|o os IH]; intros s i p N; cbn [mrun].
  - exists (p_phase p). cbn. rewrite N. destruct p; reflexivity.
  - destruct (step_keeps g s o i p N) as [ph N1]. destruct (mstep g s o) as [s1 l1]. cbn [fst] in N1. destruct (IH s1 i _ N1) as [ph2 N2].
    destruct (mrun g s1 os) as [s2 l2]. cbn [fst] in *. exists ph2. exact N2.
Qed.

Section Count.
Variable g : mgr.
Variable Pc : conf -> Prop.
Variable I : Q -> proc -> list (Q * out) -> Prop.
Variable bad : nat -> list (Q * out) -> Prop.
Variable mu : proc -> nat.
Variable B : nat.
Hypothesis I_new : forall now a b, I now (mkP a b now TNew) [].
Hypothesis I_go : forall c now p h ph l, Pc c -> I now p h -> go g c now p = Some (ph, l) -> I now (with_phase p ph) (h ++ map (fun x => (now, x)) l).
Hypothesis I_time : forall now t p h, I now p h -> active (p_phase p) = false -> lets_pass t p = true -> now <= t -> I t p h.
Hypothesis bad_app : forall d a b, bad d a -> bad d (a ++ b).
Hypothesis mu_new : forall a b t, (mu (mkP a b t TNew) <= B)%nat.
Hypothesis mu_go : forall c now p h ph l, Pc c -> I now p h -> go g c now p = Some (ph, l) ->
  ~ bad (p_to p) (h ++ map (fun x => (now, x)) l) -> (S (mu (with_phase p ph)) <= mu p)%nat.
Definition pot (s : mst) (i : nat) : nat := match nth_error (ms_procs s) i with Some p => mu p | None => B end.
Lemma count os : forall s tr i, MI Pc I s tr -> all_confs Pc os ->
  (forall p, nth_error (ms_procs (fst (mrun g s os))) i = Some p -> ~ bad (p_to p) (history i (tr ++ snd (mrun g s os)))) ->
  (busy g s os i <= pot s i)%nat.
Proof.
  induction os as [|o os IH]; intros s tr i M PC NB; [apply Nat.le_0_l|]. cbn [busy].
  destruct (mstep g s o) as [s1 l1] eqn:E. cbn [mrun] in NB. rewrite E in NB. cbn [fst].
  assert (M1 : MI Pc I s1 (tr ++ l1)). { eapply step_MI; eauto. intros c ->. apply PC. left. reflexivity. }
  assert (PC1 : all_confs Pc os) by (intros c H; apply PC; right; exact H).
  assert (NB1 : forall p, nth_error (ms_procs (fst (mrun g s1 os))) i = Some p -> ~ bad (p_to p) (history i ((tr ++ l1) ++ snd (mrun g s1 os)))).
  { intros p N. rewrite <- app_assoc. destruct (mrun g s1 os) as [s2 l2]. cbn [fst snd] in *. apply NB. exact N. }
  specialize (IH s1 (tr ++ l1) i M1 PC1 NB1).
  assert (STEP : ((if moves_now g s o i then 1 else 0) + pot s1 i <= pot s i)%nat); [|lia]. clear IH.
  assert (ZERO : moves_now g s o i = false -> pot s1 i = pot s i -> ((if moves_now g s o i then 1 else 0) + pot s1 i <= pot s i)%nat).
  { intros -> ->. apply le_n. }
  destruct o as [c| |a b| |j|t]; unfold mstep in E.
  1-4: destruct (idle s) eqn:ID; [|injection E as <- <-; apply ZERO; reflexivity].
  1-3: injection E as <- <-; apply ZERO; reflexivity.
  - destruct (ms_running s), (ms_in s) as [|[a b] q]; try (injection E as <- <-; apply ZERO; reflexivity). injection E as <- <-. cbn [moves_now]. unfold pot. cbn [ms_procs].
    destruct (Nat.lt_ge_cases i (length (ms_procs s))) as [L|L].
    + rewrite nth_error_app1 by exact L. apply le_n.
    + rewrite nth_error_app2 by exact L. rewrite (proj2 (nth_error_None _ _) L). destruct (i - length (ms_procs s))%nat as [|n]; [apply mu_new|]. destruct n; apply le_n.
  - cbn [moves_now] in *. destruct (nth_error (ms_procs s) j) as [q|] eqn:Nj.
    2:{ injection E as <- <-. destruct (Nat.eqb j i) eqn:Eji; cbn [andb]; [|apply le_n]. apply Nat.eqb_eq in Eji. subst j. rewrite Nj. apply le_n. }
    destruct (active (p_phase q) || idle s) eqn:AC.
    2:{ injection E as <- <-. destruct (Nat.eqb j i) eqn:Eji; cbn [andb]; [|apply le_n]. apply Nat.eqb_eq in Eji. subst j. rewrite Nj, AC. apply le_n. }
    destruct (go g (ms_conf s) (ms_now s) q) as [[ph l]|] eqn:G.
    2:{ injection E as <- <-. destruct (Nat.eqb j i) eqn:Eji; cbn [andb]; [|apply le_n]. apply Nat.eqb_eq in Eji. subst j. rewrite Nj, AC, G. apply le_n. }
    injection E as <- <-. unfold pot. cbn [ms_procs]. rewrite nth_upd. destruct (Nat.eqb j i) eqn:Eji; cbn [andb]; [|apply le_n].
    apply Nat.eqb_eq in Eji. subst j. rewrite Nj, AC, G. cbn [andb]. destruct M as (MC & MP & MF).
    apply (mu_go _ _ _ _ _ _ MC (MP i q Nj) G).
    set (s1 := mkMS (ms_conf s) (ms_now s) (ms_running s) (ms_in s) (upd i (with_phase q ph) (ms_procs s))) in *.
    assert (N1 : nth_error (ms_procs s1) i = Some (with_phase q ph)) by (cbn; rewrite nth_upd, Nat.eqb_refl, Nj; reflexivity).
    destruct (run_keeps g os s1 i _ N1) as [ph2 N2]. specialize (NB1 _ N2). intro Bd. apply NB1. rewrite history_app. apply bad_app.
    rewrite history_app, history_own. exact Bd.
  - destruct (idle s); [|injection E as <- <-; apply ZERO; reflexivity]. destruct (_ && _); injection E as <- <-; apply ZERO; reflexivity.
Qed.
Lemma count_init c0 t0 os i : Pc c0 -> all_confs Pc os ->
  (forall p, nth_error (ms_procs (fst (mrun g (minit c0 t0) os))) i = Some p -> ~ bad (p_to p) (history i (snd (mrun g (minit c0 t0) os)))) ->
  (busy g (minit c0 t0) os i <= B)%nat.
Proof.
  intros P0 PC NB. assert (M0 : MI Pc I (minit c0 t0) []). { split; [exact P0|]. split; [|reflexivity]. intros j q H. destruct j; discriminate. }
  pose proof (count os (minit c0 t0) [] i M0 PC NB) as C. unfold pot in C. destruct i; exact C.
Qed.
End Count.

(** ** Going around failures *)
Lemma dup_split (p : list nat) : NoDup p \/ exists a p1 p2 p3, p = p1 ++ a :: p2 ++ a :: p3.
Proof.
  induction p as [|x p IH]; [left; constructor|]. destruct (in_dec Nat.eq_dec x p) as [H|H].
  - right. apply in_split in H. destruct H as (l1 & l2 & ->). exists x, [], l1, l2. reflexivity.
  - destruct IH as [IH|(a & p1 & p2 & p3 & ->)]; [left; constructor; assumption|]. right. exists a, (x :: p1), p2, p3. reflexivity.
Qed.
Lemma walk_split (E : nat -> nat -> Prop) p1 : forall x a p2 y, walk E x (p1 ++ a :: p2) y -> walk E x (p1 ++ [a]) a /\ walk E a p2 y.
Proof.
  induction p1 as [|b p1 IH]; intros x a p2 y W; cbn in *; inversion W as [|? ? ? ? H1 H2]; subst.
  - split; [econstructor; [exact H1|constructor]|exact H2].
  - destruct (IH _ _ _ _ H2) as [A B]. split; [econstructor; eauto|exact B].
Qed.
Lemma shortest_nodup (E : nat -> nat -> Prop) x p y : shortest E x p y -> NoDup p.
Proof.
  intros (W & NE & M). destruct (dup_split p) as [H|(a & p1 & p2 & p3 & ->)]; [exact H|]. exfalso.
  destruct (walk_split _ _ _ _ _ _ W) as [W1 W2]. destruct (walk_split _ _ _ _ _ _ W2) as [_ W3].
  pose proof (walk_trans _ _ _ _ _ _ W1 W3) as W4. rewrite <- app_assoc in W4. cbn in W4.
  specialize (M _ W4). rewrite !app_length in M. cbn in M. rewrite app_length in M. cbn in M.
  assert (p1 ++ a :: p3 <> []) by (destruct p1; discriminate). specialize (M H). lia.
Qed.

Section Around.
Variable g : mgr.
Variable net : network.
Hypothesis GN : g_net g = Some net.
Hypothesis WF : wf_net net.
Hypothesis R0 : 0 < g_rate g.
Hypothesis N0 : (0 <= tries g)%Z.
Local Notation E := (connected net).
Definition nodes : list nat := nodup Nat.eq_dec (flat_map snd net).
Definition left_over (f : list nat) : nat := length (filter (fun x => negb (memb x f)) nodes).
Definition ldist (to : nat) (f : list nat) (x : nat) : nat :=
  if Nat.eqb x to then 0%nat
  else match shortest_path (without f net) x to with Some p => (length p - 1)%nat | None => 0%nat end.
Lemma E_nodes x y : E x y -> In y nodes.
Proof.
  unfold nodes, connected. intro H. apply nodup_In. clear - H. induction net as [|[k l] n IH]; [destruct H|]. cbn in H |- *. apply in_or_app.
  destruct (Nat.eqb k x); [left; exact H|right; apply IH; exact H].
Qed.
Lemma walk_nodes x p y : walk E x p y -> forall z, In z p -> In z nodes.
Proof. induction 1 as [|x y p z H _ IH]; intros w I; [destruct I|]. destruct I as [<-|I]; [eapply E_nodes; eauto|auto]. Qed.
Lemma path_cases f x to : (exists p, shortest_path (without f net) x to = Some (x :: p) /\ shortest (usable net f) x p to) \/
  (shortest_path (without f net) x to = Some [] /\ no_way (usable net f) x to).
Proof.
  destruct (C38_shortest_path (without f net) x to) as [(p & H & S)|[H S]]; [left; exists p|right]; split; try exact H.
  - apply (shortest_ext _ (usable net f)) in S; [exact S|]. intros. apply without_usable. exact WF.
  - intros p W. apply S. apply (walk_ext _ (usable net f)); [|exact W]. intros. apply without_usable. exact WF.
Qed.
Lemma walk_mono (F G : nat -> nat -> Prop) x p y : (forall a b, F a b -> G a b) -> walk F x p y -> walk G x p y.
Proof. intros H. induction 1; econstructor; eauto. Qed.
Lemma ldist_le to f x : (ldist to f x <= length nodes)%nat.
Proof.
  unfold ldist. destruct (Nat.eqb x to); [lia|]. destruct (path_cases f x to) as [(p & -> & S)|[-> _]]; cbn [length]; [|lia].
  pose proof (shortest_nodup _ _ _ _ S) as ND. destruct S as (W & _). rewrite Nat.sub_succ, Nat.sub_0_r. apply NoDup_incl_length; [exact ND|].
  intros z H. eapply walk_nodes; [|exact H]. eapply walk_mono; [|exact W]. intros a b U. apply U.
Qed.
Lemma hop_facts cur to f hop : cur <> to -> ~ In cur f -> ~ In to f -> select_hop net cur to f = Some (Some hop) ->
  E cur hop /\ ~ In hop f /\ hop <> cur /\ (ldist to f hop < ldist to f cur)%nat.
Proof.
  intros C Nc Nt SH. destruct (C38_hop_partial net cur to f WF Nc Nt) as [(h & p & SH' & S)|[SH' _]]; [|congruence].
  rewrite SH in SH'. injection SH' as <-. destruct S as (W & _ & M). inversion W as [|? ? ? ? U Wp]; subst. split; [apply U|]. split; [apply U|]. split.
  - intros ->. assert (NE : p <> []) by (intros ->; inversion Wp; congruence). specialize (M p Wp NE). cbn in M. lia.
  - assert (LC : ldist to f cur = S (length p)).
    { unfold ldist. apply Nat.eqb_neq in C. rewrite C. destruct (path_cases f cur to) as [(p' & -> & (W' & NE' & M'))|[_ S]].
      - cbn [length]. rewrite Nat.sub_succ, Nat.sub_0_r. specialize (M' _ W ltac:(discriminate)). specialize (M _ W' NE'). cbn in M, M'. lia.
      - specialize (S _ W). discriminate. }
    rewrite LC. unfold ldist. destruct (Nat.eqb hop to) eqn:Eh; [lia|]. apply Nat.eqb_neq in Eh.
    assert (NE : p <> []) by (intros ->; inversion Wp; congruence).
    destruct (path_cases f hop to) as [(p' & -> & (W' & NE' & M'))|[-> S]]; cbn [length]; [|lia]. specialize (M' _ Wp NE). lia.
Qed.
Lemma left_le f : (left_over f <= length nodes)%nat.
Proof. unfold left_over. induction nodes as [|a l IH]; cbn; [lia|]. destruct (negb _); cbn; lia. Qed.
Lemma left_less f hop : In hop nodes -> ~ In hop f -> (S (left_over (f ++ [hop])) <= left_over f)%nat.
Proof.
  unfold left_over. intros I N. assert (MO : forall l, (length (filter (fun x => negb (memb x (f ++ [hop]))) l) <= length (filter (fun x => negb (memb x f)) l))%nat).
  { induction l as [|a l IH]; cbn; [lia|]. destruct (memb a f) eqn:Ma; cbn.
    - apply memb_In in Ma. assert (Mb : memb a (f ++ [hop]) = true) by (apply memb_In; apply in_or_app; auto). rewrite Mb. cbn. exact IH.
    - destruct (negb (memb a (f ++ [hop]))); cbn; lia. }
  induction nodes as [|a l IH]; [destruct I|]. cbn. destruct I as [-> |I].
  - apply memb_not in N. rewrite N. assert (Mb : memb hop (f ++ [hop]) = true) by (apply memb_In; apply in_or_app; right; left; reflexivity). rewrite Mb. cbn. specialize (MO l). lia.
  - specialize (IH I). destruct (memb a f) eqn:Ma; cbn.
    + apply memb_In in Ma. assert (Mb : memb a (f ++ [hop]) = true) by (apply memb_In; apply in_or_app; auto). rewrite Mb. cbn. exact IH.
    + destruct (negb (memb a (f ++ [hop]))); cbn; lia.
Qed.

(** Failed hops are remembered to the end. *)
Hypothesis GG : g_global g = true.
Definition cB : nat := (2 * Z.to_nat (tries g) + 4)%nat.
Definition cA : nat := (length nodes * cB + 1)%nat.
Definition mu (p : proc) : nat :=
  match p_phase p with
  | TNew => length nodes * cA + length nodes * cB + 4
  | TSelect cur f => left_over f * cA + ldist (p_to p) f cur * cB + 3
  | TCheck cur hop f k => left_over f * cA + ldist (p_to p) f hop * cB + 6 + 2 * Z.to_nat (tries g - k)
  | TRetry cur hop f k _ => left_over f * cA + ldist (p_to p) f hop * cB + 7 + 2 * Z.to_nat (tries g - k)
  | TSend cur hop f _ => left_over f * cA + ldist (p_to p) f hop * cB + 5
  | TMoved cur hop f => left_over f * cA + ldist (p_to p) f hop * cB + 4
  | TArrive => 1
  | _ => 0
  end%nat.
Definition moves_bound : nat := (length nodes * cA + length nodes * cB + 4)%nat.
Definition longest_wait : Q := if Qleb (g_rate g) (hop_time g) then hop_time g else g_rate g.
Definition credit (p : proc) : Q := p_start p + (inject_Z (Z.of_nat moves_bound) - inject_Z (Z.of_nat (mu p))) * longest_wait.
Definition CI (p : proc) : Prop :=
  match p_phase p with
  | TNew | TArrive | TDone | TDropped | TRaised => True
  | TSelect cur f => ~ In cur f /\ ~ In (p_to p) f
  | TCheck cur hop f k | TRetry cur hop f k _ => cur <> p_to p /\ ~ In cur f /\ ~ In (p_to p) f /\ E cur hop /\ ~ In hop f /\ hop <> cur /\ (k <= tries g)%Z
  | TSend cur hop f _ | TMoved cur hop f => ~ In hop f /\ ~ In (p_to p) f
  end.
Definition TI (now : Q) (p : proc) : Prop :=
  match p_phase p with
  | TRetry _ _ _ _ due | TSend _ _ _ due => due <= credit p /\ now <= due
  | TDone | TDropped | TRaised => True
  | _ => now <= credit p
  end.
Definition AI (now : Q) (p : proc) (h : list (Q * out)) : Prop := gave_up h (p_to p) \/ (CI p /\ TI now p /\ (mu p <= moves_bound)%nat).
Lemma gave_up_app d a b : gave_up a d -> gave_up (a ++ b) d.
Proof. intros (t & x & H). exists t, x. apply in_or_app. auto. Qed.
Lemma go_less c now p ph l : CI p -> go g c now p = Some (ph, l) -> gave_up (map (fun x => (now, x)) l) (p_to p) \/
  (CI (with_phase p ph) /\ (S (mu (with_phase p ph)) <= mu p)%nat).
Proof.
  unfold CI, go, mu. rewrite GN, GG. cbn [with_phase p_phase p_to]. pose proof (fun f x => ldist_le (p_to p) f x) as LD.
  destruct (p_phase p) as [|cur f|a b f k|a b f k due|a b f due|a b f| | | |] eqn:Ph; intros H G; try discriminate.
  - injection G as <- <-. right. split; [split; intros []|]. specialize (LD [] (p_from p)). pose proof (left_le []) as LL. nia.
  - destruct H as [H1 H2]. destruct (Nat.eqb cur (p_to p)) eqn:C; [injection G as <- <-; right; split; [exact Logic.I|nia]|].
    apply Nat.eqb_neq in C. destruct (select_hop net cur (p_to p) f) as [[hop|]|] eqn:SH; [| |discriminate]; injection G as <- <-; right.
    + destruct (hop_facts _ _ _ _ C H1 H2 SH) as (HE & Hf & Hc & Hd). split; [repeat (split; [assumption|]); exact N0|]. rewrite Z.sub_0_r. unfold cB in *. nia.
    + split; [exact Logic.I|lia].
  - destruct H as (H1 & H2 & H3 & H4 & H5 & H6 & H7). destruct (blocked c a b).
    + destruct (k =? tries g)%Z eqn:K; injection G as <- <-.
      * destruct (Nat.eq_dec b (p_to p)) as [->|Nb]; [left; exists now, a; right; left; reflexivity|]. right. split.
        { split; intro I; apply in_app_or in I; destruct I as [I|[I|[]]]; auto. }
        pose proof (left_less f b (E_nodes _ _ H4) H5) as LL. specialize (LD (f ++ [b]) a).
        apply (Nat.mul_le_mono_r _ _ cA) in LL. apply (Nat.mul_le_mono_r _ _ cB) in LD. rewrite Nat.mul_succ_l in LL. assert (EA : cA = (length nodes * cB + 1)%nat) by reflexivity.
        generalize dependent cA. intros. lia.
      * right. apply Z.eqb_neq in K. split; [repeat (split; [assumption|]); lia|].
        assert (Z.to_nat (tries g - k) = S (Z.to_nat (tries g - (k + 1)))) by lia. lia.
    + injection G as <- <-. right. destruct (Qltb 0 (g_send g)); (split; [split; assumption|lia]).
  - destruct (Qeqb now due); [|discriminate]. injection G as <- <-. right. split; [exact H|lia].
  - destruct (Qeqb now due); [|discriminate]. injection G as <- <-. right. split; [exact H|lia].
  - injection G as <- <-. right. split; [exact H|lia].
  - destruct (store_from_actor g (p_to p)); injection G as <- <-; right; (split; [exact Logic.I|lia]).
Qed.
Lemma wait_pos : 0 < longest_wait /\ g_rate g <= longest_wait /\ hop_time g <= longest_wait.
Proof. unfold longest_wait. destruct (Qleb (g_rate g) (hop_time g)) eqn:B; qbool; repeat split; lra. Qed.
Lemma credit_step p ph : (S (mu (with_phase p ph)) <= mu p)%nat -> credit p + longest_wait <= credit (with_phase p ph).
Proof.
  intro L. unfold credit. cbn [with_phase p_start]. fold (with_phase p ph). destruct wait_pos as (W & _).
  assert (inject_Z (Z.of_nat (mu (with_phase p ph))) + 1 <= inject_Z (Z.of_nat (mu p))).
  { change 1 with (inject_Z 1). rewrite <- inject_Z_plus, <- Zle_Qle. lia. }
  generalize dependent longest_wait. intros w Hw. generalize dependent (inject_Z (Z.of_nat (mu (with_phase p ph)))). generalize (inject_Z (Z.of_nat (mu p))). intros x y Hxy.
  generalize (inject_Z (Z.of_nat moves_bound)). intro z.
  assert (0 <= (x - y - 1) * w) by (apply Qmult_le_0_compat; lra). lra.
Qed.
Lemma AI_go c now p h ph l : AI now p h -> go g c now p = Some (ph, l) -> AI now (with_phase p ph) (h ++ map (fun x => (now, x)) l).
Proof.
  intros [H|(H & T & L)] G; [left; apply gave_up_app; exact H|]. destruct (go_less _ _ _ _ _ H G) as [(t & x & I)|[H' L']].
  - left. exists t, x. apply in_or_app. right. exact I.
  - right. split; [exact H'|]. split; [|lia]. pose proof (credit_step p ph L') as CS. destruct wait_pos as (W1 & W2 & W3). clear H H' L L'.
    unfold TI in *. unfold go in G. rewrite GN in G. cbn [with_phase p_phase]. fold (with_phase p ph).
    assert (NOW : now <= credit p -> match ph with TRetry _ _ _ _ due => due = now + g_rate g | TSend _ _ _ due => due = now + g_send g /\ 0 < g_send g | _ => True end ->
      match ph with TRetry _ _ _ _ due | TSend _ _ _ due => due <= credit (with_phase p ph) /\ now <= due | TDone | TDropped | TRaised => True | _ => now <= credit (with_phase p ph) end).
    { intros N D. destruct ph; try lra; try exact Logic.I.
      - subst due. split; lra.
      - destruct D as [-> D]. unfold hop_time in W3. rewrite (proj2 (Qltb_lt _ _) D) in W3. split; lra. }
    destruct (p_phase p) as [|cur f|a b f k|a b f k due|a b f due|a b f| | | |]; try discriminate.
    + injection G as <- <-. apply NOW; auto.
    + destruct (Nat.eqb cur (p_to p)); [injection G as <- <-; apply NOW; auto|]. destruct (select_hop net cur (p_to p) f) as [[hop|]|]; [| |discriminate]; injection G as <- <-; apply NOW; auto.
    + destruct (blocked c a b).
      * destruct (k =? tries g)%Z; injection G as <- <-; apply NOW; auto.
      * injection G as <- <-. destruct (Qltb 0 (g_send g)) eqn:Sd; apply NOW; auto. qbool. auto.
    + destruct (Qeqb now due) eqn:Eq; [|discriminate]. injection G as <- <-. apply NOW; [|exact Logic.I]. qbool. lra.
    + destruct (Qeqb now due) eqn:Eq; [|discriminate]. injection G as <- <-. apply NOW; [|exact Logic.I]. qbool. lra.
    + injection G as <- <-. apply NOW; auto.
    + destruct (store_from_actor g (p_to p)); injection G as <- <-; exact Logic.I.
Qed.
Lemma AI_new now a b : AI now (mkP a b now TNew) [].
Proof.
  right. split; [exact Logic.I|]. split; [|apply le_n]. unfold TI, credit. cbn [p_phase p_start]. change (mu (mkP a b now TNew)) with moves_bound.
  generalize (inject_Z (Z.of_nat moves_bound)). intro z. generalize longest_wait. intro w. assert ((z - z) * w == 0) by ring. lra.
Qed.
Lemma AI_time now t p h : AI now p h -> active (p_phase p) = false -> lets_pass t p = true -> now <= t -> AI t p h.
Proof.
  intros [H|(H & T & L)]; [left; exact H|]. intros A P Le. right. split; [exact H|]. split; [|exact L]. unfold TI, lets_pass in *.
  destruct (p_phase p); try discriminate; try exact Logic.I; qbool; tauto.
Qed.
Lemma around_count c0 t0 os i :
  (forall p, nth_error (ms_procs (fst (mrun g (minit c0 t0) os))) i = Some p -> ~ gave_up (history i (snd (mrun g (minit c0 t0) os))) (p_to p)) ->
  (busy g (minit c0 t0) os i <= moves_bound)%nat.
Proof.
  intros NB. apply (count_init g (fun _ => True) AI (fun d h => gave_up h d) mu moves_bound).
  - apply AI_new.
  - intros c now p h ph l _. apply AI_go.
  - apply AI_time.
  - intros d a b. apply gave_up_app.
  - intros a b t. apply le_n.
  - intros c now p h ph l _ A G NG. destruct A as [A|(A & _)]; [exfalso; apply NG; apply gave_up_app; exact A|].
    destruct (go_less _ _ _ _ _ A G) as [(t & x & I)|[_ H]]; [|exact H]. exfalso. apply NG. exists t, x. apply in_or_app. right. exact I.
  - exact Logic.I.
  - apply all_true.
  - exact NB.
Qed.
Lemma around_inv c0 t0 os s tr i p : mrun g (minit c0 t0) os = (s, tr) -> nth_error (ms_procs s) i = Some p -> AI (ms_now s) p (history i tr).
Proof.
  intros Eq N. eapply (reach_I g (fun _ => True) AI); eauto.
  - apply AI_new.
  - intros c now q h ph l _. apply AI_go.
  - apply AI_time.
  - apply all_true.
Qed.
End Around.

(** ** Blocked nodes in a two-way network *)
Section Avoid.
Variable g : mgr.
Variable net : network.
Hypothesis GN : g_net g = Some net.
Hypothesis WF : wf_net net.
Hypothesis GG : g_global g = true.
Hypothesis SY : forall a b, connected net a b -> connected net b a.
Variable bd : list nat.
Definition only_nodes (c : conf) : Prop := cf_degraded c = false /\ cf_links c = [] /\ forall x, In x (cf_nodes c) <-> In x bd.
Local Notation E := (connected net).
Local Notation F := (usable net bd).
Definition reaches (to x : nat) : Prop := ~ In x bd /\ exists q, walk F x q to.
Definition DI (now : Q) (p : proc) (h : list (Q * out)) : Prop :=
  reaches (p_to p) (p_from p) -> ~ In (p_to p) bd ->
  ~ gave_up h (p_to p) /\
  match p_phase p with
  | TNew | TArrive | TDone | TRaised => True
  | TSelect cur f => reaches (p_to p) cur /\ incl f bd
  | TCheck cur hop f k | TRetry cur hop f k _ => reaches (p_to p) cur /\ incl f bd /\ E cur hop
  | TSend cur hop f _ | TMoved cur hop f => reaches (p_to p) hop /\ incl f bd
  | TDropped => False
  end.
Lemma blocked_only c a b : only_nodes c -> blocked c a b = true <-> In a bd \/ In b bd.
Proof.
  intros (D & L & N). unfold blocked, link_compare. rewrite D, L. cbn. rewrite <- !N, <- !memb_In.
  destruct (memb a (cf_nodes c)), (memb b (cf_nodes c)); cbn; intuition congruence.
Qed.
Lemma DI_go c now p h ph l : only_nodes c -> DI now p h -> go g c now p = Some (ph, l) -> DI now (with_phase p ph) (h ++ map (fun x => (now, x)) l).
Proof.
  intros OC H G R T. cbn [with_phase p_to p_from p_phase] in *. destruct (H R T) as [NG H']. clear H.
  assert (NG' : ~ (exists a, In (OStop a (p_to p)) l) -> ~ gave_up (h ++ map (fun x => (now, x)) l) (p_to p)).
  { intros N (t & x & I). apply in_app_or in I. destruct I as [I|I]; [apply NG; exists t, x; exact I|]. apply in_map_iff in I. destruct I as (o & Eo & I).
    injection Eo as _ ->. apply N. exists x. exact I. }
  unfold go in G. rewrite GN, GG in G. destruct (p_phase p) as [|cur f|a b f k|a b f k due|a b f due|a b f| | | |] eqn:Ph; try discriminate.
  - injection G as <- <-. split; [apply NG'; intros (a & [])|]. split; [exact R|intros x []].
  - destruct H' as [H1 H2]. destruct (Nat.eqb cur (p_to p)) eqn:C.
    + injection G as <- <-. split; [apply NG'; intros (a & [A|[]]); discriminate|exact Logic.I].
    + apply Nat.eqb_neq in C. assert (Nc : ~ In cur f) by (intro I; apply H1; apply H2; exact I). assert (Nt : ~ In (p_to p) f) by (intro I; apply T; apply H2; exact I).
      destruct (C38_hop_partial net cur (p_to p) f WF Nc Nt) as [(hop & q & SH & S)|[SH S]]; rewrite SH in G; injection G as <- <-.
      * split; [apply NG'; intros (a & [])|]. split; [exact H1|]. split; [exact H2|]. destruct S as (W & _). inversion W as [|? ? ? ? U _]; subst. apply U.
      * exfalso. destruct H1 as (_ & q & W). assert (W' : walk (usable net f) cur q (p_to p)).
        { eapply walk_mono; [|exact W]. intros x y (U1 & U2 & U3). split; [exact U1|]. split; intro I; [apply U2|apply U3]; apply H2; exact I. }
        specialize (S _ W'). subst q. inversion W. congruence.
  - destruct H' as (H1 & H2 & H3). destruct (blocked c a b) eqn:B.
    + apply (blocked_only _ _ _ OC) in B. destruct B as [B|B]; [destruct H1; contradiction|].
      destruct (k =? tries g)%Z; injection G as <- <-.
      * split. { apply NG'. intros (x & [X|[X|[]]]); [discriminate|]. injection X as _ ->. contradiction. }
        split; [exact H1|]. intros x I. apply in_app_or in I. destruct I as [I|[<-|[]]]; auto.
      * split; [apply NG'; intros (x & [X|[]]); discriminate|]. auto.
    + injection G as <- <-. assert (Nb : ~ In b bd). { intro I. assert (blocked c a b = true) by (apply (blocked_only _ _ _ OC); auto). congruence. }
      assert (Rb : reaches (p_to p) b).
      { split; [exact Nb|]. destruct H1 as (Na & q & W). exists (a :: q). econstructor; [|exact W]. split; [apply SY; exact H3|auto]. }
      split; [apply NG'; intros (x & [X|[X|[]]]); discriminate|]. destruct (Qltb 0 (g_send g)); auto.
  - destruct (Qeqb now due); [|discriminate]. injection G as <- <-. split; [apply NG'; intros (x & [])|]. exact H'.
  - destruct (Qeqb now due); [|discriminate]. injection G as <- <-. split; [apply NG'; intros (x & [])|]. exact H'.
  - injection G as <- <-. split; [apply NG'; intros (x & [])|]. exact H'.
  - destruct (store_from_actor g (p_to p)); injection G as <- <-; (split; [apply NG'; intros (x & [X|[]]); discriminate|exact Logic.I]).
Qed.
Lemma avoid_inv c0 t0 os s tr i p : only_nodes c0 -> all_confs only_nodes os -> mrun g (minit c0 t0) os = (s, tr) -> nth_error (ms_procs s) i = Some p ->
  DI (ms_now s) p (history i tr).
Proof.
  intros O0 OA Eq N. eapply (reach_I g only_nodes DI); eauto.
  - intros now a b _ _. split; [intros (t & x & [])|exact Logic.I].
  - intros c now q h ph l. apply DI_go.
  all: intros now t q h H _ _ _; exact H.
Qed.
End Avoid.

(** ** A blocked neighbour is tried forever *)
Section Forever.
Variable g : mgr.
Variable net : network.
Hypothesis GN : g_net g = Some net.
Variables a b : nat.
Hypothesis NE : a <> b.
Hypothesis CAB : connected net a b.
Definition VI (now : Q) (p : proc) (h : list (Q * out)) : Prop :=
  p_from p = a -> p_to p = b ->
  match p_phase p with TNew => True | TSelect x _ => x = a | TCheck x y _ _ | TRetry x y _ _ _ => x = a /\ y = b | _ => False end /\ puts h = [] /\ moves h = [].
Lemma VI_go c now p h ph l : blocked c a b = true -> VI now p h -> go g c now p = Some (ph, l) -> VI now (with_phase p ph) (h ++ map (fun x => (now, x)) l).
Proof.
  intros B H G A1 B1. cbn [with_phase p_to p_from p_phase] in *. destruct (H A1 B1) as (H' & P & Mv). clear H. rewrite puts_app, moves_app, P, Mv. cbn [app].
  unfold go in G. rewrite GN in G. destruct (p_phase p) as [|cur f|x y f k|x y f k due|x y f due|x y f| | | |] eqn:Ph; try discriminate; try contradiction.
  - injection G as <- <-. rewrite A1. repeat split; reflexivity.
  - subst cur. rewrite B1, (proj2 (Nat.eqb_neq _ _) NE), (C38_direct _ _ _ _ CAB) in G. injection G as <- <-. repeat split; reflexivity.
  - destruct H' as [-> ->]. rewrite B in G. destruct (k =? tries g)%Z; injection G as <- <-; repeat split; reflexivity.
  - destruct (Qeqb now due); [|discriminate]. injection G as <- <-. destruct H' as [-> ->]. repeat split; reflexivity.
Qed.
Lemma forever_inv c0 t0 os s tr i p : blocked c0 a b = true -> all_confs (fun c => blocked c a b = true) os -> mrun g (minit c0 t0) os = (s, tr) ->
  nth_error (ms_procs s) i = Some p -> VI (ms_now s) p (history i tr).
Proof.
  intros B0 BA Eq N. eapply (reach_I g (fun c => blocked c a b = true) VI); eauto.
  - intros now x y _ _. repeat split; reflexivity.
  - intros c now q h ph l. apply VI_go.
  all: intros now t q h H _ _ _; exact H.
Qed.
End Forever.
