(** Proofs about the location changing states. *)
From Verif Require Import Common PathModel PathSpec.

Section PathProofs.
Variable P : Type.
Variable dist : P -> P -> Q.
Variable along : P -> P -> Q -> P.
Variable tol : Q.
Local Notation pread := (pread dist along tol).
Local Notation pstep := (pstep dist along tol).
Local Notation prun := (prun dist along tol).
Local Notation setup := (setup dist).
Local Notation travelled := (travelled dist).
Local Notation path_length := (path_length dist).
Local Notation get_index := (get_index (P:=P) tol).
Hypothesis dist_nonneg : forall p q, 0 <= dist p q.
Hypothesis tol_nonneg : 0 <= tol.

Lemma setup_nth sp : forall wps a k l, nth_error (setup sp a wps) k = Some l ->
  exists u v, nth_error (a :: wps) k = Some u /\ nth_error wps k = Some v /\
    l = mkLeg (dist v u / sp) (dist v u) u v.
Proof.
  induction wps as [|w wps IH]; intros a k l H; [destruct k; discriminate|].
  destruct k as [|k]; cbn in H.
  - injection H as <-. exists a, w. auto.
  - apply IH in H. destruct H as (u & v & Hu & Hv & E). exists u, v. auto.
Qed.

Lemma setup_length sp : forall wps a, length (setup sp a wps) = length wps.
Proof. induction wps as [|w wps IH]; intro a; cbn; [reflexivity|]. rewrite IH. reflexivity. Qed.

Lemma travelled_nonneg : forall wps a n, 0 <= travelled a wps n.
Proof.
  induction wps as [|w wps IH]; intros a n; destruct n; cbn; try lra.
  pose proof (dist_nonneg w a). pose proof (IH w n). lra.
Qed.
Lemma travelled_le : forall wps a n m, (n <= m)%nat -> travelled a wps n <= travelled a wps m.
Proof.
  induction wps as [|w wps IH]; intros a n m H; destruct n, m; cbn; try lra; try lia.
  - pose proof (dist_nonneg w a). pose proof (travelled_nonneg wps w m). lra.
  - assert (travelled w wps n <= travelled w wps m) by (apply IH; lia). lra.
Qed.
Lemma travelled_S : forall wps a n u v, nth_error (a :: wps) n = Some u -> nth_error wps n = Some v ->
  travelled a wps (S n) == travelled a wps n + dist v u.
Proof.
  induction wps as [|w wps IH]; intros a n u v Hu Hv; [destruct n; discriminate|].
  destruct n as [|n]; cbn in Hu, Hv.
  - injection Hu as <-. injection Hv as <-. cbn. destruct wps; cbn; lra.
  - cbn [travelled PathSpec.travelled]. rewrite (IH w n u v Hu Hv). lra.
Qed.
Lemma travelled_past : forall wps a n, (length wps <= n)%nat -> travelled a wps n = path_length a wps.
Proof.
  unfold PathSpec.path_length. induction wps as [|w wps IH]; intros a n H; [destruct n; reflexivity|].
  destruct n as [|n]; cbn in H; [lia|]. cbn. rewrite (IH w n); [reflexivity|lia].
Qed.

Lemma travelled_1 a w wps : travelled a (w :: wps) 1 == dist w a.
Proof. destruct wps; cbn; lra. Qed.

(** The time sums of the loop, as arc length over speed. *)
Lemma get_index_some sp : 0 < sp -> forall wps a e acc i0 l i t0,
  get_index (setup sp a wps) e acc i0 = Some (l, i, t0) ->
  exists k, (i = i0 + k)%nat /\ nth_error (setup sp a wps) k = Some l /\
    t0 == acc + travelled a wps k / sp /\
    e <= acc + travelled a wps (S k) / sp + tol /\
    (forall j, (j < k)%nat -> acc + travelled a wps (S j) / sp + tol < e).
Proof.
  intro Hsp. induction wps as [|w wps IH]; intros a e acc i0 l i t0 H; [discriminate|].
  cbn in H. destruct (Qleb e (acc + dist w a / sp + tol)) eqn:E; qbool.
  - injection H as <- <- <-. exists 0%nat. split; [lia|]. split; [reflexivity|].
    assert (Q0 : 0 / sp == 0) by (field; lra).
    split; [cbn; rewrite Q0; lra|]. split; [|intros; lia].
    rewrite travelled_1. lra.
  - apply IH in H. destruct H as (k & Hi & Hl & Ht & He & Hj).
    assert (X : forall n, (dist w a + travelled w wps n) / sp == dist w a / sp + travelled w wps n / sp)
      by (intros; field; lra).
    exists (S k). split; [lia|]. split; [exact Hl|].
    split; [cbn [PathSpec.travelled]; rewrite X, Ht; lra|].
    split; [change (PathSpec.travelled dist a (w :: wps) (S (S k))) with (dist w a + travelled w wps (S k)); rewrite X; lra|].
    intros j Hlt. destruct j as [|j].
    + rewrite travelled_1. lra.
    + change (PathSpec.travelled dist a (w :: wps) (S (S j))) with (dist w a + travelled w wps (S j)).
      rewrite X. specialize (Hj j ltac:(lia)). lra.
Qed.

Lemma get_index_none sp : 0 < sp -> forall wps a e acc i0, get_index (setup sp a wps) e acc i0 = None ->
  wps = [] \/ acc + path_length a wps / sp + tol < e.
Proof.
  intro Hsp. induction wps as [|w wps IH]; intros a e acc i0 H; [left; reflexivity|right].
  cbn in H. destruct (Qleb e (acc + dist w a / sp + tol)) eqn:E; [discriminate|]; qbool.
  apply IH in H. unfold PathSpec.path_length. cbn [length PathSpec.travelled].
  assert (X : forall n, (dist w a + travelled w wps n) / sp == dist w a / sp + travelled w wps n / sp)
    by (intros; field; lra). rewrite X.
  destruct H as [->|H].
  - cbn. assert (Q0 : 0 / sp == 0) by (field; lra). rewrite Q0. lra.
  - unfold PathSpec.path_length in H. lra.
Qed.

Lemma get_index_over sp : 0 < sp -> forall wps a e acc i0,
  acc + path_length a wps / sp + tol < e -> get_index (setup sp a wps) e acc i0 = None.
Proof.
  intros Hsp wps a e acc i0 H. destruct (get_index (setup sp a wps) e acc i0) as [[[l i] t0]|] eqn:E; [|reflexivity].
  exfalso. apply get_index_some in E; [|exact Hsp]. destruct E as (k & _ & Hl & _ & He & _).
  assert (Hk : (k < length wps)%nat).
  { rewrite <- (setup_length sp wps a). apply nth_error_Some. congruence. }
  pose proof (travelled_le wps a (S k) (length wps) ltac:(lia)) as Hle.
  unfold PathSpec.path_length in H.
  assert (travelled a wps (S k) / sp <= travelled a wps (length wps) / sp).
  { apply Qle_shift_div_l; [exact Hsp|]. setoid_replace (travelled a wps (S k) / sp * sp) with (travelled a wps (S k)) by (field; lra). exact Hle. }
  lra.
Qed.

(** ** A motion in progress *)
Definition moving (t0 sp : Q) (a : P) (wps : list P) (s : pst P) : Prop :=
  p_act s = Some (mkT t0 sp wps (Some (setup sp a wps))) /\ t0 <= p_now s.

Lemma moving_start s sp wps : 0 < sp -> p_act s = None ->
  snd (pstep s (PActivate sp wps)) = POk /\
  moving (p_now s) sp (p_val s) wps (fst (pstep s (PActivate sp wps))) /\
  p_val (fst (pstep s (PActivate sp wps))) = p_val s /\ p_now (fst (pstep s (PActivate sp wps))) = p_now s.
Proof.
  intros Hsp Hn. cbn [PathModel.pstep]. rewrite Hn. unfold PathModel.pread, do_setup. cbn [p_act k_legs k_speed k_start k_wps p_now p_val].
  assert (Z : Qeqb sp 0 = false) by (apply Qeqb_neq; lra). rewrite Z. cbn [andb].
  cbn [k_legs].
  assert (E1 : Qltb (p_now s - p_now s) 0 = false) by (apply Qltb_ge; lra).
  assert (E2 : Qeqb (p_now s - p_now s) 0 = true) by (apply Qeqb_eq; lra).
  rewrite E1, E2. cbn. unfold moving. cbn. repeat split; try reflexivity. lra.
Qed.

(** What a read does while moving. *)
Lemma pread_moving t0 sp a wps s : moving t0 sp a wps s ->
  pread s =
    if Qeqb (p_now s - t0) 0 then (s, PVal (p_val s))
    else match get_index (setup sp a wps) (p_now s - t0) 0 0 with
         | None => (s, PSim)
         | Some (l, _, b) =>
             if Qeqb (l_time l) 0 then (s, PZero)
             else let q := along (l_start l) (l_end l) ((p_now s - t0 - b) / l_time l) in
                  (mkP (p_now s) q (p_act s), PVal q)
         end.
Proof.
  intros [Ha Ht]. unfold PathModel.pread. rewrite Ha. cbn [do_setup k_legs k_start].
  assert (E1 : Qltb (p_now s - t0) 0 = false) by (apply Qltb_ge; lra). rewrite E1.
  destruct s as [n v c]. cbn in *. subst c. reflexivity.
Qed.

Lemma pread_keeps t0 sp a wps s : moving t0 sp a wps s ->
  moving t0 sp a wps (fst (pread s)) /\ p_now (fst (pread s)) = p_now s.
Proof.
  intro H. rewrite (pread_moving _ _ _ _ _ H). destruct H as [Ha Ht].
  destruct (Qeqb (p_now s - t0) 0); [split; [split|]; auto|].
  destruct (get_index _ _ _ _) as [[[l i] b]|]; [|split; [split|]; auto].
  destruct (Qeqb (l_time l) 0); split; try split; cbn; auto.
Qed.

Lemma step_keeps t0 sp a wps s o : moving t0 sp a wps s -> looks_or_assigns o ->
  moving t0 sp a wps (fst (pstep s o)) /\ p_now s <= p_now (fst (pstep s o)).
Proof.
  intros H Ho. destruct o; cbn in Ho; try contradiction; cbn [PathModel.pstep].
  - destruct (pread_keeps _ _ _ _ _ H) as [H1 H2]. split; [exact H1|]. rewrite H2. lra.
  - destruct H as [Ha Ht]. rewrite Ha. cbn. destruct (get_index _ _ _ _) as [[[l i] b]|]; cbn; split; try split; auto; lra.
  - destruct H as [Ha Ht]. cbn. split; [split; auto|lra].
  - destruct H as [Ha Ht]. destruct (Qleb (p_now s) t) eqn:E; qbool; cbn; split; try split; cbn; auto; lra.
Qed.

Lemma run_keeps t0 sp a wps : forall os s, moving t0 sp a wps s -> Forall looks_or_assigns os ->
  moving t0 sp a wps (prun s os) /\ p_now s <= p_now (prun s os).
Proof.
  induction os as [|o os IH]; intros s H Hf; [cbn; split; [exact H|lra]|].
  apply Forall_cons_iff in Hf as [Ho Hf]. destruct (step_keeps _ _ _ _ _ _ H Ho) as [H1 H2].
  cbn [PathModel.prun]. destruct (IH _ H1 Hf) as [H3 H4]. split; [exact H3|lra].
Qed.

(** Until time moves, looking does not change the value. *)
Lemma step_still t0 sp a wps s o : moving t0 sp a wps s -> looks o ->
  p_now (fst (pstep s o)) == t0 -> p_now s == t0 /\ p_val (fst (pstep s o)) = p_val s.
Proof.
  intros H Ho Hn. destruct o; cbn in Ho; try contradiction; cbn [PathModel.pstep] in *.
  - destruct (pread_keeps _ _ _ _ _ H) as [_ H2]. rewrite H2 in Hn. split; [exact Hn|].
    rewrite (pread_moving _ _ _ _ _ H). assert (E : Qeqb (p_now s - t0) 0 = true) by (apply Qeqb_eq; lra).
    rewrite E. reflexivity.
  - destruct H as [Ha Ht]. rewrite Ha in *. cbn in *. destruct (get_index _ _ _ _) as [[[l i] b]|]; cbn in *; auto.
  - destruct H as [Ha Ht]. destruct (Qleb (p_now s) t) eqn:E; qbool; cbn in *; split; auto; lra.
Qed.

Lemma run_still t0 sp a wps : forall os s, moving t0 sp a wps s -> Forall looks os ->
  p_now (prun s os) == t0 -> p_val (prun s os) = p_val s.
Proof.
  induction os as [|o os IH]; intros s H Hf Hn; [reflexivity|].
  apply Forall_cons_iff in Hf as [Ho Hf]. cbn [PathModel.prun] in *.
  assert (Hoa : looks_or_assigns o) by (destruct o; cbn in *; auto).
  destruct (step_keeps _ _ _ _ _ _ H Hoa) as [H1 H2].
  assert (Hfa : Forall looks_or_assigns os) by (revert Hf; apply Forall_impl; intros [] X; cbn in *; auto).
  rewrite (IH _ H1 Hf Hn).
  destruct (run_keeps _ _ _ _ _ _ H1 Hfa) as [_ H4].
  apply (step_still _ _ _ _ _ _ H Ho). destruct H as [_ Ht]. apply Qle_antisym; lra.
Qed.

Lemma looks_assign (os : list (pop P)) : Forall looks os -> Forall looks_or_assigns os.
Proof. apply Forall_impl. intros [] X; cbn in *; auto. Qed.

Lemma frac_eq sp e b d T : 0 < sp -> ~ d / sp == 0 -> b == 0 + T / sp -> T + (e - b) / (d / sp) * d == sp * e.
Proof.
  intros Hsp Hd Hb. rewrite Hb. assert (~ d == 0) by (intro X; apply Hd; rewrite X; field; lra).
  field. split; [lra|exact H].
Qed.

(** The position at a positive elapsed time. *)
Lemma read_position t0 sp a wps s : 0 < sp -> moving t0 sp a wps s ->
  0 < p_now s - t0 -> wps <> [] ->
  (0 < travelled a wps 1 \/ tol < p_now s - t0) ->
  p_now s - t0 <= path_length a wps / sp + tol ->
  exists p i, snd (pread s) = PVal p /\ p_val (fst (pread s)) = p /\
    on_leg dist along a wps i (sp * (p_now s - t0)) (sp * tol) p /\
    (forall j, (j < i)%nat -> travelled a wps (S j) + sp * tol < sp * (p_now s - t0)) /\
    snd (pstep s PRemaining) = PRest (skipn i wps).
Proof.
  intros Hsp Hm He Hw Hfirst Hle. rewrite (pread_moving _ _ _ _ _ Hm).
  assert (E0 : Qeqb (p_now s - t0) 0 = false) by (apply Qeqb_neq; lra). rewrite E0.
  cbn [PathModel.pstep]. destruct Hm as [Ha Ht]. rewrite Ha. cbn [k_legs k_start k_wps].
  destruct (get_index (setup sp a wps) (p_now s - t0) 0 0) as [[[l i] b]|] eqn:E.
  2:{ exfalso. apply get_index_none in E; [|exact Hsp]. destruct E as [E|E]; [contradiction|lra]. }
  apply get_index_some in E; [|exact Hsp]. destruct E as (k & Hi & Hl & Hb & Hek & Hj). cbn in Hi. subst i.
  destruct (setup_nth _ _ _ _ _ Hl) as (u & v & Hu & Hv & ->). cbn [l_time l_start l_end].
  pose proof (travelled_S wps a k u v Hu Hv) as HS.
  assert (mulsp : forall x, x / sp * sp == x) by (intros; field; lra).
  assert (Hjj : forall j, (j < k)%nat -> travelled a wps (S j) + sp * tol < sp * (p_now s - t0)).
  { intros j Hlt. specialize (Hj j Hlt). pose proof (mulsp (travelled a wps (S j))).
    assert ((0 + travelled a wps (S j) / sp + tol) * sp < (p_now s - t0) * sp) by (apply Qmult_lt_compat_r; assumption).
    lra. }
  assert (Hslack : sp * (p_now s - t0) <= travelled a wps (S k) + sp * tol).
  { pose proof (mulsp (travelled a wps (S k))).
    assert ((p_now s - t0) * sp <= (0 + travelled a wps (S k) / sp + tol) * sp) by (apply Qmult_le_compat_r; lra).
    lra. }
  assert (Hd : 0 < dist v u).
  { destruct (Qlt_le_dec 0 (dist v u)) as [Y|Y]; [exact Y|exfalso]. pose proof (dist_nonneg v u).
    destruct k as [|k].
    - cbn in Hu, Hv. injection Hu as <-. destruct wps as [|w wps]; [discriminate|]. cbn in Hv. injection Hv as <-.
      assert (Z : travelled a (w :: wps) 1 == 0) by (rewrite travelled_1; lra).
      destruct Hfirst as [F|F]; [lra|]. rewrite Z in Hslack.
      assert (sp * tol < sp * (p_now s - t0)) by (apply Qmult_lt_l; assumption). lra.
    - specialize (Hjj k ltac:(lia)). lra. }
  assert (Hdsp : ~ dist v u / sp == 0).
  { intro X. pose proof (mulsp (dist v u)). rewrite X in H. lra. }
  assert (Et : Qeqb (dist v u / sp) 0 = false) by (apply Qeqb_neq; exact Hdsp). rewrite Et. cbn [snd fst p_val].
  eexists _, k. split; [reflexivity|]. split; [reflexivity|]. split; [|split; [exact Hjj|reflexivity]].
  exists u, v, ((p_now s - t0 - b) / (dist v u / sp)). split; [exact Hu|]. split; [exact Hv|]. split; [reflexivity|].
  pose proof (frac_eq sp (p_now s - t0) b (dist v u) (travelled a wps k) Hsp Hdsp Hb) as Hf.
  split; [|split; [exact Hf|exact Hslack]].
  (* the fraction is positive *)
  assert (Hpos : 0 < p_now s - t0 - b).
  { destruct k as [|k].
    - assert (travelled a wps 0 == 0) by (destruct wps; cbn; lra).
      assert (b == 0) by (rewrite Hb, H; field; lra). lra.
    - specialize (Hj k ltac:(lia)). lra. }
  apply Qlt_shift_div_l; [|lra]. apply Qlt_shift_div_l; [exact Hsp|]. lra.
Qed.

(** Past the end. *)
Lemma read_over t0 sp a wps s : 0 < sp -> moving t0 sp a wps s ->
  0 < p_now s - t0 -> path_length a wps / sp + tol < p_now s - t0 ->
  pread s = (s, PSim).
Proof.
  intros Hsp Hm He Hov. rewrite (pread_moving _ _ _ _ _ Hm).
  assert (E0 : Qeqb (p_now s - t0) 0 = false) by (apply Qeqb_neq; lra). rewrite E0.
  rewrite get_index_over; [reflexivity|exact Hsp|lra].
Qed.

(** ** Theorems over whole histories *)
Section Histories.
Variables (s0 : pst P) (sp : Q) (wps : list P).
Hypothesis idle : p_act s0 = None.
Hypothesis Hsp : 0 < sp.
Let s1 := fst (pstep s0 (PActivate sp wps)).
Let a := p_val s0.
Let t0 := p_now s0.

Lemma s1_moving : moving t0 sp a wps s1.
Proof. apply (moving_start s0 sp wps Hsp idle). Qed.

Lemma position os : Forall looks_or_assigns os ->
  let s := prun s1 os in
  0 < p_now s - t0 -> wps <> [] ->
  (0 < travelled a wps 1 \/ tol < p_now s - t0) ->
  p_now s - t0 <= path_length a wps / sp + tol ->
  exists p i, snd (pstep s PRead) = PVal p /\
    on_leg dist along a wps i (sp * (p_now s - t0)) (sp * tol) p /\
    (forall j, (j < i)%nat -> travelled a wps (S j) + sp * tol < sp * (p_now s - t0)).
Proof.
  intros Hf s He Hw Hfirst Hle.
  destruct (run_keeps _ _ _ _ os s1 s1_moving Hf) as [Hm _].
  destruct (read_position t0 sp a wps s Hsp Hm He Hw Hfirst Hle) as (p & i & A & _ & B & C & _).
  exists p, i. auto.
Qed.

Lemma remaining os : Forall looks_or_assigns os ->
  let s := prun s1 os in
  0 < p_now s - t0 -> wps <> [] ->
  (0 < travelled a wps 1 \/ tol < p_now s - t0) ->
  p_now s - t0 <= path_length a wps / sp + tol ->
  exists i, snd (pstep s PRemaining) = PRest (skipn i wps) /\ (i < length wps)%nat /\
    (forall j, (j < i)%nat -> travelled a wps (S j) + sp * tol < sp * (p_now s - t0)) /\
    sp * (p_now s - t0) <= travelled a wps (S i) + sp * tol.
Proof.
  intros Hf s He Hw Hfirst Hle.
  destruct (run_keeps _ _ _ _ os s1 s1_moving Hf) as [Hm _].
  destruct (read_position t0 sp a wps s Hsp Hm He Hw Hfirst Hle) as (p & i & _ & _ & (u & v & f & _ & Hv & _ & _ & _ & B) & C & D).
  exists i. split; [exact D|]. split; [|auto]. apply nth_error_Some. congruence.
Qed.

Lemma start_position os : Forall looks os -> let s := prun s1 os in
  p_now s == t0 -> snd (pstep s PRead) = PVal a.
Proof.
  intros Hf s Hn. pose proof (looks_assign _ Hf) as Hfa.
  destruct (run_keeps _ _ _ _ os s1 s1_moving Hfa) as [Hm _].
  fold s in Hm. cbn [PathModel.pstep]. rewrite (pread_moving _ _ _ _ _ Hm).
  assert (E : Qeqb (p_now s - t0) 0 = true) by (apply Qeqb_eq; lra). rewrite E. cbn.
  f_equal. unfold s. rewrite (run_still _ _ _ _ os s1 s1_moving Hf Hn).
  apply (moving_start s0 sp wps Hsp idle).
Qed.

Lemma reads_do_not_matter os1 os2 : Forall looks_or_assigns os1 -> Forall looks_or_assigns os2 ->
  p_now (prun s1 os1) = p_now (prun s1 os2) -> ~ p_now (prun s1 os1) == t0 ->
  snd (pstep (prun s1 os1) PRead) = snd (pstep (prun s1 os2) PRead) /\
  snd (pstep (prun s1 os1) PRemaining) = snd (pstep (prun s1 os2) PRemaining).
Proof.
  intros H1 H2 En Hne.
  destruct (run_keeps _ _ _ _ os1 s1 s1_moving H1) as [M1 _].
  destruct (run_keeps _ _ _ _ os2 s1 s1_moving H2) as [M2 _].
  cbn [PathModel.pstep]. rewrite (pread_moving _ _ _ _ _ M1), (pread_moving _ _ _ _ _ M2).
  destruct M1 as [A1 T1], M2 as [A2 T2]. rewrite A1, A2. rewrite <- En. cbn [k_legs k_start k_wps].
  assert (E : Qeqb (p_now (prun s1 os1) - t0) 0 = false) by (apply Qeqb_neq; lra). rewrite E.
  destruct (get_index _ _ _ _) as [[[l i] b]|]; [|auto].
  destruct (Qeqb (l_time l) 0); auto.
Qed.

Lemma overdue os : Forall looks_or_assigns os ->
  let s := prun s1 os in
  0 < p_now s - t0 -> path_length a wps / sp + tol < p_now s - t0 ->
  snd (pstep s PRead) = PSim /\ snd (pstep s PDeactivate) = PSim.
Proof.
  intros Hf s He Hov. destruct (run_keeps _ _ _ _ os s1 s1_moving Hf) as [Hm _].
  pose proof (read_over _ _ _ _ _ Hsp Hm He Hov) as E. fold s in E.
  cbn [PathModel.pstep]. rewrite E. split; [reflexivity|].
  destruct Hm as [Ha _]. fold s in Ha. rewrite Ha. reflexivity.
Qed.

(** Nothing but a new activation gets the state out of that condition, and a
    new activation is refused: it is stuck. *)
Lemma overdue_stuck : forall os s, moving t0 sp a wps s -> 0 < p_now s - t0 ->
  path_length a wps / sp + tol < p_now s - t0 ->
  moving t0 sp a wps (prun s os) /\ p_now s <= p_now (prun s os).
Proof.
  induction os as [|o os IH]; intros s Hm He Hov; [split; [exact Hm|cbn; lra]|].
  cbn [PathModel.prun].
  assert (K : moving t0 sp a wps (fst (pstep s o)) /\ p_now s <= p_now (fst (pstep s o))).
  { destruct o; try (apply step_keeps; [exact Hm|exact I]).
    - destruct Hm as [Ha Ht]. cbn. rewrite Ha. cbn. split; [split; auto|lra].
    - cbn [PathModel.pstep]. rewrite (read_over _ _ _ _ _ Hsp Hm He Hov).
      destruct Hm as [Ha Ht]. rewrite Ha. cbn. split; [split; auto|lra]. }
  destruct K as [K1 K2]. destruct (IH _ K1) as [K3 K4]; [lra|lra|]. split; [exact K3|lra].
Qed.

Lemma overdue_forever os os' : Forall looks_or_assigns os ->
  let s := prun s1 os in
  0 < p_now s - t0 -> path_length a wps / sp + tol < p_now s - t0 ->
  snd (pstep (prun s os') PRead) = PSim /\ snd (pstep (prun s os') PDeactivate) = PSim.
Proof.
  intros Hf s He Hov. destruct (run_keeps _ _ _ _ os s1 s1_moving Hf) as [Hm _].
  destruct (overdue_stuck os' s Hm He Hov) as [K1 K2].
  assert (E : pread (prun s os') = (prun s os', PSim)) by (apply (read_over t0 sp a wps); [exact Hsp|exact K1|lra|lra]).
  cbn [PathModel.pstep]. rewrite E. split; [reflexivity|]. destruct K1 as [Ha _]. rewrite Ha. reflexivity.
Qed.

(** After a deactivation that succeeds the location stays. *)
Lemma frozen_after : forall os (s : pst P), p_act s = None ->
  Forall looks os -> p_act (prun s os) = None /\ p_val (prun s os) = p_val s.
Proof.
  induction os as [|o os IH]; intros s Hn Hf; [auto|]. apply Forall_cons_iff in Hf as [Ho Hf].
  cbn [PathModel.prun].
  assert (K : p_act (fst (pstep s o)) = None /\ p_val (fst (pstep s o)) = p_val s).
  { destruct o; cbn in Ho; try contradiction; cbn; unfold PathModel.pread; rewrite ?Hn; auto.
    destruct (Qleb (p_now s) t); auto. }
  destruct K as [K1 K2]. destruct (IH _ K1 Hf) as [K3 K4]. split; [exact K3|congruence].
Qed.

Lemma stops os os' : Forall looks_or_assigns os -> Forall looks os' ->
  let s := prun s1 os in
  0 < p_now s - t0 -> wps <> [] ->
  (0 < travelled a wps 1 \/ tol < p_now s - t0) ->
  p_now s - t0 <= path_length a wps / sp + tol ->
  snd (pstep s PDeactivate) = POk /\
  snd (pstep (prun (fst (pstep s PDeactivate)) os') PRead) = snd (pstep s PRead) /\
  exists p, snd (pstep s PRead) = PVal p.
Proof.
  intros Hf Hf' s He Hw Hfirst Hle.
  destruct (run_keeps _ _ _ _ os s1 s1_moving Hf) as [Hm _].
  destruct (read_position t0 sp a wps s Hsp Hm He Hw Hfirst Hle) as (p & i & A & A' & _ & _ & _).
  cbn [PathModel.pstep]. destruct Hm as [Ha _]. fold s in Ha. rewrite Ha.
  destruct (pread s) as [s2 r] eqn:E. cbn in A, A'. subst r. cbn [fst snd]. split; [reflexivity|].
  split; [|eauto].
  set (s3 := mkP (p_now s2) (p_val s2) None).
  destruct (frozen_after os' s3 eq_refl Hf') as [K1 K2].
  unfold PathModel.pread. rewrite K1. cbn. rewrite K2. unfold s3. cbn. congruence.
Qed.
End Histories.

(** ** Straight lines *)
Lemma path_end_last : forall wps a n w, nth_error wps n = Some w -> S n = length wps ->
  travelled a wps (S n) = path_length a wps.
Proof. intros. apply travelled_past. lia. Qed.

(** ** waypoint_time_and_dist *)
Lemma total_dist_acc : forall wps a acc, total_dist dist a wps acc == acc + path_length a wps.
Proof.
  unfold PathSpec.path_length. induction wps as [|w wps IH]; intros a acc; cbn; [lra|]. rewrite IH. lra.
Qed.
Lemma path_length_app : forall w1 w2 a, path_length a (w1 ++ w2) == path_length a w1 + path_length (last w1 a) w2.
Proof.
  unfold PathSpec.path_length. induction w1 as [|w w1 IH]; intros w2 a; [cbn; lra|].
  cbn [app length PathSpec.travelled]. rewrite (IH w2 w).
  assert (E : last (w :: w1) a = last w1 w).
  { destruct w1; [reflexivity|]. cbn [last]. clear. revert p. induction w1; intro p; [reflexivity|]. cbn [last]. apply IHw1. }
  rewrite E. lra.
Qed.
Lemma time_and_dist a wps sp : 0 < sp -> exists t d,
  waypoint_time_and_dist dist a wps sp = Some (t, d) /\ d == path_length a wps /\ t * sp == d /\ 0 <= d /\ 0 <= t.
Proof.
  intro Hsp. unfold waypoint_time_and_dist.
  assert (E : Qeqb sp 0 = false) by (apply Qeqb_neq; lra). rewrite E.
  eexists _, _. split; [reflexivity|].
  assert (X := total_dist_acc wps a 0). split; [lra|]. split; [field; lra|].
  assert (0 <= total_dist dist a wps 0).
  { rewrite X. pose proof (travelled_nonneg wps a (length wps)). unfold PathSpec.path_length. lra. }
  split; [assumption|]. apply Qle_shift_div_l; lra.
Qed.
Lemma time_and_dist_joined a w1 w2 sp t1 d1 t2 d2 t d : 0 < sp ->
  waypoint_time_and_dist dist a w1 sp = Some (t1, d1) ->
  waypoint_time_and_dist dist (last w1 a) w2 sp = Some (t2, d2) ->
  waypoint_time_and_dist dist a (w1 ++ w2) sp = Some (t, d) ->
  d == d1 + d2 /\ t == t1 + t2.
Proof.
  intro Hsp. unfold waypoint_time_and_dist.
  assert (E : Qeqb sp 0 = false) by (apply Qeqb_neq; lra). rewrite E.
  intros H1 H2 H3. injection H1 as <- <-. injection H2 as <- <-. injection H3 as <- <-.
  rewrite !total_dist_acc, path_length_app. split; [lra|]. field. lra.
Qed.
(** The time it gives is the time the motion takes. *)
Lemma arrival_time a wps sp t d : 0 < sp -> waypoint_time_and_dist dist a wps sp = Some (t, d) ->
  t == path_length a wps / sp.
Proof.
  intro Hsp. unfold waypoint_time_and_dist.
  assert (E : Qeqb sp 0 = false) by (apply Qeqb_neq; lra). rewrite E.
  intro H. injection H as <- <-. rewrite total_dist_acc. field. lra.
Qed.
End PathProofs.

(** ** Cartesian: at the end of the path *)
Lemma straight_one p q f : f == 1 -> pt_eq (straight p q f) q.
Proof. intro H. unfold pt_eq, straight. cbn. rewrite H. repeat split; ring. Qed.

Lemma at_the_end (dist : pt -> pt -> Q) tol (dist_nonneg : forall p q, 0 <= dist p q) (tol_nonneg : 0 <= tol)
  s0 sp pre w os :
  p_act s0 = None -> 0 < sp ->
  sp * tol < dist w (last pre (p_val s0)) ->
  Forall looks_or_assigns os ->
  let wps := pre ++ [w] in
  let s := prun dist straight tol (fst (pstep dist straight tol s0 (PActivate sp wps))) os in
  p_now s - p_now s0 == path_length dist (p_val s0) wps / sp ->
  exists p, snd (pstep dist straight tol s PRead) = PVal p /\ pt_eq p w.
Proof.
  intros Hi Hsp Hlast Hf wps s Hend.
  assert (Hpl : path_length dist (p_val s0) wps == path_length dist (p_val s0) pre + dist w (last pre (p_val s0))).
  { unfold wps. rewrite path_length_app. unfold path_length at 2. cbn. lra. }
  assert (Hnn : 0 <= path_length dist (p_val s0) pre) by (apply travelled_nonneg; exact dist_nonneg).
  assert (Hst : 0 <= sp * tol) by (apply Qmult_le_0_compat; lra).
  assert (mulsp : forall x, sp * (x / sp) == x) by (intros; field; lra).
  assert (He : 0 < p_now s - p_now s0).
  { rewrite Hend. apply Qlt_shift_div_l; [exact Hsp|]. lra. }
  assert (Htol : tol < p_now s - p_now s0).
  { rewrite Hend. apply Qlt_shift_div_l; [exact Hsp|]. lra. }
  destruct (position pt dist straight tol dist_nonneg tol_nonneg s0 sp wps Hi Hsp os Hf He) as (p & i & A & B & C).
  { unfold wps. destruct pre; discriminate. }
  { right. exact Htol. }
  { unfold s in Hend. rewrite Hend. lra. }
  exists p. split; [exact A|].
  fold s in B, C.
  destruct B as (u & v & f & Hu & Hv & -> & _ & Harc & Hsl). rewrite Hend, mulsp in Harc, Hsl.
  assert (Hlen : length wps = S (length pre)) by (unfold wps; rewrite app_length; cbn; lia).
  assert (Hil : (i < length wps)%nat) by (apply nth_error_Some; congruence).
  assert (Hpre : travelled dist (p_val s0) wps (length pre) == path_length dist (p_val s0) pre).
  { unfold wps, path_length. clear. generalize (p_val s0). induction pre as [|x pre IH]; intro q; [cbn; lra|].
    cbn [length app travelled]. rewrite IH. lra. }
  (* it is the last leg *)
  assert (Hi' : i = length pre).
  { destruct (Nat.eq_dec i (length pre)) as [E|E]; [exact E|exfalso].
    pose proof (travelled_le pt dist dist_nonneg wps (p_val s0) (S i) (length pre) ltac:(lia)) as Hle. lra. }
  subst i.
  assert (Hv' : v = w).
  { unfold wps in Hv. rewrite nth_error_app2 in Hv by lia. rewrite Nat.sub_diag in Hv. cbn in Hv. congruence. }
  subst v.
  assert (Hu' : u = last pre (p_val s0)).
  { unfold wps in Hu. clear - Hu. revert Hu. generalize (p_val s0) as q. induction pre as [|x pre IH]; intros q Hu.
    - cbn in *. congruence.
    - cbn [app length] in Hu. change (nth_error (x :: pre ++ [w]) (length pre) = Some u) in Hu. apply IH in Hu.
      subst u. destruct pre; [reflexivity|]. cbn [last]. clear. revert p. induction pre; intro p; [reflexivity|]. cbn [last]. apply IHpre. }
  subst u. apply straight_one.
  rewrite Hpre in Harc.
  assert (Hd : 0 < dist w (last pre (p_val s0))) by lra.
  set (d := dist w (last pre (p_val s0))) in *.
  assert (f * d == d) by lra. apply (Qmult_inj_r _ _ d); lra.
Qed.
