(** Proofs about journeys whose times are binary fractions. *)
From Coq Require Import Qabs Qpower Lqa.
From Verif Require Import Common ActiveModel PathModel RndModel RndSpec RndProofs RwySpec.
Lemma grid_gap a x y : grid a x -> grid a y -> x < y + 2 ^ (- a) -> x <= y.
Proof.
  intros [z H] [w K] L. rewrite H, K in *. pose proof (two_pos (- a)) as T. assert (inject_Z z < inject_Z (w + 1)).
  { apply (Qmult_lt_r _ _ (2 ^ (- a)) T). rewrite inject_Z_plus. change (inject_Z 1) with 1. lra. }
  rewrite <- Zlt_Qlt in H0. assert (inject_Z z <= inject_Z w) by (rewrite <- Zle_Qle; lia). apply Qmult_le_compat_r; [assumption|lra].
Qed.
Lemma grid_half a x : grid a x -> grid (a + 1) x.
Proof. intros [z H]. exists (z * 2)%Z. rewrite H, inject_Z_mult. replace (- a)%Z with (1 + - (a + 1))%Z by lia. rewrite two_add. change (2 ^ 1) with 2. change (inject_Z 2) with 2. ring. Qed.
Lemma two_half a : 2 ^ (- a) == 2 * 2 ^ (- (a + 1)).
Proof. replace (- a)%Z with (1 + - (a + 1))%Z by lia. rewrite two_add. reflexivity. Qed.
Lemma half_low a : 2 ^ (- (a + 1)) <= 2 ^ (51 - a).
Proof. replace (51 - a)%Z with (52 + - (a + 1))%Z by lia. rewrite two_add. pose proof (two_pos (- (a + 1))) as T. assert (1 <= 2 ^ 52) by discriminate. nra. Qed.
Lemma twice k : 2 ^ (k + 1) == 2 * 2 ^ k.
Proof. rewrite two_add. change (2 ^ 1) with 2. ring. Qed.

Section Way.
Variables (P : Type) (dist : P -> P -> Q) (along : P -> P -> Q -> P) (tol : Q) (a : Z) (speed : Q).
Hypothesis Hs : 0 < speed.
Hypothesis Ht : 0 <= tol.
Hypothesis Ht1 : tol <= 2 ^ (- (a + 1)).
Lemma where_comp : forall wps c e e' x y f f', e == e' -> f == f' -> whereat P dist speed c wps e x y f -> whereat P dist speed c wps e' x y f'.
Proof.
  induction wps as [|w wps IH]; intros c e e' x y f f' E F H; [exact H|]. cbn in *. destruct H as [(A & B & C & D & G)|[A B]].
  - left. split; [exact A|]. split; [exact B|]. rewrite <- E, <- F. auto.
  - right. split; [rewrite <- E; exact A|]. eapply IH; [| |exact B]; [rewrite E; reflexivity|exact F].
Qed.
Lemma len_pos : forall wps c, moving P dist c wps -> 0 <= len P dist c wps.
Proof. induction wps as [|w wps IH]; intros c M; cbn in *; [lra|]. destruct M as [M1 M2]. specialize (IH w M2). lra. Qed.
Lemma index_grid : forall wps c acc el i, moving P dist c wps -> legs_all P dist (grid a) speed c wps -> grid a acc -> grid a el -> 0 <= acc -> acc < el ->
  el <= acc + len P dist c wps / speed -> acc + len P dist c wps / speed <= 2 ^ (51 - a) ->
  exists l j tl, f_get_index rnd64 P tol (f_setup rnd64 P dist speed c wps) el acc i = Some (l, j, tl) /\ 0 < l_time l /\
    whereat P dist speed c wps (el - acc) (l_start l) (l_end l) (rnd64 (el - tl) / l_time l).
Proof.
  pose proof (half_low a) as Hl. pose proof (two_pos (51 - a)) as T51. pose proof (two_half a) as Th. pose proof (two_pos (- (a + 1))) as T1.
  assert (B53 : 2 ^ (53 - a) == 4 * 2 ^ (51 - a)) by (replace (53 - a)%Z with (51 - a + 1 + 1)%Z by lia; rewrite !twice; ring).
  assert (B52 : 2 ^ (53 - (a + 1)) == 2 * 2 ^ (51 - a)) by (replace (53 - (a + 1))%Z with (51 - a + 1)%Z by lia; apply twice).
  induction wps as [|w wps IH]; intros c acc el i M G Ga Ge H0 H1 H2 H3; cbn [len moving legs_all] in *; [exfalso; assert (0 / speed == 0) by (field; lra); lra|].
  destruct M as [M1 M2]. destruct G as [G1 G2]. pose proof (len_pos wps w M2) as Ln.
  assert (D0 : 0 < dist w c / speed) by (apply Qlt_shift_div_l; lra). assert (L0 : 0 <= len P dist w wps / speed) by (apply Qle_shift_div_l; lra).
  assert (Sp : (dist w c + len P dist w wps) / speed == dist w c / speed + len P dist w wps / speed) by (field; lra). rewrite Sp in H2, H3. clear Sp.
  cbn [f_setup f_get_index l_time whereat]. set (d := dist w c / speed) in *. set (R := len P dist w wps / speed) in *.
  assert (Ed : rnd64 d == d) by (apply (grid_exact a); [exact G1|rewrite Qabs_pos by lra; lra]).
  set (d' := rnd64 d) in *.
  assert (Es : rnd64 (acc + d') == acc + d) by (apply (grid_to a); [rewrite Ed; reflexivity|apply grid_add; assumption|rewrite Qabs_pos by lra; lra]).
  set (s := rnd64 (acc + d')) in *. assert (Gs : grid a s) by (apply (grid_comp _ (acc + d)); [symmetry; exact Es|apply grid_add; assumption]).
  assert (Lo : s <= rnd64 (s + tol)).
  { rewrite <- (grid_exact a s Gs) at 1 by (rewrite Qabs_pos by lra; lra). apply (r_mono _ _ rnd64_rounding). lra. }
  assert (Up : rnd64 (s + tol) <= s + 2 ^ (- (a + 1))).
  { rewrite <- (grid_exact (a + 1) (s + 2 ^ (- (a + 1)))).
    - apply (r_mono _ _ rnd64_rounding). lra.
    - apply grid_add; [apply grid_half; exact Gs|exists 1%Z; change (inject_Z 1) with 1; ring].
    - rewrite Qabs_pos by lra. lra. }
  destruct (Qleb el (rnd64 (s + tol))) eqn:E.
  - apply Qleb_le in E. assert (Le : el <= s) by (apply (grid_gap a); [exact Ge|exact Gs|lra]).
    exists (mkLeg d' (dist w c) c w), i, (rnd64 (s - d')). split; [reflexivity|]. cbn [l_time l_start l_end]. split; [lra|]. left. split; [reflexivity|]. split; [reflexivity|].
    split; [lra|]. split; [lra|].
    assert (Et : rnd64 (s - d') == acc) by (apply (grid_to a); [rewrite Es, Ed; ring|exact Ga|rewrite Qabs_pos by lra; lra]).
    assert (Ex : rnd64 (el - rnd64 (s - d')) == el - acc) by (apply (grid_to a); [rewrite Et; reflexivity|apply grid_sub; assumption|rewrite Qabs_pos by lra; lra]).
    rewrite Ex, Ed. field. lra.
  - apply Qleb_gt in E. destruct (IH w s el (S i) M2 G2 Gs Ge) as (l & j & tl & I1 & I2 & I3); [lra|lra|fold R; lra|fold R; lra|].
    exists l, j, tl. split; [exact I1|]. split; [exact I2|]. right. split; [lra|]. eapply where_comp; [| |exact I3]; [lra|reflexivity].
Qed.
Lemma read_grid t0 from wps : moving P dist from wps -> legs_all P dist (grid a) speed from wps -> grid a t0 ->
  len P dist from wps / speed <= 2 ^ (51 - a) ->
  let s := fst (f_depart rnd64 P dist along tol t0 from speed wps) in
  forall t v, grid a t -> t0 < t -> t <= t0 + len P dist from wps / speed -> exists x y f, whereat P dist speed from wps (t - t0) x y f /\
    f_pread rnd64 P dist along tol (mkP t v (p_act s)) = (mkP t (along x y (rnd64 f)) (p_act s), PVal (along x y (rnd64 f))).
Proof.
  intros M G Gt B s t v G1 L1 L2.
  assert (rnd0 : rnd64 (t0 - t0) == 0) by (apply (grid_to a); [ring|apply grid_zero|change (Qabs 0) with 0; apply Qlt_le_weak, two_pos]).
  assert (Es : s = mkP t0 from (Some (mkT t0 speed wps (Some (f_setup rnd64 P dist speed from wps))))).
  { unfold s, f_depart, f_pread. cbn [p_act f_do_setup k_legs k_speed k_wps p_now p_val k_start].
    assert (Qeqb speed 0 = false) as -> by (apply Qeqb_neq; lra). cbn [andb].
    assert (Qltb (rnd64 (t0 - t0)) 0 = false) as -> by (apply Qltb_ge; lra). rewrite (proj2 (Qeqb_eq _ _) rnd0). reflexivity. }
  rewrite Es. unfold f_pread. cbn [p_act f_do_setup k_legs p_now p_val k_start].
  assert (El : rnd64 (t - t0) == t - t0).
  { apply (grid_exact a); [apply grid_sub; assumption|]. rewrite Qabs_pos by lra. replace (53 - a)%Z with (51 - a + 1 + 1)%Z by lia. rewrite !twice. pose proof (two_pos (51 - a)). lra. }
  set (el := rnd64 (t - t0)) in *. assert (Gel : grid a el) by (apply (grid_comp _ (t - t0)); [symmetry; exact El|apply grid_sub; assumption]).
  assert (Qltb el 0 = false) as -> by (apply Qltb_ge; lra). assert (Qeqb el 0 = false) as -> by (apply Qeqb_neq; lra).
  destruct (index_grid wps from 0 el 0%nat M G (grid_zero a) Gel) as (l & j & tl & I1 & I2 & I3); [lra|lra|lra|lra|].
  rewrite I1. assert (Qeqb (l_time l) 0 = false) as -> by (apply Qeqb_neq; lra).
  exists (l_start l), (l_end l), (rnd64 (el - tl) / l_time l). split; [|reflexivity]. eapply where_comp; [| |exact I3]; [lra|reflexivity].
Qed.
End Way.
Lemma where_part P dist speed : 0 < speed -> forall wps c e x y f, moving P dist c wps -> whereat P dist speed c wps e x y f -> 0 < f <= 1.
Proof.
  intro Hs. induction wps as [|w wps IH]; intros c e x y f M H; cbn in *; [destruct H|]. destruct M as [M1 M2].
  destruct H as [(_ & _ & A & B & C)|[_ H]]; [|eapply IH; eassumption].
  assert (D0 : 0 < dist w c / speed) by (apply Qlt_shift_div_l; lra). set (d := dist w c / speed) in *. split; nra.
Qed.
Lemma where_end P dist speed : 0 < speed -> forall wps c e x y f, moving P dist c wps -> e == len P dist c wps / speed ->
  whereat P dist speed c wps e x y f -> y = last wps c /\ f == 1.
Proof.
  intro Hs. induction wps as [|w wps IH]; intros c e x y f M E H; cbn [moving len whereat] in *; [destruct H|]. destruct M as [M1 M2].
  assert (D0 : 0 < dist w c / speed) by (apply Qlt_shift_div_l; lra).
  assert (Sp : (dist w c + len P dist w wps) / speed == dist w c / speed + len P dist w wps / speed) by (field; lra). rewrite Sp in E.
  destruct H as [(_ & -> & A & B & C)|[A H]].
  - destruct wps as [|w' wps].
    + split; [reflexivity|]. cbn [len] in E. assert (Z0 : 0 / speed == 0) by (field; lra). apply (Qmult_inj_r _ _ (dist w c / speed)); lra.
    + exfalso. cbn [len moving] in *. destruct M2 as [M2 M3]. pose proof (len_pos P dist wps w' M3). assert (0 < (dist w' w + len P dist w' wps) / speed) by (apply Qlt_shift_div_l; lra). lra.
  - destruct (IH w (e - dist w c / speed) x y f M2 ltac:(lra) H) as [-> F]. split; [|exact F].
    destruct wps as [|w' wps]; [destruct H|]. cbn [last]. clear. revert w'. induction wps as [|z wps IH]; intro w'; [reflexivity|]. apply IH.
Qed.
Lemma where_one P dist speed : forall wps c e x y f x' y' f', 0 < speed -> moving P dist c wps ->
  whereat P dist speed c wps e x y f -> whereat P dist speed c wps e x' y' f' -> x = x' /\ y = y' /\ f == f'.
Proof.
  induction wps as [|w wps IH]; intros c e x y f x' y' f' Hs M H K; cbn in *; [destruct H|]. destruct M as [M1 M2].
  assert (D0 : 0 < dist w c / speed) by (apply Qlt_shift_div_l; lra).
  destruct H as [(-> & -> & A & B & C)|[A H]], K as [(-> & -> & A' & B' & C')|[A' K]]; try lra.
  - split; [reflexivity|]. split; [reflexivity|]. apply (Qmult_inj_r _ _ (dist w c / speed)); lra.
  - eapply IH; eassumption.
Qed.
Lemma total_grid P dist b : forall wps c acc, moving P dist c wps -> legs_all P dist (grid b) 1 c wps -> grid b acc -> 0 <= acc ->
  acc + len P dist c wps <= 2 ^ (53 - b) -> f_total_dist rnd64 P dist c wps acc == acc + len P dist c wps.
Proof.
  induction wps as [|w wps IH]; intros c acc M G Ga H0 B; cbn [moving legs_all len f_total_dist] in *; [ring|]. destruct M as [M1 M2]. destruct G as [G1 G2].
  pose proof (len_pos P dist wps w M2) as Ln. assert (Gd : grid b (dist w c)) by (apply (grid_comp _ (dist w c / 1)); [field|exact G1]).
  assert (E : rnd64 (acc + dist w c) == acc + dist w c) by (apply (grid_exact b); [apply grid_add; assumption|rewrite Qabs_pos by lra; lra]).
  rewrite (IH w (rnd64 (acc + dist w c)) M2 G2); [rewrite E; ring|apply (grid_comp _ (acc + dist w c)); [symmetry; exact E|apply grid_add; assumption]|lra|lra].
Qed.
Lemma legs_grid P dist a speed : 0 < speed -> forall wps c, legs_all P dist (grid a) speed c wps -> grid a (len P dist c wps / speed).
Proof.
  intro Hs. induction wps as [|w wps IH]; intros c G; cbn [legs_all len] in *; [apply (grid_comp _ 0); [field; lra|apply grid_zero]|]. destruct G as [G1 G2].
  apply (grid_comp _ (dist w c / speed + len P dist w wps / speed)); [field; lra|apply grid_add; auto].
Qed.
Lemma due_grid P dist a b speed t0 from wps : 0 < speed -> moving P dist from wps -> legs_all P dist (grid a) speed from wps -> legs_all P dist (grid b) 1 from wps ->
  grid a t0 -> 0 <= t0 -> len P dist from wps <= 2 ^ (53 - b) -> t0 + len P dist from wps / speed <= 2 ^ (53 - a) ->
  f_after rnd64 t0 (f_travel_time rnd64 P dist from wps speed) == t0 + len P dist from wps / speed.
Proof.
  intros Hs M Ga Gb Gt H0 B1 B2. pose proof (len_pos P dist wps from M) as Ln. assert (L0 : 0 <= len P dist from wps / speed) by (apply Qle_shift_div_l; lra).
  pose proof (legs_grid P dist a speed Hs wps from Ga) as Gl. pose proof (total_grid P dist b wps from 0 M Gb (grid_zero b) (Qle_refl 0) ltac:(lra)) as T.
  assert (E : f_travel_time rnd64 P dist from wps speed == len P dist from wps / speed).
  { unfold f_travel_time. apply (grid_to a); [rewrite T; field; lra|exact Gl|rewrite Qabs_pos by lra; lra]. }
  unfold f_after. apply (grid_to a); [rewrite E; reflexivity|apply grid_add; assumption|rewrite Qabs_pos by lra; lra].
Qed.
