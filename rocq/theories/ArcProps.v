(** Properties C83-C85: great circles past the range of a sensor. *)
From Coq Require Import Reals List Bool String Lia Lra Psatz ZArith.
From Verif Require Import PairModel GeoModel GeoSpec GeoProofs ArcModel ArcSpec ArcProofs.
Import ListNotations.
Open Scope string_scope.
Open Scope R_scope.

(** * C83: the calculations of great_circle_calcs.py *)
Theorem C83_distance : forall p q, get_dist_rad (rad p) (rad q) = Ok (angle p q).
Proof. exact dist_rad. Qed.

(** The position at an angle from the start of the great circle, its longitude between -180
    and 180 degrees. *)
Theorem C83_position : forall a b d w, between_poles a -> on_earth b -> ~ same_place a b -> ~ opposite a b -> toward a b w ->
  exists lat lon, get_pos (rad a) (rad b) d = Ok (deg lat, deg lon) /\ up (lat, lon) = along a w d /\ -180 <= lon < 180 /\ -90 <= lat <= 90.
Proof.
  intros a b d w P Q S O T. destruct (pos_ok a b d P Q S O) as [[lat lon] [E [U [L H]]]]. exists (degrees lat), (degrees lon).
  rewrite !deg_degrees. split; [exact E|]. rewrite (toward_heading a b w S O T). split; [exact U|]. split; [|exact H].
  simpl snd in L. pose proof PI_pos. unfold degrees. assert (K : 0 < 180 / PI) by (apply Rdiv_lt_0_compat; lra). assert (X : PI * (180 / PI) = 180) by (field; lra).
  set (q := 180 / PI) in *. clearbody q. split; nra.
Qed.

(** Where the way from [a] to [b] is within the angle [rho] of [c]: between the two points
    that are found.  For ways that do not come near the antipode of [a]. *)
Theorem C83_crossings : forall a b c w rho, between_poles a -> on_earth b -> on_earth c -> ~ same_place a b -> ~ opposite a b -> ~ same_place a c -> ~ opposite a c ->
  0 < rho < PI / 2 -> angle a b + rho <= PI -> toward a b w ->
  get_great_circle_points (rad a) (rad b) (rad c) rho = Ok None /\ (forall t, 0 <= t <= angle a b -> rho <= angle_to c (along a w t)) \/
  exists p1 p2 d1 d2, get_great_circle_points (rad a) (rad b) (rad c) rho = Ok (Some ((p1, p2), (d1, d2))) /\
    d1 < d2 /\ d1 <= angle a b /\ 0 <= d2 /\ up (degrees (fst p1), degrees (snd p1)) = along a w d1 /\ up (degrees (fst p2), degrees (snd p2)) = along a w d2 /\
    angle_to c (along a w d1) = rho /\ angle_to c (along a w d2) = rho /\
    forall t, 0 <= t <= angle a b -> (angle_to c (along a w t) <= rho <-> d1 <= t <= d2) /\ (angle_to c (along a w t) < rho <-> d1 < t < d2).
Proof. exact gcp_ok. Qed.

(** * C84: analytical_intersection on the ground *)
Lemma along_0 : forall a w, along a w 0 = up a.
Proof. intros a w. unfold along. rewrite cos_0, sin_0. destruct (up a) as [[? ?] ?], w as [[? ?] ?]. unfold mix. veq. Qed.
Lemma along_end : forall a b w, toward a b w -> along a w (angle a b) = up b.
Proof. intros a b w [_ [_ E]]. symmetry. exact E. Qed.
Lemma angle_to_up : forall c p, angle_to c (up p) = angle c p.
Proof. reflexivity. Qed.
Lemma Rltb_cases : forall x y, (Rltb x y = true /\ x < y) \/ (Rltb x y = false /\ y <= x).
Proof. intros x y. unfold Rltb. destruct (Rlt_dec x y); [left|right]; split; auto; lra. Qed.

(** The mover leaves [a] at time 0 with [speed], in the stage's unit of distance. *)
Theorem C84_on_the_ground : forall du m au k a b c w speed radius hc, is_unit du m -> is_unit au k ->
  between_poles a -> on_earth b -> on_earth c -> ~ same_place a b -> ~ opposite a b -> ~ same_place a c -> ~ opposite a c -> toward a b w ->
  0 < speed -> 0 < radius ->
  let rho := radius * m / RADIUS in let last := RADIUS * angle a b / m / speed in let pos t := along a w (speed * t * m / RADIUS) in
  rho < PI / 2 -> angle a b + rho <= PI -> angle c a <> rho -> angle c b <> rho ->
  exists l pt, analytical du au (at_height a 0) (at_height b 0) speed (at_height c hc) radius = Ok (l, pt) /\
    (l = [] /\ (forall t, 0 <= t <= last -> rho <= angle_to c (pos t)) \/
     exists x1 t1 k1 x2 t2 k2, l = [(x1, t1, k1); (x2, t2, k2)] /\ pt = last /\ 0 <= t1 < t2 /\ t2 <= last /\
       (forall t, 0 <= t <= last -> angle_to c (pos t) <= rho <-> t1 <= t <= t2) /\
       up (ground x1) = pos t1 /\ alt x1 = 0 /\ up (ground x2) = pos t2 /\ alt x2 = 0 /\
       (k1 = START_INSIDE /\ angle c a < rho /\ t1 = 0 \/ k1 = ENTER /\ rho < angle c a /\ angle_to c (pos t1) = rho) /\
       (k2 = END_INSIDE /\ angle c b < rho /\ t2 = last \/ k2 = EXIT /\ rho < angle c b /\ angle_to c (pos t2) = rho)).
Proof.
  intros du m au k a b c w speed radius hc U UA P QB QC SB OB SC OC TW SP RP rho last pos RH AR NA NB.
  destruct (unit_of _ _ U) as [M _]. pose proof RADIUS_pos as RD. destruct (arc_pos a b SB OB) as [AB _].
  destruct (conv_factor au k du m UA U) as [f [FP F]].
  pose proof (analytic_ok du m au f a b c w speed radius 0 0 hc U F P QB QC SB OB SC OC TW SP) as H. cbv zeta in H.
  assert (ER : 0 < RADIUS / m) by (apply Rdiv_lt_0_compat; assumption).
  replace (sqrt (radius ^ 2 - ((0 + 0) / 2 * f) ^ 2) / (RADIUS / m)) with rho in H.
  2: { replace (sqrt (radius ^ 2 - ((0 + 0) / 2 * f) ^ 2)) with radius; [unfold rho; field; lra|]. symmetry. apply sqrt_unique'; [lra|]. replace ((0 + 0) / 2) with 0 by field. ring. }
  assert (H0 : ((0 + 0) / 2 * f) ^ 2 < radius ^ 2) by (replace ((0 + 0) / 2) with 0 by field; nra).
  specialize (H H0 RH AR).
  assert (AT : forall t, 0 <= t <= last -> 0 <= speed * t * m / RADIUS <= angle a b).
  { intros t T. assert (speed * t * m / RADIUS = t * (speed * m / RADIUS)) as -> by (field; lra).
    assert (K : 0 < speed * m / RADIUS) by (apply Rdiv_lt_0_compat; [apply Rmult_lt_0_compat; lra|lra]). split; [apply Rmult_le_pos; lra|].
    replace (angle a b) with (last * (speed * m / RADIUS)) by (unfold last; field; lra). apply Rmult_le_compat_r; lra. }
  destruct H as [[E H]|[p1 [p2 [d1 [d2 [D1 [D2 [D3 [P1 [P2 [A1 [A2 [WIN E]]]]]]]]]]]]].
  - exists [], (-1). split; [exact E|]. left. split; [reflexivity|]. intros t T. apply H. apply AT. exact T.
  - destruct (WIN 0) as [W0 W0']; [lra|]. rewrite along_0, angle_to_up in W0, W0'.
    destruct (WIN (angle a b)) as [W1 W1']; [lra|]. rewrite (along_end a b w TW), angle_to_up in W1, W1'.
    assert (CA : forall d, code_alt 0 0 (angle a b) d = 0) by (intro d; unfold code_alt; field; lra). rewrite !CA in E.
    replace (0.5 * (0 + 0) * f) with 0 in E by lra. rewrite !Rplus_0_r in E.
    assert (POS : forall d, pos (d * (RADIUS / m) / speed) = along a w d) by (intro d; unfold pos; f_equal; field; lra).
    assert (POS0 : pos 0 = up a) by (unfold pos; rewrite <- (along_0 a w); f_equal; field; lra).
    assert (TS : forall d e, d * (RADIUS / m) / speed < e * (RADIUS / m) / speed <-> d < e).
    { intros d e. replace (d * (RADIUS / m) / speed) with (d * (RADIUS / m / speed)) by (field; lra). replace (e * (RADIUS / m) / speed) with (e * (RADIUS / m / speed)) by (field; lra).
      assert (K : 0 < RADIUS / m / speed) by (apply Rdiv_lt_0_compat; lra). split; intro X; [apply Rmult_lt_reg_r in X; lra|apply Rmult_lt_compat_r; lra]. }
    assert (TL : forall d e, d * (RADIUS / m) / speed <= e * (RADIUS / m) / speed <-> d <= e).
    { intros d e. specialize (TS e d). destruct (Rle_dec d e); destruct (Rle_dec (d * (RADIUS / m) / speed) (e * (RADIUS / m) / speed)); split; intro; try lra; exfalso; lra. }
    assert (LA : last = angle a b * (RADIUS / m) / speed) by (unfold last; field; lra).
    assert (TW' : forall t, t = (speed * t * m / RADIUS) * (RADIUS / m) / speed) by (intro t; field; lra).
    assert (Z0 : 0 = 0 * (RADIUS / m) / speed) by (field; lra).
    eexists; eexists. split; [exact E|]. right. rewrite <- LA.
    destruct (Rltb_cases (angle c a) rho) as [[-> CS]|[-> CS]]; destruct (Rltb_cases (angle c b) rho) as [[-> CF]|[-> CF]].
    + exists (at_height a 0), 0, START_INSIDE, (at_height b 0), last, END_INSIDE. apply W0' in CS. apply W1' in CF.
      split; [reflexivity|]. split; [reflexivity|]. split; [split; [lra|rewrite LA, Z0; apply TS; lra]|]. split; [lra|]. split.
      { intros t T. destruct (WIN _ (AT t T)) as [X _]. unfold pos. rewrite X. pose proof (AT t T). lra. }
      split; [rewrite POS0; unfold ground, at_height; simpl fst; rewrite <- surjective_pairing; reflexivity|]. split; [reflexivity|].
      split; [rewrite LA, POS, (along_end a b w TW); unfold ground, at_height; simpl fst; rewrite <- surjective_pairing; reflexivity|]. split; [reflexivity|].
      split; left; (split; [reflexivity|]; split; [apply W0' || apply W1'; lra|reflexivity]).
    + assert (CF' : rho < angle c b) by lra. assert (D2' : d2 < angle a b).
      { destruct (Rlt_dec d2 (angle a b)) as [X|X]; [exact X|]. exfalso. assert (angle c b <= rho) by (apply W1; lra). lra. }
      exists (at_height a 0), 0, START_INSIDE. eexists; eexists; exists EXIT. apply W0' in CS.
      split; [reflexivity|]. split; [reflexivity|]. split; [split; [lra|rewrite Z0 at 1; apply TS; lra]|]. split; [rewrite LA; apply TL; lra|]. split.
      { intros t T. destruct (WIN _ (AT t T)) as [X _]. unfold pos. rewrite X. rewrite (TW' t) at 4. rewrite TL. pose proof (AT t T). lra. }
      split; [rewrite POS0; unfold ground, at_height; simpl fst; rewrite <- surjective_pairing; reflexivity|]. split; [reflexivity|].
      split; [rewrite POS; exact P2|]. split; [reflexivity|]. split; [left; split; [reflexivity|]; split; [apply W0'; lra|reflexivity]|].
      right. split; [reflexivity|]. split; [exact CF'|]. rewrite POS. exact A2.
    + assert (CS' : rho < angle c a) by lra. assert (D1' : 0 < d1).
      { destruct (Rlt_dec 0 d1) as [X|X]; [exact X|]. exfalso. assert (angle c a <= rho) by (apply W0; lra). lra. }
      eexists; eexists; exists ENTER, (at_height b 0), last, END_INSIDE. apply W1' in CF.
      split; [reflexivity|]. split; [reflexivity|]. split; [split; [rewrite Z0; apply TL; lra|rewrite LA; apply TS; lra]|]. split; [lra|]. split.
      { intros t T. destruct (WIN _ (AT t T)) as [X _]. unfold pos. rewrite X. rewrite (TW' t) at 3. rewrite TL. pose proof (AT t T). lra. }
      split; [rewrite POS; exact P1|]. split; [reflexivity|].
      split; [rewrite LA, POS, (along_end a b w TW); unfold ground, at_height; simpl fst; rewrite <- surjective_pairing; reflexivity|]. split; [reflexivity|].
      split; [right; split; [reflexivity|]; split; [exact CS'|]; rewrite POS; exact A1|].
      left. split; [reflexivity|]. split; [apply W1'; lra|reflexivity].
    + assert (CF' : rho < angle c b) by lra. assert (D2' : d2 < angle a b).
      { destruct (Rlt_dec d2 (angle a b)) as [X|X]; [exact X|]. exfalso. assert (angle c b <= rho) by (apply W1; lra). lra. }
      assert (CS' : rho < angle c a) by lra. assert (D1' : 0 < d1).
      { destruct (Rlt_dec 0 d1) as [X|X]; [exact X|]. exfalso. assert (angle c a <= rho) by (apply W0; lra). lra. }
      eexists; eexists; exists ENTER; eexists; eexists; exists EXIT.
      split; [reflexivity|]. split; [reflexivity|]. split; [split; [rewrite Z0; apply TL; lra|apply TS; lra]|]. split; [rewrite LA; apply TL; lra|]. split.
      { intros t T. destruct (WIN _ (AT t T)) as [X _]. unfold pos. rewrite X. rewrite (TW' t) at 3 4. rewrite !TL. pose proof (AT t T). lra. }
      split; [rewrite POS; exact P1|]. split; [reflexivity|]. split; [rewrite POS; exact P2|]. split; [reflexivity|].
      split; right; (split; [reflexivity|]; split; [assumption|]; rewrite POS; assumption).
Qed.

(** In level flight at the height [h] ([h'] in the unit of distances) the part in range is
    that of the ground track, for the radius less the height; times of crossings are those
    at the height (the path time is not: C85). *)
Theorem C84_level_flight : forall du m au k a b c w speed radius h h' hc, is_unit du m -> is_unit au k -> unit_convert h au du = Ok h' ->
  between_poles a -> on_earth b -> on_earth c -> ~ same_place a b -> ~ opposite a b -> ~ same_place a c -> ~ opposite a c -> toward a b w ->
  0 < speed -> h' ^ 2 < radius ^ 2 ->
  let rho := sqrt (radius ^ 2 - h' ^ 2) * m / RADIUS in
  rho < PI / 2 -> angle a b + rho <= PI ->
  exists l pt, analytical du au (at_height a h) (at_height b h) speed (at_height c hc) radius = Ok (l, pt) /\
    (l = [] /\ (forall t, 0 <= t <= angle a b -> rho <= angle_to c (along a w t)) \/
     exists x1 d1 e1 x2 d2 e2, l = [e1; e2] /\ pt = RADIUS * angle a b / m / speed /\ d1 < d2 /\
       (forall t, 0 <= t <= angle a b -> angle_to c (along a w t) <= rho <-> d1 <= t <= d2) /\
       up x1 = along a w d1 /\ up x2 = along a w d2 /\
       (angle c a < rho /\ e1 = (at_height a h, 0, START_INSIDE) \/ rho <= angle c a /\ e1 = (at_height x1 h, d1 * (RADIUS / m + h') / speed, ENTER)) /\
       (angle c b < rho /\ e2 = (at_height b h, pt, END_INSIDE) \/ rho <= angle c b /\ e2 = (at_height x2 h, d2 * (RADIUS / m + h') / speed, EXIT))).
Proof.
  intros du m au k a b c w speed radius h h' hc U UA HC P QB QC SB OB SC OC TW SP RP rho RH AR.
  destruct (unit_of _ _ U) as [M _]. pose proof RADIUS_pos as RD. destruct (arc_pos a b SB OB) as [AB _].
  destruct (conv_factor au k du m UA U) as [f [FP F]]. rewrite F in HC. injection HC as HC.
  pose proof (analytic_ok du m au f a b c w speed radius h h hc U F P QB QC SB OB SC OC TW SP) as H. cbv zeta in H.
  replace ((h + h) / 2 * f) with h' in H by (rewrite <- HC; field).
  replace (sqrt (radius ^ 2 - h' ^ 2) / (RADIUS / m)) with rho in H by (unfold rho; field; lra).
  specialize (H RP RH AR). destruct H as [[E H]|[p1 [p2 [d1 [d2 [D1 [D2 [D3 [P1 [P2 [A1 [A2 [WIN E]]]]]]]]]]]]].
  - exists [], (-1). split; [exact E|]. left. split; [reflexivity|exact H].
  - eexists; eexists. split; [exact E|]. right. exists (degrees (fst p1), degrees (snd p1)), d1. eexists. exists (degrees (fst p2), degrees (snd p2)), d2. eexists.
    split; [reflexivity|]. split; [field; lra|]. split; [exact D1|]. split; [intros t T; apply WIN; exact T|]. split; [exact P1|]. split; [exact P2|].
    assert (CA : forall d, code_alt h h (angle a b) d = h) by (intro d; unfold code_alt; field; lra). rewrite !CA.
    replace (0.5 * (h + h) * f) with h' by lra.
    split; [destruct (Rltb_cases (angle c a) rho) as [[-> CS]|[-> CS]]|destruct (Rltb_cases (angle c b) rho) as [[-> CS]|[-> CS]]];
      [left|right|left|right]; (split; [exact CS|]); reflexivity.
Qed.

(** ** Ways along the equator, for examples *)
Lemma up_eq : forall x, up (0, x) = (cos (deg x), sin (deg x), 0).
Proof. intro x. unfold up. replace (deg 0) with 0 by (unfold deg; field). rewrite cos_0, sin_0. veq. Qed.
Lemma along_eq : forall t, along (0, 0) (0, 1, 0) t = (cos t, sin t, 0).
Proof. intro t. unfold along. rewrite up_eq. replace (deg 0) with 0 by (unfold deg; field). rewrite cos_0, sin_0. unfold mix. veq. Qed.
Lemma acos_abs : forall x, - PI <= x <= PI -> acos (cos x) = Rabs x.
Proof.
  intros x X. unfold Rabs. destruct (Rcase_abs x); [|apply acos_cos; lra]. rewrite <- cos_neg. apply acos_cos. lra.
Qed.
Lemma to_eq : forall x t, - PI <= t - deg x <= PI -> angle_to (0, x) (along (0, 0) (0, 1, 0) t) = Rabs (t - deg x).
Proof.
  intros x t H. unfold angle_to. rewrite along_eq, up_eq. unfold dot. replace (cos (deg x) * cos t + sin (deg x) * sin t + 0 * 0) with (cos (t - deg x)) by (rewrite cos_minus; ring).
  apply acos_abs. exact H.
Qed.
Lemma angle_eq : forall x y, - PI <= deg y - deg x <= PI -> angle (0, x) (0, y) = Rabs (deg y - deg x).
Proof.
  intros x y H. unfold angle. rewrite !up_eq. unfold dot. replace (cos (deg x) * cos (deg y) + sin (deg x) * sin (deg y) + 0 * 0) with (cos (deg y - deg x)) by (rewrite cos_minus; ring).
  apply acos_abs. exact H.
Qed.
Lemma degs : forall x, deg x = x * (PI / 180). Proof. intro x. unfold deg. field. Qed.
Lemma from00 : forall x, 0 <= x <= 180 -> angle (0, 0) (0, x) = deg x.
Proof. intros x H. pose proof PI_pos. rewrite angle_eq; rewrite !degs; [|split; nra]. rewrite Rabs_right; nra. Qed.
Lemma toward_eq : forall x, 0 <= x <= 180 -> toward (0, 0) (0, x) (0, 1, 0).
Proof.
  intros x H. split; [unfold dot; ring|]. split; [rewrite up_eq; unfold dot; replace (deg 0) with 0 by (unfold deg; field); rewrite sin_0; ring|].
  rewrite from00 by exact H. rewrite up_eq. fold (along (0, 0) (0, 1, 0) (deg x)). rewrite along_eq. reflexivity.
Qed.
Lemma apart : forall x, 0 < x < 180 \/ -180 < x < 0 -> ~ same_place (0, 0) (0, x) /\ ~ opposite (0, 0) (0, x).
Proof.
  intros x H. pose proof PI_pos. assert (B : - PI < deg x < PI) by (rewrite degs; split; nra). assert (N : deg x <> 0) by (rewrite degs; nra).
  assert (S : sin (deg x) <> 0).
  { destruct (Rlt_dec 0 (deg x)); [assert (0 < sin (deg x)) by (apply sin_gt_0; lra); lra|]. assert (0 < sin (- deg x)) by (apply sin_gt_0; lra). rewrite sin_neg in *. lra. }
  unfold same_place, opposite. rewrite !up_eq. replace (deg 0) with 0 by (unfold deg; field). rewrite cos_0, sin_0. unfold mix.
  split; intro E; injection E as E1 E2; lra.
Qed.
Lemma oe : forall x, on_earth (0, x). Proof. intro x. red. simpl. lra. Qed.
Lemma bp : between_poles (0, 0). Proof. red. simpl. lra. Qed.
Lemma metre : is_unit "m" 1. Proof. left. reflexivity. Qed.
Lemma m_to_m : forall x, unit_convert x "m" "m" = Ok (x * 1).
Proof.
  intro x. unfold unit_convert. set (o := UnitsModel.unit_convert _ _ _). vm_compute in o. unfold o. clear o. f_equal. f_equal. unfold Q2R. simpl. field.
Qed.


(** The two angles, if the range is well inside the way. *)
Lemma window_eq : forall l x rho d1 d2, 0 < l <= 180 -> 0 < rho -> rho < deg x -> deg x + rho < deg l -> d1 < d2 ->
  (forall t, 0 <= t <= deg l -> (angle_to (0, x) (along (0, 0) (0, 1, 0) t) <= rho <-> d1 <= t <= d2) /\ (angle_to (0, x) (along (0, 0) (0, 1, 0) t) < rho <-> d1 < t < d2)) ->
  d1 = deg x - rho /\ d2 = deg x + rho.
Proof.
  intros l x rho d1 d2 L RP A B D W. pose proof PI_pos as PP. assert (LP : deg l <= PI) by (rewrite degs; nra).
  assert (V : forall t, 0 <= t <= deg l -> (Rabs (t - deg x) <= rho <-> d1 <= t <= d2) /\ (Rabs (t - deg x) < rho <-> d1 < t < d2)).
  { intros t T. specialize (W t T). rewrite to_eq in W by lra. exact W. }
  destruct (V (deg x)) as [_ [M _]]; [lra|]. destruct M as [M1 M2]; [rewrite Rminus_diag_eq, Rabs_R0 by reflexivity; exact RP|].
  destruct (V (deg x - rho)) as [[P1 _] [_ P2]]; [lra|]. replace (deg x - rho - deg x) with (- rho) in * by ring. rewrite Rabs_Ropp, Rabs_right in P1, P2 by lra.
  destruct (V (deg x + rho)) as [[Q1 _] [_ Q2]]; [lra|]. replace (deg x + rho - deg x) with rho in * by ring. rewrite Rabs_right in Q1, Q2 by lra.
  split.
  - destruct (Rlt_dec d1 (deg x - rho)); [exfalso|]; [assert (rho < rho) by (apply P2; lra); lra|]. assert (d1 <= deg x - rho) by (apply P1; lra). lra.
  - destruct (Rlt_dec (deg x + rho) d2); [exfalso|]; [assert (rho < rho) by (apply Q2; lra); lra|]. assert (deg x + rho <= d2) by (apply Q1; lra). lra.
Qed.
(** The whole result along the equator, everything in metres, for a sensor well inside the
    way and a radius that leaves the angle [rho] at the mean height. *)
Lemma analytic_eq : forall l x rho ha hb hc speed, 0 < l < 180 -> 0 < speed -> 0 < rho < PI / 2 -> rho < deg x -> deg x + rho < deg l -> deg l + rho <= PI ->
  exists q1 q2, let cross q d := (q, code_alt ha hb (deg l) d, d * (RADIUS + 0.5 * (ha + code_alt ha hb (deg l) d)) / speed) in
  analytical "m" "m" (at_height (0, 0) ha) (at_height (0, l) hb) speed (at_height (0, x) hc) (sqrt ((rho * RADIUS) ^ 2 + ((ha + hb) / 2) ^ 2)) =
    Ok ([(cross q1 (deg x - rho), ENTER); (cross q2 (deg x + rho), EXIT)], deg l * RADIUS / speed).
Proof.
  intros l x rho ha hb hc speed L SP RH A B LR. pose proof PI_pos as PP. pose proof RADIUS_pos as RP.
  assert (DX : 0 < x < l). { rewrite !degs in *. split; nra. }
  destruct (apart l) as [SB OB]; [lra|]. destruct (apart x) as [SC OC]; [lra|].
  assert (S0 : 0 <= (rho * RADIUS) ^ 2 + ((ha + hb) / 2) ^ 2) by apply sum_squares.
  pose proof (analytic_ok "m" 1 "m" 1 (0, 0) (0, l) (0, x) (0, 1, 0) speed (sqrt ((rho * RADIUS) ^ 2 + ((ha + hb) / 2) ^ 2)) ha hb hc metre m_to_m bp (oe l) (oe x) SB OB SC OC (toward_eq l ltac:(lra)) SP) as H.
  cbv zeta in H. rewrite sqrt_pow2' in H by exact S0.
  replace ((rho * RADIUS) ^ 2 + ((ha + hb) / 2) ^ 2 - ((ha + hb) / 2 * 1) ^ 2) with ((rho * RADIUS) ^ 2) in H by ring.
  rewrite sqrt_pow2 in H by nra. replace (rho * RADIUS / (RADIUS / 1)) with rho in H by (field; lra).
  assert (H1 : ((ha + hb) / 2 * 1) ^ 2 < (rho * RADIUS) ^ 2 + ((ha + hb) / 2) ^ 2) by (assert (0 < rho * RADIUS) by nra; nra).
  rewrite from00 in H by lra. specialize (H H1 ltac:(lra) LR). destruct H as [[_ H]|[p1 [p2 [d1 [d2 [D [_ [_ [_ [_ [_ [_ [W E]]]]]]]]]]]]].
  - exfalso. specialize (H (deg x)). rewrite to_eq, Rminus_diag_eq, Rabs_R0 in H by lra. lra.
  - destruct (window_eq l x rho d1 d2 ltac:(lra) ltac:(lra) A B D W) as [-> ->].
    exists (degrees (fst p1), degrees (snd p1)), (degrees (fst p2), degrees (snd p2)). cbv zeta. replace (RADIUS / 1) with RADIUS in E by field. rewrite !Rmult_1_r in E. rewrite E.
    rewrite (angle_sym (0, x) (0, 0)), from00 by lra. rewrite (angle_eq x l) by lra. rewrite (Rabs_right (deg l - deg x)) by lra.
    rewrite !Rltb_false by lra. reflexivity.
Qed.

(** ** Non-vacuity: a sensor half way *)
Example C83_on_the_equator : exists p1 p2, get_great_circle_points (rad (0, 0)) (rad (0, 60)) (rad (0, 30)) (deg 10) = Ok (Some ((p1, p2), (deg 20, deg 40))) /\
  up (degrees (fst p1), degrees (snd p1)) = up (0, 20) /\ up (degrees (fst p2), degrees (snd p2)) = up (0, 40).
Proof.
  pose proof PI_pos as PP. destruct (apart 60) as [SB OB]; [lra|]. destruct (apart 30) as [SC OC]; [lra|].
  assert (AB : angle (0, 0) (0, 60) = deg 60) by (apply from00; lra).
  destruct (C83_crossings (0, 0) (0, 60) (0, 30) (0, 1, 0) (deg 10) bp (oe 60) (oe 30) SB OB SC OC) as [[_ H]|[p1 [p2 [d1 [d2 [E [D [_ [_ [U1 [U2 [_ [_ W]]]]]]]]]]]]];
    [rewrite degs; lra|rewrite AB, !degs; lra|apply toward_eq; lra| |].
  - exfalso. specialize (H (deg 30)). rewrite AB, to_eq, Rminus_diag_eq, Rabs_R0 in H by (try reflexivity; lra). rewrite !degs in H. assert (10 * (PI / 180) <= 0) by (apply H; lra). lra.
  - rewrite AB in W. destruct (window_eq 60 30 (deg 10) d1 d2) as [-> ->]; try exact W; try exact D; try (rewrite !degs; lra); try lra; try (rewrite degs; lra).
    exists p1, p2. replace (deg 30 - deg 10) with (deg 20) in * by (rewrite !degs; lra). replace (deg 30 + deg 10) with (deg 40) in * by (rewrite !degs; lra).
    split; [exact E|]. rewrite U1, U2, !along_eq, !up_eq. split; reflexivity.
Qed.
(** ** Non-vacuity: from out of range through it *)
Example C84_past_a_sensor : exists x1 t1 x2 t2, analytical "m" "m" (at_height (0, 0) 0) (at_height (0, 60) 0) 10 (at_height (0, 30) 0) (sqrt ((deg 10 * RADIUS) ^ 2 + ((0 + 0) / 2) ^ 2))
  = Ok ([(x1, t1, ENTER); (x2, t2, EXIT)], deg 60 * RADIUS / 10) /\ 0 < t1 < t2 /\ t2 < deg 60 * RADIUS / 10.
Proof.
  pose proof PI_pos as PP. pose proof RADIUS_pos as RP.
  destruct (analytic_eq 60 30 (deg 10) 0 0 0 10) as [q1 [q2 E]]; try (rewrite ?degs; lra). cbv beta zeta in E.
  eexists _, _, _, _. split; [exact E|]. assert (C : forall d, code_alt 0 0 (deg 60) d = 0) by (intro d; unfold code_alt; rewrite degs; field; lra). rewrite !C, !degs.
  assert (0 < PI * RADIUS) by nra. split; [split|]; lra.
Qed.

Example C84_at_ten_kilometres : exists x1 t1 x2 t2, analytical "m" "m" (at_height (0, 0) 10000) (at_height (0, 60) 10000) 10 (at_height (0, 30) 0) (sqrt ((deg 10 * RADIUS) ^ 2 + ((10000 + 10000) / 2) ^ 2))
  = Ok ([(x1, t1, ENTER); (x2, t2, EXIT)], deg 60 * RADIUS / 10) /\ t1 = deg 20 * (RADIUS + 10000) / 10 /\ t2 = deg 40 * (RADIUS + 10000) / 10.
Proof.
  pose proof PI_pos as PP. pose proof RADIUS_pos as RP.
  destruct (analytic_eq 60 30 (deg 10) 10000 10000 0 10) as [q1 [q2 E]]; try (rewrite ?degs; lra). cbv beta zeta in E.
  eexists _, _, _, _. split; [exact E|]. assert (C : forall d, code_alt 10000 10000 (deg 60) d = 10000) by (intro d; unfold code_alt; rewrite degs; field; lra). rewrite !C, !degs.
  split; lra.
Qed.

(** * C85: what does not hold of analytical_intersection *)
(** The path time is the time on the ground; the crossing times are those at altitude. *)
Theorem C85_level_flight_refuted : ~ (forall a b c w speed h radius l pt, between_poles a -> on_earth b -> on_earth c -> ~ same_place a b -> ~ opposite a b -> ~ same_place a c -> ~ opposite a c ->
  toward a b w -> 0 < speed -> 0 <= h < radius -> angle a b + radius / RADIUS <= PI ->
  analytical "m" "m" (at_height a h) (at_height b h) speed (at_height c 0) radius = Ok (l, pt) -> forall x t k, In (x, t, k) l -> t <= pt).
Proof.
  intro H. pose proof PI_pos as PP. assert (RR : RADIUS = 6378137) by reflexivity. set (rho := deg (599 / 20)).
  destruct (analytic_eq 60 30 rho 10000 10000 0 1) as [q1 [q2 E]]; try (unfold rho; rewrite ?degs; lra). cbv beta zeta in E.
  destruct (apart 60) as [SB OB]; [lra|]. destruct (apart 30) as [SC OC]; [lra|].
  set (radius := sqrt ((rho * RADIUS) ^ 2 + ((10000 + 10000) / 2) ^ 2)) in *.
  assert (RA : 10000 < radius < rho * RADIUS + 10000).
  { assert (RP : 3 < PI <= 4) by (pose proof PI2_3_2; pose proof PI_4; unfold PI2 in *; lra). assert (K : 0 < rho * RADIUS) by (unfold rho; rewrite degs, RR; nra).
    assert (R2 : radius ^ 2 = (rho * RADIUS) ^ 2 + ((10000 + 10000) / 2) ^ 2) by (apply sqrt_pow2'; nra). assert (0 <= radius) by apply sqrt_pos. split; nra. }
  assert (AR : angle (0, 0) (0, 60) + radius / RADIUS <= PI).
  { rewrite from00 by lra. assert (radius / RADIUS <= PI / 2).
    { apply Rmult_le_reg_r with RADIUS; [lra|]. replace (radius / RADIUS * RADIUS) with radius by (field; lra). unfold rho in RA. rewrite degs in RA. assert (3 < PI) by (pose proof PI2_3_2; unfold PI2 in *; lra). rewrite RR in *. nra. }
    rewrite degs. lra. }
  pose proof (H (0, 0) (0, 60) (0, 30) (0, 1, 0) 1 10000 radius _ _ bp (oe 60) (oe 30) SB OB SC OC (toward_eq 60 ltac:(lra)) ltac:(lra) ltac:(lra) AR E _ _ _ (or_intror (or_introl eq_refl))) as X; clear H; rename X into H. 
  assert (C : forall d, code_alt 10000 10000 (deg 60) d = 10000) by (intro d; unfold code_alt; rewrite degs; field; lra). rewrite C in H. unfold rho in H. rewrite !degs, RR in H.
  lra.
Qed.

(** In a climb the altitude of the crossing is divided by the length of the way twice. *)
Theorem C85_climb_refuted : ~ (forall a b c w speed ha hb radius l pt, between_poles a -> on_earth b -> on_earth c -> ~ same_place a b -> ~ opposite a b -> ~ same_place a c -> ~ opposite a c ->
  toward a b w -> 0 < speed -> 0 <= ha <= hb -> hb < radius -> angle a b + radius / RADIUS <= PI ->
  analytical "m" "m" (at_height a ha) (at_height b hb) speed (at_height c 0) radius = Ok (l, pt) -> forall x t k, In (x, t, k) l -> ha <= alt x <= hb).
Proof.
  intro H. assert (RP : 3 < PI <= 4) by (pose proof PI2_3_2; pose proof PI_4; unfold PI2 in *; lra). assert (RR : RADIUS = 6378137) by reflexivity. set (rho := deg 1).
  destruct (analytic_eq 3 (3 / 2) rho 0 1000 0 1) as [q1 [q2 E]]; try (unfold rho; rewrite ?degs; lra). cbv beta zeta in E.
  destruct (apart 3) as [SB OB]; [lra|]. destruct (apart (3 / 2)) as [SC OC]; [lra|].
  set (radius := sqrt ((rho * RADIUS) ^ 2 + ((0 + 1000) / 2) ^ 2)) in *.
  assert (RA : 1000 < radius < rho * RADIUS + 1000).
  { assert (K : 100000 < rho * RADIUS) by (unfold rho; rewrite degs, RR; nra).
    assert (R2 : radius ^ 2 = (rho * RADIUS) ^ 2 + ((0 + 1000) / 2) ^ 2) by (apply sqrt_pow2'; nra). assert (0 <= radius) by apply sqrt_pos. split; nra. }
  assert (AR : angle (0, 0) (0, 3) + radius / RADIUS <= PI).
  { rewrite from00 by lra. assert (radius / RADIUS <= PI / 2).
    { apply Rmult_le_reg_r with RADIUS; [lra|]. replace (radius / RADIUS * RADIUS) with radius by (field; lra). unfold rho in RA. rewrite degs in RA. rewrite RR in *. nra. }
    rewrite degs. lra. }
  pose proof (H (0, 0) (0, 3) (0, 3 / 2) (0, 1, 0) 1 0 1000 radius _ _ bp (oe 3) (oe (3 / 2)) SB OB SC OC (toward_eq 3 ltac:(lra)) ltac:(lra) ltac:(lra) ltac:(lra) AR E _ _ _ (or_introl eq_refl)) as X; clear H; rename X into H. unfold alt in H. cbn [snd] in H. unfold code_alt, rho in H. rewrite !degs in H.
  replace (0 + (3 / 2 * (PI / 180) - 1 * (PI / 180)) / (3 * (PI / 180)) * ((1000 - 0) / (3 * (PI / 180)))) with (10000 * / PI) in H by (field; lra).
  assert (10000 * / PI <= 1000) by lra. apply Rmult_le_compat_r with (r := PI) in H0; [|lra]. rewrite Rmult_assoc, Rinv_l in H0 by lra. lra.
Qed.

(** A sensor at the place the way starts from (or at its antipode). *)
Theorem C85_sensor_at_the_start : forall du m au k a b c speed radius ha hb hc, is_unit du m -> is_unit au k ->
  ha = 0 -> hb = 0 -> same_place a c \/ opposite a c -> analytical du au (at_height a ha) (at_height b hb) speed (at_height c hc) radius = Err DivisionErr.
Proof.
  intros du m au k a b c speed radius ha hb hc U UA -> -> S. destruct (conv_factor au k du m UA U) as [f [FP F]].
  apply (analytic_at_start du m au f); [exact U|exact F| |exact S]. replace ((0 + 0) / 2) with 0 by field. replace ((0 * f) ^ 2) with 0 by ring. nra.
Qed.
Theorem C85_sensor_at_the_start_refuted : ~ (forall a b speed radius, between_poles a -> on_earth b -> ~ same_place a b -> ~ opposite a b -> 0 < speed -> 0 < radius -> 
  exists l pt, analytical "m" "m" (at_height a 0) (at_height b 0) speed (at_height a 0) radius = Ok (l, pt)).
Proof.
  intro H. destruct (apart 60) as [SB OB]; [lra|]. destruct (H (0, 0) (0, 60) 1 1000 bp (oe 60) SB OB ltac:(lra) ltac:(lra)) as [l [pt E]].
  rewrite (C85_sensor_at_the_start "m" 1 "m" 1) in E; [discriminate|exact metre|exact metre|reflexivity|reflexivity|left; reflexivity].
Qed.
(** A way above the sensor's range. *)
Theorem C85_above_the_range_refuted : ~ (forall a b c speed radius h, between_poles a -> on_earth b -> on_earth c -> ~ same_place a b -> ~ opposite a b -> ~ same_place a c -> ~ opposite a c ->
  0 < speed -> 0 < radius -> 0 <= h -> exists l pt, analytical "m" "m" (at_height a h) (at_height b h) speed (at_height c 0) radius = Ok (l, pt)).
Proof.
  intro H. destruct (apart 60) as [SB OB]; [lra|]. destruct (apart 30) as [SC OC]; [lra|].
  destruct (H (0, 0) (0, 60) (0, 30) 1 1000 2000 bp (oe 60) (oe 30) SB OB SC OC ltac:(lra) ltac:(lra) ltac:(lra)) as [l [pt E]].
  rewrite (analytic_above "m" 1 "m" 1) in E; [discriminate|exact metre|exact m_to_m|lra].
Qed.
(** Without a crossing the path time is -1. *)
Theorem C85_missed_refuted : ~ (forall a b c w speed radius l pt, between_poles a -> on_earth b -> on_earth c -> ~ same_place a b -> ~ opposite a b -> ~ same_place a c -> ~ opposite a c ->
  toward a b w -> 0 < speed -> 0 < radius -> radius / RADIUS < PI / 2 -> angle a b + radius / RADIUS <= PI ->
  analytical "m" "m" (at_height a 0) (at_height b 0) speed (at_height c 0) radius = Ok (l, pt) -> pt = RADIUS * angle a b / speed).
Proof.
  intro H. pose proof PI_pos as PP. pose proof RADIUS_pos as RP. destruct (apart 3) as [SB OB]; [lra|]. destruct (apart 60) as [SC OC]; [lra|].
  assert (R1 : deg 1 * RADIUS / RADIUS = deg 1) by (field; lra). assert (AB : angle (0, 0) (0, 3) = deg 3) by (apply from00; lra).
  assert (E : analytical "m" "m" (at_height (0, 0) 0) (at_height (0, 3) 0) 1 (at_height (0, 60) 0) (deg 1 * RADIUS) = Ok ([], -1)).
  { pose proof (analytic_ok "m" 1 "m" 1 (0, 0) (0, 3) (0, 60) (0, 1, 0) 1 (deg 1 * RADIUS) 0 0 0 metre m_to_m bp (oe 3) (oe 60) SB OB SC OC (toward_eq 3 ltac:(lra)) ltac:(lra)) as X.
    cbv zeta in X. replace ((deg 1 * RADIUS) ^ 2 - ((0 + 0) / 2 * 1) ^ 2) with ((deg 1 * RADIUS) ^ 2) in X by field.
    rewrite sqrt_pow2 in X by (rewrite degs; nra). replace (deg 1 * RADIUS / (RADIUS / 1)) with (deg 1) in X by (field; lra). rewrite AB in X.
    destruct X as [[X _]|[p1 [p2 [d1 [d2 [D1 [D2 [D3 [_ [_ [_ [_ [W _]]]]]]]]]]]]]; [|rewrite degs; lra|rewrite !degs; lra|exact X|].
    - assert (K : 0 < deg 1 * RADIUS) by (rewrite degs; nra). replace ((0 + 0) / 2 * 1) with 0 by field. nra.
    - exfalso. rewrite degs in D2. set (t := Rmax 0 d1). assert (T : 0 <= t <= deg 3) by (rewrite degs; unfold t, Rmax; destruct (Rle_dec 0 d1); lra).
      assert (IN : d1 <= t <= d2) by (unfold t, Rmax; destruct (Rle_dec 0 d1); lra). apply (W t T) in IN. rewrite degs in T. rewrite to_eq in IN by (rewrite degs; lra).
      rewrite Rabs_left, !degs in IN by (rewrite degs; lra). lra. }
  assert (A1 : deg 1 * RADIUS / RADIUS < PI / 2) by (rewrite R1, degs; lra). assert (A2 : angle (0, 0) (0, 3) + deg 1 * RADIUS / RADIUS <= PI) by (rewrite R1, AB, !degs; lra).
  pose proof (H (0, 0) (0, 3) (0, 60) (0, 1, 0) 1 (deg 1 * RADIUS) _ _ bp (oe 3) (oe 60) SB OB SC OC (toward_eq 3 ltac:(lra)) ltac:(lra) ltac:(rewrite degs; nra) A1 A2 E) as X.
  rewrite AB, degs in X. assert (0 < RADIUS * (3 * (PI / 180)) / 1) by (assert (0 < RADIUS * PI) by nra; lra). lra.
Qed.
(** A way of more than half of the circle less the radius: the sensor behind the start that
    it comes to at its end is not found. *)
Theorem C85_far_side : forall a b c w rho, between_poles a -> on_earth b -> on_earth c -> ~ same_place a b -> ~ opposite a b -> ~ same_place a c -> ~ opposite a c ->
  0 < rho < PI / 2 -> toward a b w -> dot (up c) (up a) < 0 -> dot (up c) w < 0 -> get_great_circle_points (rad a) (rad b) (rad c) rho = Ok None.
Proof. exact gcp_behind. Qed.
Theorem C85_far_side_refuted : ~ (forall a b c w rho, between_poles a -> on_earth b -> on_earth c -> ~ same_place a b -> ~ opposite a b -> ~ same_place a c -> ~ opposite a c ->
  0 < rho < PI / 2 -> toward a b w -> get_great_circle_points (rad a) (rad b) (rad c) rho = Ok None -> forall t, 0 <= t <= angle a b -> rho <= angle_to c (along a w t)).
Proof.
  intro H. pose proof PI_pos as PP. destruct (apart 179) as [SB OB]; [lra|]. destruct (apart (-179)) as [SC OC]; [lra|].
  assert (RH : 0 < deg 10 < PI / 2) by (rewrite degs; lra). pose proof (toward_eq 179 ltac:(lra)) as TW.
  assert (N1 : cos (deg (-179)) < 0).
  { rewrite <- cos_neg. replace (- deg (-179)) with (deg 179) by (rewrite !degs; lra). apply cos_lt_0; rewrite degs; lra. }
  assert (N2 : sin (deg (-179)) < 0).
  { replace (deg (-179)) with (- deg 179) by (rewrite !degs; lra). rewrite sin_neg. assert (0 < sin (deg 179)) by (apply sin_gt_0; rewrite degs; lra). lra. }
  assert (E : get_great_circle_points (rad (0, 0)) (rad (0, 179)) (rad (0, -179)) (deg 10) = Ok None).
  { apply (C85_far_side (0, 0) (0, 179) (0, -179) (0, 1, 0) (deg 10) bp (oe 179) (oe (-179)) SB OB SC OC RH TW); rewrite !up_eq; unfold dot; [|lra].
    replace (deg 0) with 0 by (unfold deg; field). rewrite cos_0, sin_0. lra. }
  specialize (H (0, 0) (0, 179) (0, -179) (0, 1, 0) (deg 10) bp (oe 179) (oe (-179)) SB OB SC OC RH TW E (deg 179)). rewrite from00 in H by lra. specialize (H ltac:(rewrite degs; lra)).
  unfold angle_to in H. rewrite along_eq, up_eq in H. unfold dot in H.
  replace (cos (deg (-179)) * cos (deg 179) + sin (deg (-179)) * sin (deg 179) + 0 * 0) with (cos (deg 2)) in H.
  - rewrite acos_cos in H by (rewrite degs; lra). rewrite !degs in H. lra.
  - transitivity (cos (2 * PI + - deg 358)); [f_equal; rewrite !degs; lra|]. rewrite cos_plus, cos_2PI, sin_2PI, cos_neg. replace (deg 358) with (deg 179 - deg (-179)) by (rewrite !degs; lra). rewrite cos_minus. ring.
Qed.

Print Assumptions C83_distance.
Print Assumptions C83_position.
Print Assumptions C83_crossings.
Print Assumptions C84_on_the_ground.
Print Assumptions C85_level_flight_refuted.
Print Assumptions C85_climb_refuted.
Print Assumptions C85_sensor_at_the_start.
Print Assumptions C85_sensor_at_the_start_refuted.
Print Assumptions C85_above_the_range_refuted.
Print Assumptions C85_missed_refuted.
Print Assumptions C85_far_side.
Print Assumptions C85_far_side_refuted.

Print Assumptions C84_level_flight.
