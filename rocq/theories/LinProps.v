(** Property C43: the times at which a straight path crosses the range of a sensor. *)
From Coq Require Import Reals List Lra Sorted.
From Verif Require Import PairModel LinModel LinSpec LinProofs.
Import ListNotations.
Open Scope R_scope.

(** A ray and an ellipsoid: just the points of the ray on its surface are found, each
    with the time at which one that starts at the beginning is there; the times in
    order. *)
Theorem C43_ray : forall start toward center radii speed,
  nonzero radii -> start <> toward -> 0 < speed ->
  exists l, ray_intersection start toward center radii speed = Ok l /\
    (forall p t, In (p, t) l <-> 0 <= t /\ p = going start toward speed t /\ on_ellipsoid center radii p) /\
    Sorted Rle (map snd l) /\ (length l <= 2)%nat.
Proof.
  intros start toward center radii speed NZ NE S. eexists. split; [apply ray_eq; assumption|].
  set (D := apart start toward / speed). assert (DP : 0 < D) by (apply Rdiv_lt_0_compat; [apply apart_pos; exact NE|exact S]).
  assert (GO : forall u, going start toward speed (u * D) = between start toward u) by (intro u; apply (going_between speed); assumption).
  assert (ON : forall p, on_ellipsoid center radii p <-> level center radii p = 1).
  { intros [[x y] z]. destruct center as [[cx cy] cz], radii as [[rx ry] rz]. reflexivity. }
  assert (TU : forall t, t = t / D * D) by (intro t; field; lra).
  assert (TP : forall t, 0 <= t <-> 0 <= t / D).
  { intro t. split; intro H; [apply Rmult_le_pos; [exact H|left; apply Rinv_0_lt_compat; exact DP]|]. rewrite (TU t). apply Rmult_le_pos; lra. }
  assert (FD : forall u, In u (found start toward center radii) <-> 0 <= u /\ level center radii (between start toward u) = 1).
  { intro u. destruct (found_cases start toward center radii NZ NE) as [[-> H]|[r2 [r1 [H1 [H2 [H3 ->]]]]]].
    - split; [intros []|]. intros [A B]. specialize (H u A). lra.
    - rewrite H3. rewrite in_app_iff. destruct (Rleb_spec 0 r2) as [[-> X]|[-> X]]; destruct (Rleb_spec 0 r1) as [[-> Y]|[-> Y]]; cbn [In]; intuition lra. }
  split; [|split].
  - intros p t. rewrite in_map_iff. rewrite ON. split.
    + intros [u [E H]]. inversion E; subst. apply FD in H. rewrite GO. fold D. split; [apply Rmult_le_pos; lra|]. split; [reflexivity|apply H].
    + intros [H1 [H2 H3]]. exists (t / D). fold D. rewrite <- TU. rewrite (TU t), GO in H2. subst p. split; [reflexivity|].
      apply FD. split; [apply (proj1 (TP t)); exact H1|exact H3].
  - rewrite map_map. cbn [snd]. destruct (found_cases start toward center radii NZ NE) as [[-> H]|[r2 [r1 [H1 [H2 [H3 ->]]]]]]; [constructor|]. fold D.
    destruct (Rleb 0 r2); destruct (Rleb 0 r1); cbn [app map]; repeat (apply Sorted_cons || apply Sorted_nil || apply HdRel_cons || apply HdRel_nil). apply Rmult_le_compat_r; lra.
  - rewrite map_length. destruct (found_cases start toward center radii NZ NE) as [[-> H]|[r2 [r1 [H1 [H2 [H3 ->]]]]]]; [cbn; auto|].
    destruct (Rleb 0 r2); destruct (Rleb 0 r1); cbn; auto.
Qed.

(** One leg: the two times that are found are those at which the mover comes into range
    and leaves it, between them it is in range and otherwise not; an entry or exit that
    is not at an end of the leg is at the radius. *)
Theorem C43_leg : forall a b speed c r l pt, a <> b -> 0 < speed -> 0 < r ->
  cartesian a b speed c r = Ok (l, pt) ->
  (l = [] /\ misses c r a b) \/
  exists t1 k1 t2 k2, l = [(going a b speed t1, t1, k1); (going a b speed t2, t2, k2)] /\
    pt = apart a b / speed /\ 0 <= t1 <= t2 /\ t2 <= pt /\
    (forall t, 0 <= t <= pt -> inside c r (going a b speed t) <-> t1 <= t <= t2) /\
    (k1 = START_INSIDE /\ inside c r a /\ t1 = 0 \/ k1 = ENTER /\ ~ inside c r a /\ apart (going a b speed t1) c = r) /\
    (k2 = END_INSIDE /\ inside c r b /\ t2 = pt \/ k2 = EXIT /\ ~ inside c r b /\ apart (going a b speed t2) c = r).
Proof.
  intros a b speed c r l pt NE S RP E. pose proof (leg_ok a b speed c r NE S RP) as H. cbv zeta in H. rewrite E in H.
  destruct H as [[-> [_ M]]|[u1 [u2 [k1 [k2 [U1 [U2 [-> [-> [U3 [E1 E2]]]]]]]]]]]; [left; auto|right].
  pose proof (time_pos speed S a b NE) as TP. pose proof (fun u => going_between speed S a b u NE) as GB.
  exists (u1 * (apart a b / speed)), k1, (u2 * (apart a b / speed)), k2. rewrite !GB.
  split; [reflexivity|]. split; [reflexivity|]. split; [split; [apply Rmult_le_pos; lra|apply Rmult_le_compat_r; lra]|].
  split; [rewrite <- (Rmult_1_l (apart a b / speed)) at 2; apply Rmult_le_compat_r; lra|]. split; [|split].
  - intros t Ht. destruct (going_frac speed S a b t NE Ht) as [u [Hu ->]]. rewrite GB, (U3 u Hu). split; intros [A B].
    + split; apply Rmult_le_compat_r; lra.
    + split; apply Rmult_le_reg_r with (apart a b / speed); assumption.
  - unfold ends_at in E1. rewrite between_0 in E1. destruct E1 as [[A [B ->]]|E1]; [left; split; [exact A|]; split; [exact B|ring]|right; exact E1].
  - unfold ends_at in E2. rewrite between_1 in E2. destruct E2 as [[A [B ->]]|E2]; [left; split; [exact A|]; split; [exact B|ring]|right; exact E2].
Qed.
(** An error is only raised when the leg begins or ends just at the radius. *)
Theorem C43_leg_error : forall a b speed c r e, a <> b -> 0 < speed -> 0 < r ->
  cartesian a b speed c r = Err e -> e = MotionErr /\ (apart a c = r \/ apart b c = r).
Proof.
  intros a b speed c r e NE S RP E. pose proof (leg_ok a b speed c r NE S RP) as H. cbv zeta in H. rewrite E in H. exact H.
Qed.

(** A path of several legs: the crossings that are predicted follow each other, and the
    mover is in range just during them; entries and exits are at the radius.  Missing for
    the full statement: paths on which a leg that misses the sensor comes before one that
    does not, waypoints just at the radius, and waypoints that are repeated; for these it
    is false (below). *)
Theorem C43_path_partial : forall speed a ws c r start,
  0 < speed -> 0 < r -> ws <> [] -> clear c r a ws -> no_gap c r a ws ->
  exists l, predict speed (a :: ws) start (c, r) = Ok l /\
    ordered true start (start + lasts speed a ws) l /\
    touches c r (fun t => place speed a ws (t - start)) l /\
    forall t, 0 <= t <= lasts speed a ws -> inside c r (place speed a ws t) <-> within l (start + t).
Proof. intros. apply predict_ok; assumption. Qed.

(** What is found on a leg is settled by when the mover is in range. *)
Lemma leg_exact : forall a b speed c r s1 s2, a <> b -> 0 < speed -> 0 < r -> apart a c <> r -> apart b c <> r ->
  0 <= s1 <= s2 -> s2 <= apart a b / speed ->
  (forall t, 0 <= t <= apart a b / speed -> inside c r (going a b speed t) <-> s1 <= t <= s2) ->
  forall k1 k2, (k1 = START_INSIDE /\ inside c r a \/ k1 = ENTER /\ ~ inside c r a) ->
  (k2 = END_INSIDE /\ inside c r b \/ k2 = EXIT /\ ~ inside c r b) ->
  intersection a b speed c r = Ok ([(s1, k1); (s2, k2)], apart a b / speed).
Proof.
  intros a b speed c r s1 s2 NE S RP NA NB S1 S2 H k1 k2 K1 K2.
  destruct (leg_met speed c r S RP a b NE NA NB) as [[_ M]|[t1 [t2 [j1 [j2 [E [T1 [T2 [T3 [J1 J2]]]]]]]]]].
  - exfalso. apply (miss_leg speed c r S a b NE M s1); [lra|]. apply H; lra.
  - assert (t1 = s1).
    { assert (t1 <= s1) by (apply (T3 s1); [lra|]; apply H; lra). assert (s1 <= t1) by (apply (H t1); [lra|]; apply T3; lra). lra. }
    assert (t2 = s2).
    { assert (s2 <= t2) by (apply (T3 s2); [lra|]; apply H; lra). assert (t2 <= s2) by (apply (H t2); [lra|]; apply T3; lra). lra. }
    subst. rewrite E. repeat f_equal.
    + destruct J1 as [[-> [X _]]|[-> [X _]]]; destruct K1 as [[-> Y]|[-> Y]]; try reflexivity; contradiction.
    + destruct J2 as [[-> [X _]]|[-> [X _]]]; destruct K2 as [[-> Y]|[-> Y]]; try reflexivity; contradiction.
Qed.
Lemma leg_missed : forall a b speed c r, a <> b -> 0 < speed -> 0 < r -> misses c r a b -> intersection a b speed c r = Ok ([], -1).
Proof.
  intros a b speed c r NE S RP M. pose proof (leg_ok a b speed c r NE S RP) as H. cbv zeta in H. unfold intersection.
  destruct (cartesian a b speed c r) as [[l pt]|e].
  - destruct H as [[-> [-> _]]|[u1 [u2 [k1 [k2 [U1 [U2 [_ [_ [U3 _]]]]]]]]]]; [reflexivity|]. exfalso. apply (M u1); [lra|]. apply U3; lra.
  - exfalso. destruct H as [_ [H|H]].
    + apply (M 0); [lra|]. rewrite between_0. unfold inside. lra.
    + apply (M 1); [lra|]. rewrite between_1. unfold inside. lra.
Qed.

(** ** Examples, around a sensor of radius 2 at (10, 0, 0) *)
Definition ctr : point := (10, 0, 0).
Ltac points := let H := fresh in intro H; injection H; intros; lra.
Lemma apart_is : forall a b d, 0 <= d -> gap2 a b = d ^ 2 -> apart a b = d.
Proof. intros a b d H G. apply apart_eq; assumption. Qed.
Lemma in2 : forall p, inside ctr 2 p <-> gap2 p ctr <= 4.
Proof. intro p. unfold inside. rewrite apart_le by lra. split; lra. Qed.
Lemma not2 : forall p, gap2 p ctr <> 4 -> apart p ctr <> 2.
Proof. intros p H X. apply H. apply apart_eq in X; lra. Qed.
(** From (0, 0, 0) to the sensor and then away from it at a right angle. *)
Definition corner : list point := [(10, 0, 0); (10, 20, 0)].
Lemma len1 : apart (0, 0, 0) (10, 0, 0) = 10. Proof. apply apart_is; cbn [gap2]; lra. Qed.
Lemma len2 : apart (10, 0, 0) (10, 20, 0) = 20. Proof. apply apart_is; cbn [gap2]; lra. Qed.
Example C43_corner_hypotheses : clear ctr 2 (0, 0, 0) corner /\ no_gap ctr 2 (0, 0, 0) corner.
Proof.
  split.
  - cbn [clear corner]. repeat split; try (apply not2; cbn [gap2 ctr]; lra); points.
  - cbn [no_gap corner all_miss]. split; [|split; [intros _; exact I|exact I]].
    + intro M. exfalso. apply (M 1); [lra|]. rewrite between_1. apply in2. cbn [gap2 ctr]. lra.
Qed.
Example C43_corner : predict 1 ((0, 0, 0) :: corner) 100 (ctr, 2) = Ok [((ENTER, 108), (EXIT, 112))].
Proof.
  unfold predict, process_pair, corner. cbn [fst snd PairModel.legs].
  rewrite (leg_exact (0, 0, 0) (10, 0, 0) 1 ctr 2 8 10) with (k1 := ENTER) (k2 := END_INSIDE); try lra.
  - cbn [collect]. rewrite (leg_exact (10, 0, 0) (10, 20, 0) 1 ctr 2 0 2) with (k1 := START_INSIDE) (k2 := EXIT); try lra.
    + cbn [collect kind_eqb PairModel.legs rev app pair_off fst snd valid]. rewrite len1. repeat f_equal; lra.
    + points.
    + apply not2; cbn [gap2 ctr]; lra.
    + apply not2; cbn [gap2 ctr]; lra.
    + rewrite len2. lra.
    + intros t Ht. rewrite len2 in Ht. rewrite in2. unfold going. rewrite len2. cbn [gap2 ctr between].
      replace ((10 + t * 1 / 20 * (10 - 10) - 10) ^ 2 + (0 + t * 1 / 20 * (20 - 0) - 0) ^ 2 + (0 + t * 1 / 20 * (0 - 0) - 0) ^ 2) with (t * t) by field. split; intro; nra.
    + left. split; [reflexivity|]. apply in2. cbn [gap2 ctr]. lra.
    + right. split; [reflexivity|]. rewrite in2. cbn [gap2 ctr]. lra.
  - points.
  - apply not2; cbn [gap2 ctr]; lra.
  - apply not2; cbn [gap2 ctr]; lra.
  - rewrite len1. lra.
  - intros t Ht. rewrite len1 in Ht. rewrite in2. unfold going. rewrite len1. cbn [gap2 ctr between].
    replace ((0 + t * 1 / 10 * (10 - 0) - 10) ^ 2 + (0 + t * 1 / 10 * (0 - 0) - 0) ^ 2 + (0 + t * 1 / 10 * (0 - 0) - 0) ^ 2) with ((t - 10) * (t - 10)) by field. split; intro; nra.
  - right. split; [reflexivity|]. rewrite in2. cbn [gap2 ctr]. lra.
  - left. split; [reflexivity|]. apply in2. cbn [gap2 ctr]. lra.
Qed.
(** Past the sensor, for the leg theorem. *)
Lemma len3 : apart (0, 0, 0) (20, 0, 0) = 20. Proof. apply apart_is; cbn [gap2]; lra. Qed.
Example C43_through : intersection (0, 0, 0) (20, 0, 0) 2 ctr 2 = Ok ([(4, ENTER); (6, EXIT)], 10).
Proof.
  rewrite (leg_exact (0, 0, 0) (20, 0, 0) 2 ctr 2 4 6) with (k1 := ENTER) (k2 := EXIT); try lra.
  - rewrite len3. repeat f_equal; lra.
  - points.
  - apply not2; cbn [gap2 ctr]; lra.
  - apply not2; cbn [gap2 ctr]; lra.
  - rewrite len3. lra.
  - intros t Ht. rewrite len3 in Ht. rewrite in2. unfold going. rewrite len3. cbn [gap2 ctr between].
    replace ((0 + t * 2 / 20 * (20 - 0) - 10) ^ 2 + (0 + t * 2 / 20 * (0 - 0) - 0) ^ 2 + (0 + t * 2 / 20 * (0 - 0) - 0) ^ 2) with ((2 * t - 10) * (2 * t - 10)) by field. split; intro; nra.
  - right. split; [reflexivity|]. rewrite in2. cbn [gap2 ctr]. lra.
  - right. split; [reflexivity|]. rewrite in2. cbn [gap2 ctr]. lra.
Qed.

(** ** Where the statement fails *)
(** A leg that misses the sensor counts as one that takes -1: the mover needs 20 to get
    to (0, 0, 0) and is in range from 28 to 32, but is predicted to be from 7 to 11. *)
Definition detour : list point := [(0, 0, 0); (20, 0, 0)].
Lemma len4 : apart (0, 20, 0) (0, 0, 0) = 20. Proof. apply apart_is; cbn [gap2]; lra. Qed.
Theorem C43_missed_leg_refuted :
  predict 1 ((0, 20, 0) :: detour) 0 (ctr, 2) = Ok [((ENTER, 7), (EXIT, 11))] /\
  ~ inside ctr 2 (place 1 (0, 20, 0) detour 7) /\ ~ inside ctr 2 (place 1 (0, 20, 0) detour 11) /\
  inside ctr 2 (place 1 (0, 20, 0) detour 30).
Proof.
  split; [|split; [|split]].
  - unfold predict, process_pair, detour. cbn [fst snd PairModel.legs]. rewrite leg_missed; try lra.
    + cbn [collect]. rewrite (leg_exact (0, 0, 0) (20, 0, 0) 1 ctr 2 8 12) with (k1 := ENTER) (k2 := EXIT); try lra.
      * cbn [collect PairModel.legs rev app pair_off fst snd valid]. repeat f_equal; lra.
      * points.
      * apply not2; cbn [gap2 ctr]; lra.
      * apply not2; cbn [gap2 ctr]; lra.
      * rewrite len3. lra.
      * intros t Ht. rewrite len3 in Ht. rewrite in2. unfold going. rewrite len3. cbn [gap2 ctr between].
        replace ((0 + t * 1 / 20 * (20 - 0) - 10) ^ 2 + (0 + t * 1 / 20 * (0 - 0) - 0) ^ 2 + (0 + t * 1 / 20 * (0 - 0) - 0) ^ 2) with ((t - 10) * (t - 10)) by field. split; intro; nra.
      * right. split; [reflexivity|]. rewrite in2. cbn [gap2 ctr]. lra.
      * right. split; [reflexivity|]. rewrite in2. cbn [gap2 ctr]. lra.
    + points.
    + intros u Hu. rewrite in2. cbn [gap2 ctr between]. nra.
  - unfold detour. rewrite place_leg by (rewrite len4; lra). rewrite in2. unfold going. rewrite len4. cbn [gap2 ctr between]. nra.
  - unfold detour. rewrite place_leg by (rewrite len4; lra). rewrite in2. unfold going. rewrite len4. cbn [gap2 ctr between]. nra.
  - unfold detour. rewrite place_next by (try rewrite len4; try points; lra). rewrite len4. rewrite place_leg by (rewrite len3; lra). rewrite in2. unfold going. rewrite len3. cbn [gap2 ctr between]. lra.
Qed.
(** A mover that starts just at the radius and goes through: an error. *)
Lemma level2 : forall p, level ctr (2, 2, 2) p = gap2 p ctr / 4.
Proof. intro p. rewrite level_sphere by lra. lra. Qed.
Theorem C43_at_radius_refuted : cartesian (8, 0, 0) (20, 0, 0) 1 ctr 2 = Err MotionErr.
Proof.
  assert (NE : ((8, 0, 0) : point) <> (20, 0, 0)) by points.
  assert (NZ : nonzero (2, 2, 2)) by (cbn; lra).
  assert (LEN : apart (8, 0, 0) (20, 0, 0) = 12) by (apply apart_is; cbn [gap2]; lra).
  unfold cartesian. rewrite (Rzero_false 1) by lra. rewrite !dist_apart.
  assert (Rleb (apart ctr (8, 0, 0)) 2 = true) as -> by (apply Rleb_true; rewrite (apart_is _ _ 2); cbn [gap2 ctr]; lra).
  assert (Rleb (apart ctr (20, 0, 0)) 2 = false) as -> by (apply Rleb_false; rewrite (apart_is _ _ 10); cbn [gap2 ctr]; lra).
  cbn [andb]. rewrite ray_eq by (auto; lra). rewrite (apart_sym (20, 0, 0)), LEN.
  destruct (found_cases (8, 0, 0) (20, 0, 0) ctr (2, 2, 2) NZ NE) as [[_ H]|[r2 [r1 [H1 [_ [H3 ->]]]]]].
  - exfalso. specialize (H 0 ltac:(lra)). rewrite between_0, level2 in H. cbn [gap2 ctr] in H. lra.
  - assert (A : 0 = r1 \/ 0 = r2) by (apply H3; rewrite between_0, level2; cbn [gap2 ctr]; lra).
    assert (B : 1 / 3 = r1 \/ 1 / 3 = r2) by (apply H3; rewrite level2; cbn [gap2 ctr between]; lra).
    assert (r2 = 0) by lra. assert (r1 = 1 / 3) by lra. subst. clear.
    assert (Rleb 0 0 = true) as -> by (apply Rleb_true; lra). assert (Rleb 0 (1 / 3) = true) as -> by (apply Rleb_true; lra).
    cbn [app map forallb snd sort insert filter]. assert (Rleb (0 * (12 / 1)) (12 / 1) = true) as Z1 by (apply Rleb_true; lra). rewrite Z1. cbn [negb andb].
    assert (Rleb (0 * (12 / 1)) (1 / 3 * (12 / 1)) = true) as -> by (apply Rleb_true; lra). cbn [filter snd]. rewrite Z1.
    assert (Rleb (1 / 3 * (12 / 1)) (12 / 1) = true) as -> by (apply Rleb_true; lra). reflexivity.
Qed.
(** A waypoint that is repeated out of range: a division by zero. *)
Theorem C43_repeated_refuted : forall a c speed r, 0 < speed -> 0 < r -> ~ inside c r a ->
  cartesian a a speed c r = Err DivisionErr.
Proof.
  intros a c speed r S RP NI. unfold cartesian. rewrite (Rzero_false speed) by lra. rewrite !dist_apart.
  assert (Rleb (apart c a) r = false) as -> by (apply Rleb_false; rewrite apart_sym; unfold inside in NI; lra). cbn [andb].
  unfold ray_intersection. rewrite !(Rzero_false r) by lra. cbn [orb]. cbv zeta.
  assert (V0 : scale (vsub a a) (r, r, r) = (0, 0, 0)).
  { destruct a as [[x y] z]. cbn. repeat f_equal; field; lra. }
  rewrite V0. assert (A0 : vnorm (0, 0, 0) ^ 2 = 0) by (rewrite norm2; ring).
  assert (B0 : forall v, vdot v (0, 0, 0) = 0) by (intros [[x y] z]; cbn; ring). rewrite A0, B0. unfold roots. rewrite Rzero_true by lra.
  match goal with |- context [Rleb 0 ?d] => assert (Rleb 0 d = true) as -> by (apply Rleb_true; lra) end. reflexivity.
Qed.
(** A path that only touches the sphere: entry and exit in the same instant (which the
    manager takes for an error when it comes to tell of the exit). *)
Example C43_tangent : intersection (0, 2, 0) (20, 2, 0) 1 ctr 2 = Ok ([(10, ENTER); (10, EXIT)], 20).
Proof.
  assert (LEN : apart (0, 2, 0) (20, 2, 0) = 20) by (apply apart_is; cbn [gap2]; lra).
  rewrite (leg_exact (0, 2, 0) (20, 2, 0) 1 ctr 2 10 10) with (k1 := ENTER) (k2 := EXIT); try lra.
  - rewrite LEN. repeat f_equal; lra.
  - points.
  - apply not2; cbn [gap2 ctr]; lra.
  - apply not2; cbn [gap2 ctr]; lra.
  - intros t Ht. rewrite LEN in Ht. rewrite in2. unfold going. rewrite LEN. cbn [gap2 ctr between].
    replace ((0 + t * 1 / 20 * (20 - 0) - 10) ^ 2 + (2 + t * 1 / 20 * (2 - 2) - 0) ^ 2 + (0 + t * 1 / 20 * (0 - 0) - 0) ^ 2) with ((t - 10) * (t - 10) + 4) by field. split; intro; nra.
  - right. split; [reflexivity|]. rewrite in2. cbn [gap2 ctr]. lra.
  - right. split; [reflexivity|]. rewrite in2. cbn [gap2 ctr]. lra.
Qed.

Print Assumptions C43_ray.
Print Assumptions C43_leg.
Print Assumptions C43_leg_error.
Print Assumptions C43_path_partial.
Print Assumptions C43_missed_leg_refuted.
Print Assumptions C43_at_radius_refuted.
Print Assumptions C43_repeated_refuted.
