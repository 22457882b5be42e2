(** Properties C77-C82: the sphere.

    Angles are those between directions from the centre.  A place at a pole has no bearings
    of its own in exact arithmetic, where cos 90° is 0 (in floats it is not): claims that
    need bearings at the start exclude the poles. *)
From Coq Require Import Reals List Bool String Lia Lra Psatz ZArith.
From Verif Require Import GeoModel GeoSpec GeoProofs.
Import ListNotations.
Open Scope string_scope.
Open Scope R_scope.

(** * C77: distance *)
Theorem C77_distance_is_the_arc : forall p q u m, is_unit u m -> distance p q u = Ok (RADIUS * angle p q / m).
Proof. exact distance_ok. Qed.

Lemma scale : forall m a b, 0 < m -> RADIUS * a / m <= RADIUS * b / m <-> a <= b.
Proof.
  intros m a b M. pose proof RADIUS_pos as R. assert (I : 0 < / m) by (apply Rinv_0_lt_compat; exact M). unfold Rdiv. split; intro H.
  - apply Rmult_le_reg_r in H; [|exact I]. apply Rmult_le_reg_l in H; assumption.
  - apply Rmult_le_compat_r; [lra|]. apply Rmult_le_compat_l; lra.
Qed.
Theorem C77_distance_is_a_metric : forall p q r u m, is_unit u m -> exists dpq dqp dqr dpr,
  distance p q u = Ok dpq /\ distance q p u = Ok dqp /\ distance q r u = Ok dqr /\ distance p r u = Ok dpr /\
  0 <= dpq <= PI * RADIUS / m /\ dpq = dqp /\ (dpq = 0 <-> same_place p q) /\ (dpq = PI * RADIUS / m <-> opposite p q) /\ dpr <= dpq + dqr.
Proof.
  intros p q r u m U. destruct (unit_of _ _ U) as [M _]. pose proof RADIUS_pos as RP.
  exists (RADIUS * angle p q / m), (RADIUS * angle q p / m), (RADIUS * angle q r / m), (RADIUS * angle p r / m).
  rewrite !(distance_ok _ _ _ _ U). split; [reflexivity|]. split; [reflexivity|]. split; [reflexivity|]. split; [reflexivity|].
  pose proof (angle_bound p q) as B. assert (IP : 0 < RADIUS / m) by (apply Rdiv_lt_0_compat; assumption).
  assert (F : forall a, RADIUS * a / m = RADIUS / m * a) by (intro a; field; lra). rewrite !F. replace (PI * RADIUS / m) with (RADIUS / m * PI) by (field; lra).
  set (k := RADIUS / m) in *. split; [split; nra|]. split; [rewrite (angle_sym p q); reflexivity|]. rewrite <- angle_zero, <- angle_PI.
  split; [split; intro H; nra|]. split.
  - split; intro H; [apply Rmult_eq_reg_l in H; lra|rewrite H; reflexivity].
  - pose proof (angle_triangle p q r). nra.
Qed.

(** ** Non-vacuity *)
Lemma deg90 : deg 90 = PI / 2. Proof. unfold deg. field. Qed.
Lemma deg45 : deg 45 = PI / 4. Proof. unfold deg. field. Qed.
Lemma deg0 : deg 0 = 0. Proof. unfold deg. field. Qed.
Lemma up00 : up (0, 0) = (1, 0, 0).
Proof. unfold up. rewrite deg0, cos_0, sin_0. veq. Qed.
Lemma up090 : up (0, 90) = (0, 1, 0).
Proof. unfold up. rewrite deg0, deg90, cos_0, sin_0, cos_PI2, sin_PI2. veq. Qed.
Lemma quarter : angle (0, 0) (0, 90) = PI / 2.
Proof. unfold angle. rewrite up00, up090. unfold dot. replace (1 * 0 + 0 * 1 + 0 * 0) with 0 by ring. apply acos_0. Qed.
Example C77_quarter : distance (0, 0) (0, 90) "km" = Ok (RADIUS * (PI / 2) / 1000).
Proof. rewrite <- quarter. apply C77_distance_is_the_arc. right. left. reflexivity. Qed.

(** * C78: bearings and travel *)
Theorem C78_travel_goes_along_the_bearing : forall p b d u m, is_unit u m -> between_poles p ->
  exists q, point_from_bearing_dist p b d u = Ok q /\ on_earth q /\ up q = travel p b (d * m / RADIUS).
Proof. intros p b d u m U P. destruct (travel_ok p b d u m U) as [q [E [Q [T _]]]]. exists q. auto. Qed.

Theorem C78_travel_covers_the_distance : forall p b d u m q, is_unit u m -> on_earth p -> 0 <= d * m <= PI * RADIUS ->
  point_from_bearing_dist p b d u = Ok q -> distance p q u = Ok d.
Proof.
  intros p b d u m q U P D E. destruct (travel_ok p b d u m U) as [q' [E' [_ [_ T]]]]. rewrite E in E'. injection E' as <-. specialize (T P).
  destruct (unit_of _ _ U) as [M _]. pose proof RADIUS_pos as RP. rewrite (distance_ok _ _ _ _ U), (travel_angle p q (d * m / RADIUS)); [f_equal; field; lra| |exact T].
  assert (I : 0 < / RADIUS) by (apply Rinv_0_lt_compat; exact RP). unfold Rdiv. split; [nra|].
  apply Rle_trans with (PI * RADIUS * / RADIUS); [apply Rmult_le_compat_r; lra|]. rewrite Rmult_assoc, Rinv_r by lra. lra.
Qed.

Theorem C78_travel_keeps_the_bearing : forall p b d u m q, is_unit u m -> between_poles p -> 0 < d * m < PI * RADIUS ->
  point_from_bearing_dist p b d u = Ok q -> 0 <= bearing p q < 360 /\ exists k, bearing p q = b + 360 * IZR k.
Proof.
  intros p b d u m q U P D E. destruct (travel_ok p b d u m U) as [q' [E' [_ [T _]]]]. rewrite E in E'. injection E' as <-. specialize (T P).
  split; [apply bearing_ok|]. pose proof RADIUS_pos as RP. rewrite (travel_bearing p b (d * m / RADIUS) q); [|split|exact T].
  - exists (- Int_part (b / 360))%Z. unfold rmod. rewrite opp_IZR. ring.
  - apply Rdiv_lt_0_compat; lra.
  - apply Rmult_lt_reg_r with RADIUS; [exact RP|]. replace (d * m / RADIUS * RADIUS) with (d * m) by (field; lra). lra.
Qed.

(** To go off with the bearing of a place and over its distance is to arrive there. *)
Theorem C78_bearing_and_distance_lead_there : forall p q u m d x, is_unit u m -> between_poles p ->
  distance p q u = Ok d -> point_from_bearing_dist p (bearing p q) d u = Ok x -> same_place x q.
Proof.
  intros p q u m d x U P D E. rewrite (distance_ok _ _ _ _ U) in D. injection D as <-.
  destruct (travel_ok p (bearing p q) (RADIUS * angle p q / m) u m U) as [x' [E' [_ [T _]]]]. rewrite E in E'. injection E' as <-. specialize (T P).
  red. rewrite T. destruct (unit_of _ _ U) as [M _]. pose proof RADIUS_pos. replace (RADIUS * angle p q / m * m / RADIUS) with (angle p q) by (field; lra).
  symmetry. apply bearing_ok.
Qed.

(** ** Non-vacuity *)
Lemma km : is_unit "km" 1000. Proof. right. left. reflexivity. Qed.
Lemma bp00 : between_poles (0, 0). Proof. red. simpl. lra. Qed.
Example C78_a_quarter_north : exists q, point_from_bearing_dist (0, 0) 0 (RADIUS * (PI / 2) / 1000) "km" = Ok q /\ up q = (0, 0, 1).
Proof.
  destruct (C78_travel_goes_along_the_bearing (0, 0) 0 (RADIUS * (PI / 2) / 1000) "km" 1000 km bp00) as [q [E [_ T]]]. exists q. split; [exact E|]. rewrite T.
  pose proof RADIUS_pos. replace (RADIUS * (PI / 2) / 1000 * 1000 / RADIUS) with (PI / 2) by (field; lra).
  unfold travel, heading, up, north, east, mix. rewrite deg0, cos_0, sin_0, cos_PI2, sin_PI2. veq.
Qed.
Lemma bearing_east : bearing (0, 0) (0, 90) = 90.
Proof.
  rewrite (travel_bearing (0, 0) 90 (PI / 2)).
  - unfold rmod. destruct (base_Int_part (90 / 360)) as [A B]. assert (E : Int_part (90 / 360) = 0%Z).
    { assert (A' : IZR (Int_part (90 / 360)) < 1) by lra. assert (B' : -1 < IZR (Int_part (90 / 360))) by lra. apply lt_IZR in A', B'. lia. }
    rewrite E. ring.
  - pose proof PI_pos. lra.
  - rewrite up090. unfold travel, heading, up, north, east, mix. rewrite deg0, deg90, cos_0, sin_0, cos_PI2, sin_PI2. veq.
Qed.
Example C78_east : bearing (0, 0) (0, 90) = 90 /\ exists x, point_from_bearing_dist (0, 0) 90 (RADIUS * (PI / 2) / 1000) "km" = Ok x /\ same_place x (0, 90).
Proof.
  split; [exact bearing_east|]. destruct (C78_travel_goes_along_the_bearing (0, 0) 90 (RADIUS * (PI / 2) / 1000) "km" 1000 km bp00) as [x [E _]].
  exists x. split; [exact E|]. eapply (C78_bearing_and_distance_lead_there (0, 0) (0, 90) "km" 1000 _ x km bp00 C77_quarter). rewrite bearing_east. exact E.
Qed.

(** * C79: paths *)
Theorem C79_point_along : forall p q f, ~ same_place p q -> ~ opposite p q -> 0 <= f <= 1 ->
  exists x, point_along p q f = Ok x /\ angle p x = f * angle p q /\ angle x q = (1 - f) * angle p q.
Proof. exact along_ok. Qed.

Theorem C79_linspace : forall p q n, (2 <= n)%nat -> ~ same_place p q -> ~ opposite p q -> first3 (up p) + first3 (up q) <> 0 ->
  exists l s, geo_linspace p q n = Ok l /\ evenly p q n s l.
Proof. exact linspace_even. Qed.

(** With altitudes: the same places, altitudes in even steps, and the points in space at
    them. *)
Theorem C79_linspace_in_space : forall p q a b n, (2 <= n)%nat -> ~ same_place p q -> ~ opposite p q -> first3 (up p) + first3 (up q) <> 0 ->
  exists pts lla ecef, geo_linspace p q n = Ok pts /\ ecef_and_geo_linspace p q a b n = Ok (ecef, lla) /\ List.length lla = S n /\ List.length ecef = S n /\
  forall i, (i <= n)%nat -> exists x, nth_error pts i = Some x /\ nth_error lla i = Some (fst x, snd x, a + (b - a) * INR i / INR n) /\
    nth_error ecef i = Some (mix (RADIUS + (a + (b - a) * INR i / INR n)) (up x) 0 (up x)).
Proof.
  intros p q a b n N S O X. destruct (and_geo_ok p q a b n N S O X) as [l [pts [E1 [E2 [L F]]]]]. exists pts, l, (map lla2ecef l).
  split; [exact E1|]. split; [exact E2|]. split; [exact L|]. split; [rewrite map_length; exact L|].
  intros i I. destruct (F i I) as [x [X1 X2]]. exists x. split; [exact X1|]. split; [exact X2|]. rewrite nth_error_map, X2.
  unfold option_map. rewrite ecef_of, <- surjective_pairing. reflexivity.
Qed.

Theorem C79_circle : forall c r u m n, is_unit u m -> on_earth c -> 0 <= r * m <= PI * RADIUS -> (1 <= n)%nat ->
  exists l, geo_circle c r u n = Ok l /\ List.length l = S n /\ (forall x, In x l -> distance c x u = Ok r) /\
    (between_poles c -> 0 < r * m < PI * RADIUS -> forall i x, (i < n)%nat -> nth_error l i = Some x -> bearing c x = 360 * INR i / INR n) /\
    (between_poles c -> forall x y, nth_error l 0 = Some x -> nth_error l n = Some y -> same_place x y).
Proof.
  intros c r u m n U C R N. destruct (circle_ok c r u m n U N) as [l [E [L F]]]. exists l. split; [exact E|]. split; [exact L|].
  assert (F' : forall i x, nth_error l i = Some x -> (i <= n)%nat /\ point_from_bearing_dist c (INR i / INR n * 360) r u = Ok x).
  { intros i x H. assert (I : (i <= n)%nat). { assert (i < List.length l)%nat by (apply nth_error_Some; rewrite H; discriminate). lia. }
    split; [exact I|]. destruct (F i I) as [y [Y P]]. rewrite H in Y. injection Y as ->. exact P. }
  assert (NP : 0 < INR n) by (apply lt_0_INR; lia).
  split; [|split].
  - intros x I. apply In_nth_error in I. destruct I as [i I]. apply F' in I. destruct I as [_ I]. apply (C78_travel_covers_the_distance c _ r u m x U C R I).
  - intros P R' i x I H. apply F' in H. destruct H as [_ H].
    destruct (C78_travel_keeps_the_bearing c _ r u m x U P R' H) as [B [k K]].
    assert (I' : 0 <= INR i / INR n < 1).
    { split; [apply Rmult_le_pos; [apply pos_INR|left; apply Rinv_0_lt_compat; exact NP]|]. apply Rmult_lt_reg_r with (INR n); [exact NP|].
      replace (INR i / INR n * INR n) with (INR i) by (field; lra). rewrite Rmult_1_l. apply lt_INR. exact I. }
    assert (k = 0%Z). { assert (-1 < IZR k < 1) by lra. destruct H0 as [H0 H1]. apply lt_IZR in H0, H1. lia. }
    subst k. simpl IZR in K. rewrite K. field. lra.
  - intros P x y HX HY. apply F' in HX, HY. destruct HX as [_ HX], HY as [_ HY].
    destruct (travel_ok c (INR 0 / INR n * 360) r u m U) as [x' [EX [_ [TX _]]]]. rewrite HX in EX. injection EX as <-.
    destruct (travel_ok c (INR n / INR n * 360) r u m U) as [y' [EY [_ [TY _]]]]. rewrite HY in EY. injection EY as <-.
    red. rewrite (TX P), (TY P). unfold travel, heading. replace (INR 0 / INR n * 360) with 0 by (simpl INR; field; lra). replace (INR n / INR n * 360) with 360 by (field; lra).
    rewrite deg0. replace (deg 360) with (0 + 2 * IZR 1 * PI) by (unfold deg; field). rewrite cos_periodZ, sin_periodZ. reflexivity.
Qed.

(** ** Non-vacuity *)
Lemma quarter_apart : ~ same_place (0, 0) (0, 90) /\ ~ opposite (0, 0) (0, 90) /\ first3 (up (0, 0)) + first3 (up (0, 90)) <> 0.
Proof.
  unfold same_place, opposite, first3. rewrite up00, up090. simpl. split; [|split].
  - intro H. injection H. intros. lra.
  - intro H. injection H. intros. lra.
  - lra.
Qed.
Example C79_half_way : exists x, point_along (0, 0) (0, 90) (1 / 2) = Ok x /\ angle (0, 0) x = PI / 4.
Proof.
  destruct quarter_apart as [S [O _]]. destruct (C79_point_along (0, 0) (0, 90) (1 / 2) S O) as [x [E [A _]]]; [lra|]. exists x. split; [exact E|]. rewrite A, quarter. field.
Qed.
Example C79_three_points : exists l s, geo_linspace (0, 0) (0, 90) 2 = Ok l /\ evenly (0, 0) (0, 90) 2 s l.
Proof. destruct quarter_apart as [S [O X]]. apply C79_linspace; auto. Qed.
Example C79_ten_points : exists l, geo_circle (0, 0) 100 "km" 10 = Ok l /\ List.length l = 11%nat.
Proof.
  destruct (C79_circle (0, 0) 100 "km" 1000 10 km) as [l [E [L _]]].
  - red. simpl. lra.
  - unfold RADIUS. pose proof PI_RGT_0. pose proof PI2_3_2. lra.
  - lia.
  - exists l. auto.
Qed.

(** * C80: the distance to a great circle *)
Theorem C80_cross_track_distance : forall o e c u m, is_unit u m -> ~ same_place o e -> ~ opposite o e ->
  exists a, cross_track_distance o e c u = Ok (RADIUS * a / m) /\
    (forall x, in_line o e x -> a <= angle c x) /\ exists x, in_line o e x /\ angle c x = a.
Proof.
  intros o e c u m U S O. exists (Rabs (asin (dot (up c) (normal o (bearing o e))))). split; [apply cross_ok; exact U|].
  split.
  - intros x H. apply line_circle in H; [|assumption|assumption]. apply (nearest o (bearing o e) c). exact H.
  - destruct (nearest_exists o (bearing o e) c) as [x [X A]]. exists x. split; [|exact A]. apply line_circle; assumption.
Qed.

(** The point of the great circle, when the place is ahead of the origin and not a quarter
    turn away from the whole circle. *)
Lemma not_pole : forall o e c x, ~ same_place o e -> ~ opposite o e -> in_line o e x -> angle c x < PI / 2 -> -1 < dot (up c) (normal o (bearing o e)) < 1.
Proof.
  intros o e c x S O L A. apply line_circle in L; [|assumption|assumption].
  destruct (nearest o (bearing o e) c) as [G [N _]]. specialize (N x L). set (g := dot (up c) (normal o (bearing o e))) in *. split.
  - destruct (Req_dec g (-1)) as [E|E]; [|lra]. rewrite E in N. replace (-1) with (- (1)) in N by ring. rewrite asin_opp, asin_1, Rabs_Ropp, Rabs_pos_eq in N; pose proof PI_pos; lra.
  - destruct (Req_dec g 1) as [E|E]; [|lra]. rewrite E, asin_1, Rabs_pos_eq in N; pose proof PI_pos; lra.
Qed.
Theorem C80_cross_track_point : forall o e c, between_poles o -> ~ same_place o e -> ~ opposite o e -> (exists y, in_line o e y /\ angle c y < PI / 2) ->
  ahead o (bearing o e) c -> exists x, cross_track_point o e c = Ok x /\ in_line o e x /\ forall y, in_line o e y -> angle c x <= angle c y.
Proof.
  intros o e c P S O [y [Y A]] H. pose proof (not_pole o e c y S O Y A) as G.
  destruct (track_point o e c P G) as [x [E [C [N _]]]]. exists x. split; [exact E|]. split; [apply line_circle; assumption|].
  intros z Z. rewrite (N H). apply line_circle in Z; [|assumption|assumption]. apply (nearest o (bearing o e) c). exact Z.
Qed.

(** ** Non-vacuity *)
Lemma up4545 : up (45, 0) = (cos (PI / 4), 0, sin (PI / 4)).
Proof. unfold up. rewrite deg45, deg0, cos_0, sin_0. veq. Qed.
Example C80_off_the_equator : (exists a, cross_track_distance (0, 0) (0, 90) (45, 0) "m" = Ok (RADIUS * a / 1)) /\
  exists x, cross_track_point (0, 0) (0, 90) (45, 0) = Ok x /\ in_line (0, 0) (0, 90) x /\ forall y, in_line (0, 0) (0, 90) y -> angle (45, 0) x <= angle (45, 0) y.
Proof.
  destruct quarter_apart as [S [O _]]. split.
  - destruct (C80_cross_track_distance (0, 0) (0, 90) (45, 0) "m" 1 metres S O) as [a [E _]]. exists a. exact E.
  - apply C80_cross_track_point; [exact bp00|exact S|exact O| |].
    + exists (0, 0). split; [unfold in_line; rewrite up00, up090; unfold volume; ring|].
      unfold angle. rewrite up4545, up00. unfold dot. replace (cos (PI / 4) * 1 + 0 * 0 + sin (PI / 4) * 0) with (cos (PI / 4)) by ring.
      pose proof PI_pos. rewrite acos_cos; lra.
    + red. rewrite bearing_east, up4545. unfold heading, north, east, mix, dot. rewrite deg90, deg0, cos_0, sin_0, cos_PI2, sin_PI2. lra.
Qed.

(** * C81: conversions *)
Theorem C81_points_in_space : forall lat lon h, - RADIUS <= h -> length3 (lla2ecef (lat, lon, h)) = RADIUS + h /\
  lla2ecef (lat, lon, h) = mix (RADIUS + h) (up (lat, lon)) 0 (up (lat, lon)).
Proof. intros. split; [apply ecef_length; assumption|apply ecef_of]. Qed.

(** The law of cosines: the straight line between two points. *)
Theorem C81_straight_line : forall p q hp hq,
  length3 (mix 1 (lla2ecef (fst p, snd p, hp)) (-1) (lla2ecef (fst q, snd q, hq))) ^ 2 =
  (RADIUS + hp) ^ 2 + (RADIUS + hq) ^ 2 - 2 * (RADIUS + hp) * (RADIUS + hq) * cos (angle p q).
Proof. exact ecef_chord. Qed.

(** To space and back: within one metre of the axis the altitude is off by some 10^-7 m. *)
Theorem C81_to_space_and_back : forall lat lon h, -90 <= lat <= 90 -> -180 < lon <= 180 -> - RADIUS < h ->
  exists lon' h', ecef2lla (lla2ecef (lat, lon, h)) = (lat, lon', h') /\ (-90 < lat < 90 -> lon' = lon) /\
    (-90 < lat < 90 -> ~ near_axis (lla2ecef (lat, lon, h)) -> h' = h) /\ (near_axis (lla2ecef (lat, lon, h)) -> h - 2 / (RADIUS + h) <= h' <= h).
Proof. exact round_trip. Qed.

Theorem C81_to_earth_and_back : forall v, ~ near_axis v -> lla2ecef (ecef2lla v) = v.
Proof. exact trip_round. Qed.

(** ** Non-vacuity *)
Example C81_a_place : ecef2lla (lla2ecef (45, 90, 1000)) = (45, 90, 1000).
Proof.
  destruct (C81_to_space_and_back 45 90 1000) as [lon' [h' [E [L [H _]]]]]; unfold RADIUS; try lra. rewrite E, L, H; [reflexivity|lra| |lra].
  destruct (C81_points_in_space 45 90 1000) as [_ ->]; [unfold RADIUS; lra|]. unfold up, mix, near_axis. rewrite deg90, deg45, cos_PI2, sin_PI2. intros [_ Y].
  assert (K : 1 / 2 < cos (PI / 4)). { rewrite <- cos_PI3. apply cos_decreasing_1; pose proof PI_pos; lra. }
  revert Y. unfold RADIUS. rewrite Rabs_pos_eq; lra.
Qed.

(** * C82: what does not hold *)
(** A point along a path from a place to itself. *)
Theorem C82_point_along_nowhere_refuted : ~ (forall p q f, 0 <= f <= 1 -> exists x, point_along p q f = Ok x).
Proof.
  intro H. destruct (H (0, 0) (0, 0) 0) as [x E]; [lra|]. rewrite along_err in E; [discriminate|left; reflexivity].
Qed.
Theorem C82_point_along_errors : forall p q f, same_place p q \/ opposite p q -> point_along p q f = Err DivisionErr.
Proof. exact along_err. Qed.

(** From 45 degrees east to 135 degrees east on the equator; more generally, whenever the
    first coordinates of the two places add up to 0. *)
Theorem C82_linspace_refuted : ~ (forall p q n, (2 <= n)%nat -> ~ same_place p q -> ~ opposite p q -> exists l, geo_linspace p q n = Ok l).
Proof.
  intro H. assert (U1 : up (0, 45) = (cos (PI / 4), sin (PI / 4), 0)) by (unfold up; rewrite deg0, deg45, cos_0, sin_0; veq).
  assert (U2 : up (0, 135) = (- cos (PI / 4), sin (PI / 4), 0)).
  { unfold up. rewrite deg0, cos_0, sin_0. replace (deg 135) with (- (PI / 4) + PI) by (unfold deg; field). rewrite neg_cos, neg_sin, cos_neg, sin_neg. veq. }
  assert (0 < cos (PI / 4)) by (apply cos_gt_0; pose proof PI_pos; lra). assert (0 < sin (PI / 4)) by (apply sin_gt_0; pose proof PI_pos; lra).
  destruct (H (0, 45) (0, 135) 2%nat) as [l E]; [lia| | |].
  - unfold same_place. rewrite U1, U2. intro X. injection X. intros. lra.
  - unfold opposite. rewrite U1, U2. intro X. injection X. intros. lra.
  - unfold geo_linspace in E. destruct (with_ecef_err (0, 45) (0, 135) 2) as [e X].
    + right. right. right. rewrite U1, U2. unfold first3. simpl. ring.
    + rewrite X in E. discriminate.
Qed.
Theorem C82_linspace_errors : forall p q n, (n < 2)%nat \/ same_place p q \/ opposite p q \/ first3 (up p) + first3 (up q) = 0 ->
  exists e, geo_linspace p q n = Err e.
Proof. intros p q n H. unfold geo_linspace. destruct (with_ecef_err p q n H) as [e ->]. exists e. reflexivity. Qed.

(** There is no path for which ecef_linspace gives points. *)
Theorem C82_ecef_linspace_refuted : ~ (exists p q a b n l, ecef_linspace p q a b n = Ok l).
Proof. intros [p [q [a [b [n [l E]]]]]]. destruct (ecef_linspace_err p q a b n) as [e X]. rewrite X in E. discriminate. Qed.

(** Behind the origin the point found is the wrong one. *)
Theorem C82_behind_the_origin : forall o e c, between_poles o -> ~ same_place o e -> ~ opposite o e -> (exists y, in_line o e y /\ angle c y < PI / 2) ->
  ~ ahead o (bearing o e) c -> exists x, cross_track_point o e c = Ok x /\ exists y, in_line o e y /\ angle c y < angle c x.
Proof.
  intros o e c P S O [y [Y A]] H. pose proof (not_pole o e c y S O Y A) as G.
  destruct (track_point o e c P G) as [x [E [_ [_ N]]]]. exists x. split; [exact E|].
  destruct (nearest_exists o (bearing o e) c) as [z [Z AZ]]. exists z. split; [apply line_circle; assumption|]. rewrite AZ. apply N. exact H.
Qed.
Theorem C82_cross_track_point_refuted : ~ (forall o e c, between_poles o -> ~ same_place o e -> ~ opposite o e -> (exists y, in_line o e y /\ angle c y < PI / 2) ->
  exists x, cross_track_point o e c = Ok x /\ forall y, in_line o e y -> angle c x <= angle c y).
Proof.
  intro H. destruct quarter_apart as [S [O _]].
  assert (U : up (0, -45) = (cos (PI / 4), - sin (PI / 4), 0)).
  { unfold up. rewrite deg0, cos_0, sin_0. replace (deg (-45)) with (- (PI / 4)) by (unfold deg; field). rewrite cos_neg, sin_neg. veq. }
  assert (Y : exists y, in_line (0, 0) (0, 90) y /\ angle (0, -45) y < PI / 2).
  { exists (0, 0). split; [unfold in_line; rewrite up00, up090; unfold volume; ring|].
    unfold angle. rewrite U, up00. unfold dot. replace (cos (PI / 4) * 1 + - sin (PI / 4) * 0 + 0 * 0) with (cos (PI / 4)) by ring. pose proof PI_pos. rewrite acos_cos; lra. }
  destruct (H _ _ _ bp00 S O Y) as [x [E N]].
  destruct (C82_behind_the_origin (0, 0) (0, 90) (0, -45) bp00 S O Y) as [x' [E' [z [Z A]]]].
  - unfold ahead. rewrite bearing_east, U. unfold heading, north, east, mix, dot. rewrite deg90, deg0, cos_0, sin_0, cos_PI2, sin_PI2.
    assert (0 < sin (PI / 4)) by (apply sin_gt_0; pose proof PI_pos; lra). lra.
  - rewrite E in E'. injection E' as <-. specialize (N z Z). lra.
Qed.

Print Assumptions C77_distance_is_the_arc.
Print Assumptions C77_distance_is_a_metric.
Print Assumptions C78_travel_goes_along_the_bearing.
Print Assumptions C78_travel_covers_the_distance.
Print Assumptions C78_travel_keeps_the_bearing.
Print Assumptions C78_bearing_and_distance_lead_there.
Print Assumptions C79_point_along.
Print Assumptions C79_linspace.
Print Assumptions C79_linspace_in_space.
Print Assumptions C79_circle.
Print Assumptions C80_cross_track_distance.
Print Assumptions C80_cross_track_point.
Print Assumptions C81_points_in_space.
Print Assumptions C81_straight_line.
Print Assumptions C81_to_space_and_back.
Print Assumptions C81_to_earth_and_back.
Print Assumptions C82_point_along_nowhere_refuted.
Print Assumptions C82_point_along_errors.
Print Assumptions C82_linspace_refuted.
Print Assumptions C82_linspace_errors.
Print Assumptions C82_ecef_linspace_refuted.
Print Assumptions C82_behind_the_origin.
Print Assumptions C82_cross_track_point_refuted.
