(** Proofs about ArcModel. *)
From Coq Require Import Reals List Bool String Lia Lra Psatz ZArith QArith Qreals.
From Verif Require UnitsModel.
From Verif Require Import PairModel GeoModel GeoSpec GeoProofs ArcModel ArcSpec.
Import ListNotations.
Open Scope string_scope.
Open Scope R_scope.

Lemma half2 : forall x, sin (x / 2) ^ 2 = (1 - cos x) / 2.
Proof. intro x. replace (x / 2) with (0.5 * x) by lra. apply half_sin. Qed.
Lemma hav : forall p q, sin ((fst (rad p) - fst (rad q)) / 2) ^ 2 + cos (fst (rad p)) * cos (fst (rad q)) * sin ((snd (rad p) - snd (rad q)) / 2) ^ 2
  = (1 - dot (up p) (up q)) / 2.
Proof.
  intros [lat1 lon1] [lat2 lon2]. unfold rad. simpl fst. simpl snd. rewrite !half2, !cos_minus. unfold up, dot. lra.
Qed.
Lemma dist_rad : forall p q, get_dist_rad (rad p) (rad q) = Ok (angle p q).
Proof.
  intros p q. unfold get_dist_rad. rewrite hav. pose proof (dot_bound p q) as B. rewrite rsqrt_ok by lra. unfold bind at 1.
  assert (E : sqrt ((1 - dot (up p) (up q)) / 2) = sin (angle p q / 2)).
  { apply sqrt_unique'.
    - apply sin_ge_0; pose proof (angle_bound p q); lra.
    - rewrite half2. destruct (sin_angle p q) as [_ ->]. reflexivity. }
  rewrite E, rasin_ok by apply SIN_bound. unfold bind. f_equal. rewrite asin_sin; [field|]. pose proof (angle_bound p q). lra.
Qed.
Lemma arc_pos : forall p q, ~ same_place p q -> ~ opposite p q -> 0 < angle p q < PI /\ 0 < sin (angle p q).
Proof.
  intros p q S O. pose proof (angle_bound p q) as B. assert (0 < angle p q < PI).
  { split.
    - destruct (Req_dec (angle p q) 0) as [E|E]; [|lra]. exfalso. apply S. apply angle_zero. exact E.
    - destruct (Req_dec (angle p q) PI) as [E|E]; [|lra]. exfalso. apply O. apply angle_PI. exact E. }
  split; [exact H|]. apply sin_gt_0; lra.
Qed.
(** The components of a direction in terms of the bearing. *)
Lemma by_bearing : forall p q, dot (north p) (up q) = sin (angle p q) * cos (deg (bearing p q)) /\ dot (east p) (up q) = sin (angle p q) * sin (deg (bearing p q)).
Proof.
  intros p q. destruct (bearing_ok p q) as [_ E]. set (b := bearing p q) in *. set (d := angle p q) in *. rewrite E. unfold travel, heading.
  repeat rewrite dot_mix_r. rewrite (dot_comm (north p) (up p)), (dot_comm (east p) (up p)), (dot_comm (east p) (north p)), up_north, up_east, north_unit, east_unit, north_east. split; ring.
Qed.
Lemma course : forall p q, between_poles p -> on_earth q -> ~ same_place p q -> ~ opposite p q ->
  exists tc, get_course_rad (rad p) (rad q) = Ok tc /\ cos tc = cos (deg (bearing p q)) /\ sin tc = - sin (deg (bearing p q)).
Proof.
  intros p q P Q S O. destruct (arc_pos p q S O) as [A SA]. pose proof (cos_lat p P) as CL. pose proof (cos_lat' q Q) as CQ.
  unfold get_course_rad. rewrite dist_rad. unfold bind at 1.
  assert (R : (sin (fst (rad q)) - sin (fst (rad p)) * cos (angle p q)) / (sin (angle p q) * cos (fst (rad p))) = cos (deg (bearing p q))).
  { destruct (by_bearing p q) as [N _]. destruct (sin_angle p q) as [_ C]. rewrite C.
    assert (E : sin (fst (rad q)) - sin (fst (rad p)) * dot (up p) (up q) = cos (fst (rad p)) * dot (north p) (up q)).
    { destruct p as [lat1 lon1], q as [lat2 lon2]. unfold rad, up, north, dot. simpl fst. pose proof (cs1 (deg lat1)) as K.
      assert (K' : sin (deg lat1) ^ 2 = 1 - cos (deg lat1) ^ 2) by lra. ring_simplify. rewrite K'. ring. }
    rewrite E, N. unfold rad. simpl fst. field. split; lra. }
  rewrite rdiv_ok by (apply Rmult_integral_contrapositive; unfold rad; simpl fst; lra). unfold bind at 1. rewrite R, racos_ok by apply COS_bound. unfold bind.
  eexists. split; [reflexivity|]. set (t := acos (cos (deg (bearing p q)))).
  assert (CT : cos t = cos (deg (bearing p q))) by (apply cos_acos; apply COS_bound).
  assert (ST : 0 <= sin t) by (apply sin_ge_0; apply acos_bound).
  assert (ST2 : sin t ^ 2 = sin (deg (bearing p q)) ^ 2). { pose proof (cs1 t). pose proof (cs1 (deg (bearing p q))). rewrite CT in H. lra. }
  destruct (by_bearing p q) as [_ E]. destruct (coords p q) as [_ E']. rewrite E', !radians_deg in E.
  change (deg (snd q)) with (snd (rad q)) in E. change (deg (snd p)) with (snd (rad p)) in E.
  set (dl := sin (snd (rad q) - snd (rad p))) in *. set (sb := sin (deg (bearing p q))) in *. set (cq := cos (deg (fst q))) in *.
  destruct (Rlt_dec dl 0) as [L|L].
  - rewrite Rltb_true by exact L. split; [exact CT|]. assert (sb <= 0) by nra. nra.
  - rewrite Rltb_false by lra. assert (0 <= sb) by nra. split.
    + rewrite cos_minus, cos_2PI, sin_2PI, CT. ring.
    + rewrite sin_minus, cos_2PI, sin_2PI. assert (sin t = sb) by nra. lra.
Qed.
Lemma course_err : forall p q, same_place p q \/ opposite p q -> get_course_rad (rad p) (rad q) = Err DivisionErr.
Proof.
  intros p q H. unfold get_course_rad. rewrite dist_rad. unfold bind at 1.
  assert (sin (angle p q) = 0) as ->. { destruct H as [H|H]; [apply angle_zero in H|apply angle_PI in H]; rewrite H; [apply sin_0|apply sin_PI]. }
  rewrite Rmult_0_l, rdiv_zero. reflexivity.
Qed.
Lemma atan2_neg : forall y x, cos (atan2 (- y) x) = cos (atan2 y x) /\ sin (atan2 (- y) x) = - sin (atan2 y x).
Proof.
  intros y x. destruct (atan2_spec y x) as [_ [A B]]. destruct (atan2_spec (- y) x) as [_ [C D]]. replace ((- y) ^ 2) with (y ^ 2) in C, D by ring.
  set (r := sqrt (x ^ 2 + y ^ 2)) in *. destruct (Req_dec r 0) as [E|E].
  - rewrite E in A, B. assert (x = 0) by lra. assert (y = 0) by lra. subst x y. rewrite Ropp_0. unfold atan2.
    rewrite !Rltb_false by lra. rewrite cos_0, sin_0. lra.
  - split; apply Rmult_eq_reg_l with r; try exact E; lra.
Qed.
Lemma lon_wrap : forall z, cos (rmod (z + PI) (2 * PI) - PI) = cos z /\ sin (rmod (z + PI) (2 * PI) - PI) = sin z.
Proof.
  intro z. unfold rmod. set (k := Int_part ((z + PI) / (2 * PI))).
  replace (z + PI - 2 * PI * IZR k - PI) with (z + 2 * IZR (- k) * PI) by (rewrite opp_IZR; ring). split; [apply cos_periodZ|apply sin_periodZ].
Qed.
Lemma pos_ok : forall a b d, between_poles a -> on_earth b -> ~ same_place a b -> ~ opposite a b ->
  exists p, get_pos (rad a) (rad b) d = Ok p /\ up (degrees (fst p), degrees (snd p)) = travel a (bearing a b) d /\ - PI <= snd p < PI /\ on_earth (degrees (fst p), degrees (snd p)).
Proof.
  intros a b d P Q S O. destruct (course a b P Q S O) as [tc [E [C SN]]]. unfold get_pos. rewrite E. unfold bind at 1. rewrite C, SN.
  destruct (travel_ok a (bearing a b) (d * RADIUS) "m" 1 metres) as [q [EQ [_ [T _]]]]. specialize (T P). pose proof RADIUS_pos as RP.
  replace (d * RADIUS * 1 / RADIUS) with d in T by (field; lra).
  unfold point_from_bearing_dist in EQ. destruct (unit_of _ _ metres) as [_ [_ UC]]. rewrite UC in EQ. unfold bind at 1 in EQ. cbv zeta in EQ.
  change EARTH with RADIUS in EQ. replace (d * RADIUS * 1 / RADIUS) with d in EQ by (field; lra). rewrite !radians_deg in EQ.
  unfold rad. simpl fst. simpl snd. set (b' := bearing a b) in *.
  set (z := sin (deg (fst a)) * cos d + cos (deg (fst a)) * sin d * cos (deg b')) in *.
  unfold rasin in EQ |- *. destruct (Rleb (-1) z && Rleb z 1)%bool; [|discriminate EQ]. unfold bind in *. injection EQ as EQ.
  eexists. split; [reflexivity|]. simpl fst. simpl snd. split; [|split].
  - rewrite <- T, <- EQ. unfold up. rewrite !deg_degrees.
    match goal with |- context [rmod (?u + PI) (2 * PI) - PI] => destruct (lon_wrap u) as [-> ->] end.
    set (x := cos d - sin (deg (fst a)) * sin (asin z)). set (y := sin (deg b') * sin d * cos (deg (fst a))).
    replace (- sin (deg b') * sin d * cos (deg (fst a))) with (- y) by (unfold y; ring). destruct (atan2_neg y x) as [C1 S1].
    unfold Rminus. rewrite !cos_plus, !sin_plus, !cos_neg, !sin_neg, C1, S1. veq.
  - pose proof PI_pos. match goal with |- context [rmod ?u (2 * PI)] => pose proof (rmod_bound u (2 * PI)) as H0 end. lra.
  - red. simpl fst. apply deg_bound. apply asin_bound.
Qed.
Lemma toward_heading : forall a b w, ~ same_place a b -> ~ opposite a b -> toward a b w -> w = heading a (bearing a b).
Proof.
  intros a b w S O [W [U E]]. destruct (arc_pos a b S O) as [_ SA]. destruct (bearing_ok a b) as [_ E']. unfold travel in E'. rewrite E in E'.
  set (h := heading a (bearing a b)) in *. set (c := cos (angle a b)) in *. set (s := sin (angle a b)) in *.
  destruct (up a) as [[ux uy] uz], w as [[wx wy] wz], h as [[hx hy] hz]. unfold mix in E'. injection E'. intros Z Y X.
  assert (wx = hx) by (apply Rmult_eq_reg_l with s; lra). assert (wy = hy) by (apply Rmult_eq_reg_l with s; lra). assert (wz = hz) by (apply Rmult_eq_reg_l with s; lra).
  congruence.
Qed.
Lemma toward_exists : forall a b, exists w, toward a b w.
Proof. intros a b. exists (heading a (bearing a b)). split; [apply heading_unit|]. split; [apply up_heading|]. apply bearing_ok. Qed.
Lemma acos_le : forall x rho, -1 <= x <= 1 -> 0 <= rho <= PI -> (acos x <= rho <-> cos rho <= x) /\ (acos x < rho <-> cos rho < x).
Proof.
  intros x rho X R. pose proof (acos_bound x) as B. pose proof (cos_acos x X) as C. split; split; intro H.
  - rewrite <- C. apply cos_decr_1; lra.
  - destruct (Rle_dec (acos x) rho) as [L|L]; [exact L|]. exfalso. assert (cos (acos x) < cos rho) by (apply cos_decreasing_1; lra). lra.
  - rewrite <- C. apply cos_decreasing_1; lra.
  - destruct (Rlt_dec (acos x) rho) as [L|L]; [exact L|]. exfalso. assert (cos (acos x) <= cos rho) by (apply cos_decr_1; lra). lra.
Qed.
(** The cosine of a sum wrapped once. *)
Lemma cos_window : forall z dp, - PI <= z < 2 * PI -> 0 < dp < PI / 2 -> z < 2 * PI - dp ->
  (cos dp <= cos z <-> - dp <= z <= dp) /\ (cos dp < cos z <-> - dp < z < dp).
Proof.
  intros z dp Z D W. pose proof PI_pos as PP.
  assert (P : forall x, 0 <= x <= PI -> (cos dp <= cos x <-> x <= dp) /\ (cos dp < cos x <-> x < dp)).
  { intros x X. split; split; intro H.
    - destruct (Rle_dec x dp) as [L|L]; [exact L|]. exfalso. assert (cos x < cos dp) by (apply cos_decreasing_1; lra). lra.
    - apply cos_decr_1; lra.
    - destruct (Rlt_dec x dp) as [L|L]; [exact L|]. exfalso. assert (cos x <= cos dp) by (apply cos_decr_1; lra). lra.
    - apply cos_decreasing_1; lra. }
  destruct (Rle_dec 0 z) as [L|L].
  - destruct (Rle_dec z PI) as [K|K].
    + destruct (P z) as [A B]; [lra|]. rewrite A, B. lra.
    + replace (cos z) with (cos (2 * PI - z)) by (rewrite cos_minus, cos_2PI, sin_2PI; ring). destruct (P (2 * PI - z)) as [A B]; [lra|]. rewrite A, B. lra.
  - rewrite <- (cos_neg z). destruct (P (- z)) as [A B]; [lra|]. rewrite A, B. lra.
Qed.
Lemma gcp_ok : forall a b c w rho, between_poles a -> on_earth b -> on_earth c -> ~ same_place a b -> ~ opposite a b -> ~ same_place a c -> ~ opposite a c ->
  0 < rho < PI / 2 -> angle a b + rho <= PI -> toward a b w ->
  get_great_circle_points (rad a) (rad b) (rad c) rho = Ok None /\ (forall t, 0 <= t <= angle a b -> rho <= angle_to c (along a w t)) \/
  exists p1 p2 d1 d2, get_great_circle_points (rad a) (rad b) (rad c) rho = Ok (Some ((p1, p2), (d1, d2))) /\
    d1 < d2 /\ d1 <= angle a b /\ 0 <= d2 /\ up (degrees (fst p1), degrees (snd p1)) = along a w d1 /\ up (degrees (fst p2), degrees (snd p2)) = along a w d2 /\
    angle_to c (along a w d1) = rho /\ angle_to c (along a w d2) = rho /\
    forall t, 0 <= t <= angle a b -> (angle_to c (along a w t) <= rho <-> d1 <= t <= d2) /\ (angle_to c (along a w t) < rho <-> d1 < t < d2).
Proof.
  intros a b c w rho P QB QC SB OB SC OC RH AB TW. pose proof PI_pos as PP.
  pose proof (toward_heading a b w SB OB TW) as WH. destruct TW as [WU [UW EB]].
  destruct (course a c P QC SC OC) as [tcd [ED [CD SD]]]. destruct (course a b P QB SB OB) as [tcb [EB' [CB SB']]].
  destruct (arc_pos a b SB OB) as [ABP _].
  destruct (cross_sine a b c) as [_ [CT CP]]. rewrite <- WH in CT.
  set (cp := dot (up c) (up a)) in *. set (ct := dot (up c) w) in *.
  assert (CA : cos (tcd - tcb) = cos (deg (bearing a c) - deg (bearing a b))) by (rewrite !cos_minus, CD, SD, CB, SB'; ring).
  assert (F : cp ^ 2 + ct ^ 2 <= 1). { pose proof (frame_at a (bearing a b) (up c)) as F. rewrite up_unit, <- WH in F. fold cp in F. fold ct in F. pose proof (pow2_ge_0 (dot (up c) (normal a (bearing a b)))). lra. }
  assert (F0 : 0 <= cp ^ 2 + ct ^ 2) by apply sum_squares.
  destruct (atan2_spec ct cp) as [AT [A1 A2]]. set (atd := atan2 ct cp) in *. set (r := sqrt (cp ^ 2 + ct ^ 2)) in *.
  assert (R2 : r ^ 2 = cp ^ 2 + ct ^ 2) by (apply sqrt_pow2'; exact F0). assert (R0 : 0 <= r) by apply sqrt_pos. assert (R1 : r <= 1) by nra.
  assert (DOT : forall t, dot (up c) (along a w t) = r * cos (t - atd)).
  { intro t. unfold along. rewrite dot_mix_r. fold cp. fold ct. rewrite cos_minus. rewrite <- A1, <- A2. ring. }
  assert (ATO : forall t, (angle_to c (along a w t) <= rho <-> cos rho <= r * cos (t - atd)) /\ (angle_to c (along a w t) < rho <-> cos rho < r * cos (t - atd))).
  { intro t. unfold angle_to. rewrite <- DOT. apply acos_le; [|lra]. apply cauchy; [apply up_unit|]. unfold along. apply mix_unit; [apply up_unit|exact WU|exact UW]. }
  set (G := get_great_circle_points (rad a) (rad b) (rad c) rho) in *. assert (EG : G = G) by reflexivity. unfold G at 2 in EG.
  unfold get_great_circle_points in EG. rewrite ED, EB' in EG. unfold bind at 1 2 in EG. rewrite !dist_rad in EG. unfold bind at 1 2 in EG. cbv zeta in EG. rewrite CA in EG.
  replace (cos (angle a c) ^ 2 + sin (angle a c) ^ 2 * cos (deg (bearing a c) - deg (bearing a b)) ^ 2) with (cp ^ 2 + ct ^ 2) in EG by (rewrite CP, <- CT; ring).
  rewrite CT, CP in EG. fold atd in EG. fold r in EG.
  assert (CR : 0 < cos rho) by (apply cos_gt_0; lra).
  destruct (Rlt_dec (r ^ 2) (cos rho ^ 2)) as [L|L].
  { left. rewrite Rltb_true in EG by exact L. split; [exact EG|]. intros t T. destruct (Rle_dec rho (angle_to c (along a w t))) as [K|K]; [exact K|]. exfalso.
    assert (K' : angle_to c (along a w t) < rho) by lra. apply (ATO t) in K'. pose proof (COS_bound (t - atd)). assert (r < cos rho) by nra. nra. }
  rewrite Rltb_false in EG by lra. assert (RP : cos rho <= r) by nra. rewrite rdiv_ok in EG by lra. unfold bind at 1 in EG.
  assert (Q : 0 < cos rho / r <= 1).
  { split; [apply Rdiv_lt_0_compat; lra|]. apply Rmult_le_reg_r with r; [lra|]. replace (cos rho / r * r) with (cos rho) by (field; lra). lra. }
  rewrite racos_ok in EG by lra. unfold bind at 1 in EG. set (dp := acos (cos rho / r)) in *.
  assert (DC : cos dp = cos rho / r) by (apply cos_acos; lra).
  assert (DB : 0 <= dp < PI / 2).
  { split; [apply acos_bound|]. destruct (Rlt_dec dp (PI / 2)) as [X|X]; [exact X|]. exfalso. assert (cos dp <= cos (PI / 2)) by (apply cos_decr_1; pose proof (acos_bound (cos rho / r)); unfold dp in *; lra). rewrite cos_PI2 in H. lra. }
  assert (DR : dp <= rho).
  { destruct (Rle_dec dp rho) as [X|X]; [exact X|]. exfalso. assert (cos dp < cos rho) by (apply cos_decreasing_1; lra). rewrite DC in H.
    assert (cos rho <= cos rho / r); [|lra]. apply Rmult_le_reg_r with r; [lra|]. replace (cos rho / r * r) with (cos rho) by (field; lra). nra. }
  assert (SC' : forall z, (cos rho <= r * cos z <-> cos dp <= cos z) /\ (cos rho < r * cos z <-> cos dp < cos z)).
  { intro z. replace (cos rho) with (r * cos dp) by (rewrite DC; field; lra). assert (0 < r) by lra. split; split; intro H0.
    - apply Rmult_le_reg_l in H0; assumption.
    - apply Rmult_le_compat_l; lra.
    - apply Rmult_lt_reg_l in H0; assumption.
    - apply Rmult_lt_compat_l; lra. }
  destruct (Req_dec dp 0) as [DZ|DZ].
  { left. unfold Rzero in EG. destruct (Req_EM_T dp 0) as [_|X]; [|contradiction]. split; [exact EG|]. intros t T.
    destruct (Rle_dec rho (angle_to c (along a w t))) as [K|K]; [exact K|]. exfalso. assert (K' : angle_to c (along a w t) < rho) by lra.
    apply (ATO t) in K'. apply SC' in K'. rewrite DZ, cos_0 in K'. pose proof (COS_bound (t - atd)). lra. }
  unfold Rzero in EG. destruct (Req_EM_T dp 0) as [X|_]; [contradiction|].
  assert (WIN : forall t, 0 <= t <= angle a b -> (angle_to c (along a w t) <= rho <-> atd - dp <= t <= atd + dp) /\ (angle_to c (along a w t) < rho <-> atd - dp < t < atd + dp)).
  { intros t T. destruct (ATO t) as [T1 T2]. destruct (SC' (t - atd)) as [S1 S2]. destruct (cos_window (t - atd) dp) as [W1 W2]; [lra|lra|lra|].
    rewrite T1, S1, W1, T2, S2, W2. lra. }
  destruct (Rlt_dec (angle a b) (atd - dp)) as [L1|L1].
  { left. rewrite Rltb_true in EG by exact L1. split; [exact EG|]. intros t T. destruct (Rle_dec rho (angle_to c (along a w t))) as [K|K]; [exact K|]. exfalso.
    assert (K' : angle_to c (along a w t) < rho) by lra. apply (WIN t T) in K'. lra. }
  rewrite Rltb_false in EG by lra. destruct (Rlt_dec (atd + dp) 0) as [L2|L2].
  { left. rewrite Rltb_true in EG by exact L2. split; [exact EG|]. intros t T. destruct (Rle_dec rho (angle_to c (along a w t))) as [K|K]; [exact K|]. exfalso.
    assert (K' : angle_to c (along a w t) < rho) by lra. apply (WIN t T) in K'. lra. }
  rewrite Rltb_false in EG by lra. right.
  destruct (pos_ok a b (atd - dp) P QB SB OB) as [p1 [E1 [U1 _]]]. destruct (pos_ok a b (atd + dp) P QB SB OB) as [p2 [E2 [U2 _]]].
  exists p1, p2, (atd - dp), (atd + dp). split; [rewrite EG; cbn [orb]; rewrite E1, E2; reflexivity|]. split; [lra|]. split; [lra|]. split; [lra|].
  unfold travel in U1, U2. rewrite <- WH in U1, U2. split; [exact U1|]. split; [exact U2|].
  split; [|split; [|exact WIN]].
  - unfold angle_to. rewrite DOT. replace (atd - dp - atd) with (- dp) by ring. rewrite cos_neg, DC. replace (r * (cos rho / r)) with (cos rho) by (field; lra). apply acos_cos. lra.
  - unfold angle_to. rewrite DOT. replace (atd + dp - atd) with dp by ring. rewrite DC. replace (r * (cos rho / r)) with (cos rho) by (field; lra). apply acos_cos. lra.
Qed.

(** ** analytical_intersection *)
(** A sensor that is behind the start and nearer to its antipode is never found. *)
Lemma gcp_behind : forall a b c w rho, between_poles a -> on_earth b -> on_earth c -> ~ same_place a b -> ~ opposite a b -> ~ same_place a c -> ~ opposite a c ->
  0 < rho < PI / 2 -> toward a b w -> dot (up c) (up a) < 0 -> dot (up c) w < 0 -> get_great_circle_points (rad a) (rad b) (rad c) rho = Ok None.
Proof.
  intros a b c w rho P QB QC SB OB SC OC RH TW NP NT. pose proof PI_pos as PP.
  pose proof (toward_heading a b w SB OB TW) as WH.
  destruct (course a c P QC SC OC) as [tcd [ED [CD SD]]]. destruct (course a b P QB SB OB) as [tcb [EB' [CB SB']]].
  destruct (cross_sine a b c) as [_ [CT CP]]. rewrite <- WH in CT.
  set (cp := dot (up c) (up a)) in *. set (ct := dot (up c) w) in *.
  assert (CA : cos (tcd - tcb) = cos (deg (bearing a c) - deg (bearing a b))) by (rewrite !cos_minus, CD, SD, CB, SB'; ring).
  assert (F0 : 0 <= cp ^ 2 + ct ^ 2) by apply sum_squares.
  destruct (atan2_spec ct cp) as [AT [A1 A2]]. set (atd := atan2 ct cp) in *. set (r := sqrt (cp ^ 2 + ct ^ 2)) in *.
  assert (R0 : 0 <= r) by apply sqrt_pos.
  unfold get_great_circle_points. rewrite ED, EB'. unfold bind at 1 2. rewrite !dist_rad. unfold bind at 1 2. cbv zeta. rewrite CA.
  replace (cos (angle a c) ^ 2 + sin (angle a c) ^ 2 * cos (deg (bearing a c) - deg (bearing a b)) ^ 2) with (cp ^ 2 + ct ^ 2) by (rewrite CP, <- CT; ring).
  rewrite CT, CP. fold atd. fold r.
  assert (CR : 0 < cos rho) by (apply cos_gt_0; lra).
  destruct (Rlt_dec (r ^ 2) (cos rho ^ 2)) as [L|L]; [rewrite Rltb_true by exact L; reflexivity|].
  rewrite Rltb_false by lra. assert (RP : cos rho <= r) by nra. rewrite rdiv_ok by lra. unfold bind at 1.
  assert (Q : 0 < cos rho / r <= 1).
  { split; [apply Rdiv_lt_0_compat; lra|]. apply Rmult_le_reg_r with r; [lra|]. replace (cos rho / r * r) with (cos rho) by (field; lra). lra. }
  rewrite racos_ok by lra. unfold bind at 1. set (dp := acos (cos rho / r)) in *.
  assert (DC : cos dp = cos rho / r) by (apply cos_acos; lra).
  assert (DB : 0 <= dp < PI / 2).
  { split; [apply acos_bound|]. destruct (Rlt_dec dp (PI / 2)) as [X|X]; [exact X|]. exfalso. assert (cos dp <= cos (PI / 2)) by (apply cos_decr_1; pose proof (acos_bound (cos rho / r)); unfold dp in *; lra). rewrite cos_PI2 in H. lra. }
  unfold Rzero. destruct (Req_EM_T dp 0) as [X|_]; [reflexivity|].
  assert (N1 : cos atd < 0) by nra. assert (N2 : sin atd < 0) by nra.
  assert (AN : atd < 0). { destruct (Rlt_dec atd 0) as [X|X]; [exact X|]. exfalso. assert (0 <= sin atd) by (apply sin_ge_0; lra). lra. }
  assert (AH : atd < - (PI / 2)). { destruct (Rlt_dec atd (- (PI / 2))) as [X|X]; [exact X|]. exfalso. assert (0 <= cos atd) by (apply cos_ge_0; lra). lra. }
  rewrite (Rltb_true (atd + dp)) by lra. rewrite orb_true_r. reflexivity.
Qed.

Lemma conv_factor : forall u m v k, is_unit u m -> is_unit v k -> exists f, 0 < f /\ forall x, unit_convert x u v = Ok (x * f).
Proof.
  intros u m v k U V. unfold unit_convert.
  assert (G : exists q, UnitsModel.unit_convert 1 u v = Some q /\ (0 < q)%Q).
  { unfold is_unit in U, V. repeat (destruct U as [U|U]; [injection U as <- <-|]); try contradiction;
    repeat (destruct V as [V|V]; [injection V as <- <-|]); try contradiction; (eexists; split; [vm_compute; reflexivity|reflexivity]). }
  destruct G as [q [-> Q]]. exists (Q2R q). split; [|reflexivity]. replace 0 with (Q2R 0) by (unfold Q2R; simpl; lra). apply Qlt_Rlt. exact Q.
Qed.
Lemma to_rad : forall p h, to_radians (at_height p h) = rad p.
Proof. intros [lat lon] h. unfold to_radians, at_height, rad. simpl. rewrite !radians_deg. reflexivity. Qed.
(** The place that is reported and the altitude of the code at the angle [d]. *)
Definition code_alt (ha hb ab d : R) : R := ha + d / ab * ((hb - ha) / ab).
Lemma crossing_ok : forall a ha hb ab p d er speed du au f, ab <> 0 -> speed <> 0 -> (forall x, unit_convert x au du = Ok (x * f)) ->
  crossing_at (at_height a ha) p d ab ((hb - ha) / ab) er speed du au =
  Ok ((degrees (fst p), degrees (snd p), code_alt ha hb ab d), d * (er + 0.5 * (ha + code_alt ha hb ab d) * f) / speed).
Proof.
  intros a ha hb ab p d er speed du au f AB SP F. unfold crossing_at. rewrite rdiv_ok by exact AB. unfold bind at 1. cbv zeta. unfold alt at 1 2 3. unfold at_height. simpl snd.
  rewrite F. unfold bind at 1. rewrite rdiv_ok by exact SP. unfold bind. reflexivity.
Qed.
Lemma analytic_ok : forall du m au f a b c w speed radius ha hb hc, is_unit du m -> (forall x, unit_convert x au du = Ok (x * f)) ->
  between_poles a -> on_earth b -> on_earth c -> ~ same_place a b -> ~ opposite a b -> ~ same_place a c -> ~ opposite a c -> toward a b w -> 0 < speed ->
  let er := RADIUS / m in let rho := sqrt (radius ^ 2 - ((ha + hb) / 2 * f) ^ 2) / er in
  ((ha + hb) / 2 * f) ^ 2 < radius ^ 2 -> rho < PI / 2 -> angle a b + rho <= PI ->
  let r := analytical du au (at_height a ha) (at_height b hb) speed (at_height c hc) radius in
  r = Ok ([], -1) /\ (forall t, 0 <= t <= angle a b -> rho <= angle_to c (along a w t)) \/
  exists p1 p2 d1 d2, d1 < d2 /\ d1 <= angle a b /\ 0 <= d2 /\ up (degrees (fst p1), degrees (snd p1)) = along a w d1 /\ up (degrees (fst p2), degrees (snd p2)) = along a w d2 /\
    angle_to c (along a w d1) = rho /\ angle_to c (along a w d2) = rho /\
    (forall t, 0 <= t <= angle a b -> (angle_to c (along a w t) <= rho <-> d1 <= t <= d2) /\ (angle_to c (along a w t) < rho <-> d1 < t < d2)) /\
    let cross p d := (degrees (fst p), degrees (snd p), code_alt ha hb (angle a b) d, d * (er + 0.5 * (ha + code_alt ha hb (angle a b) d) * f) / speed) in
    let pt := angle a b * er / speed in
    r = Ok ([if Rltb (angle c a) rho then (at_height a ha, 0, START_INSIDE) else (cross p1 d1, ENTER);
             if Rltb (angle c b) rho then (at_height b hb, pt, END_INSIDE) else (cross p2 d2, EXIT)], pt).
Proof.
  intros du m au f a b c w speed radius ha hb hc U F P QB QC SB OB SC OC TW SP er rho HR RH AR r. pose proof RADIUS_pos as RP.
  destruct (unit_of _ _ U) as [M [UC _]]. assert (ER : 0 < er) by (apply Rdiv_lt_0_compat; assumption).
  assert (RH0 : 0 < rho) by (apply Rdiv_lt_0_compat; [apply sqrt_lt_R0; lra|exact ER]).
  destruct (arc_pos a b SB OB) as [AB _].
  assert (E : r = do g <- get_great_circle_points (rad a) (rad b) (rad c) rho;
    match g with None => Ok ([], -1) | Some ((p1, p2), (d1, d2)) =>
      do first <- (if Rltb (angle c a) rho then Ok (at_height a ha, 0, START_INSIDE) else
                   do x <- crossing_at (at_height a ha) p1 d1 (angle a b) ((hb - ha) / angle a b) er speed du au; Ok (x, ENTER));
      do second <- (if Rltb (angle c b) rho then Ok (at_height b hb, angle a b * er / speed, END_INSIDE) else
                    do x <- crossing_at (at_height a ha) p2 d2 (angle a b) ((hb - ha) / angle a b) er speed du au; Ok (x, EXIT));
      Ok ([first; second], angle a b * er / speed) end).
  { unfold r, analytical. rewrite UC. unfold bind at 1. cbv zeta. change EARTH with RADIUS. fold er. unfold alt, at_height at 1 2 3 4. simpl snd. rewrite F. unfold bind at 1.
    rewrite rsqrt_ok by lra. unfold bind at 1. fold rho. change (fst a, snd a, ha) with (at_height a ha). change (fst b, snd b, hb) with (at_height b hb). rewrite !to_rad, !dist_rad.
    destruct (get_great_circle_points (rad a) (rad b) (rad c) rho) as [g|e]; [|reflexivity]. unfold bind at 1 2 3 4.
    rewrite rdiv_ok by lra. unfold bind at 1. destruct g as [[[p1 p2] [d1 d2]]|]; [|reflexivity].
    rewrite rdiv_ok by lra. reflexivity. }
  destruct (gcp_ok a b c w rho P QB QC SB OB SC OC (conj RH0 RH) AR TW) as [[G H]|[p1 [p2 [d1 [d2 [G H]]]]]].
  - left. rewrite E, G. split; [reflexivity|exact H].
  - right. exists p1, p2, d1, d2. destruct H as [H1 [H2 [H3 [H4 [H5 [H6 [H7 H8]]]]]]].
    split; [exact H1|]. split; [exact H2|]. split; [exact H3|]. split; [exact H4|]. split; [exact H5|]. split; [exact H6|]. split; [exact H7|]. split; [exact H8|].
    cbv zeta. rewrite E, G. unfold bind at 1. rewrite !(crossing_ok _ _ _ _ _ _ _ _ _ _ f) by (assumption || lra).
    destruct (Rltb (angle c a) rho); destruct (Rltb (angle c b) rho); reflexivity.
Qed.
Lemma analytic_at_start : forall du m au f a b c speed radius ha hb hc, is_unit du m -> (forall x, unit_convert x au du = Ok (x * f)) ->
  ((ha + hb) / 2 * f) ^ 2 <= radius ^ 2 -> same_place a c \/ opposite a c -> analytical du au (at_height a ha) (at_height b hb) speed (at_height c hc) radius = Err DivisionErr.
Proof.
  intros du m au f a b c speed radius ha hb hc U F HR H. destruct (unit_of _ _ U) as [M [UC _]].
  unfold analytical. rewrite UC. unfold bind at 1. unfold alt, at_height. simpl snd. rewrite F. unfold bind at 1. rewrite rsqrt_ok by lra. unfold bind at 1.
  change (fst a, snd a, ha) with (at_height a ha). change (fst c, snd c, hc) with (at_height c hc). rewrite !to_rad.
  unfold get_great_circle_points. rewrite course_err by exact H. reflexivity.
Qed.
Lemma analytic_above : forall du m au f a b c speed radius ha hb hc, is_unit du m -> (forall x, unit_convert x au du = Ok (x * f)) ->
  radius ^ 2 < ((ha + hb) / 2 * f) ^ 2 -> analytical du au (at_height a ha) (at_height b hb) speed (at_height c hc) radius = Err ValueErr.
Proof.
  intros du m au f a b c speed radius ha hb hc U F HR. destruct (unit_of _ _ U) as [M [UC _]].
  unfold analytical. rewrite UC. unfold bind at 1. unfold alt, at_height. simpl snd. rewrite F. unfold bind at 1. unfold rsqrt. rewrite Rleb_false by lra. reflexivity.
Qed.
