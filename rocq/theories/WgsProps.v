(** Properties C98-C105: the ellipsoidal earth.

    Positions are those of GeoSpec and WgsSpec: go up along the normal of the ellipsoid.
    Vincenty's formulas are stated there as sums of sines, his own form before nesting. *)
From Coq Require Import Reals List Bool String Lia Lra Psatz ZArith.
From Verif Require Import GeoModel GeoSpec GeoProofs WgsModel WgsSpec WgsProofs.
Import ListNotations.
Open Scope string_scope.
Open Scope R_scope.

(** * C98: conversions *)
Theorem C98_to_ecef : forall lat lon h, exists v,
  w_lla2ecef false (lat, lon, h) = Ok v /\ w_lla2ecef true (deg lat, deg lon, h) = Ok v /\ position lat lon h v /\ (forall w, position lat lon h w -> w = v).
Proof.
  intros lat lon h. destruct (to_position lat lon h) as (v & E & P). exists v. split; [exact E|]. split; [rewrite <- E; unfold w_lla2ecef; cbv iota; replace (radians lat) with (deg lat) by (unfold radians, deg; field); replace (radians lon) with (deg lon) by (unfold radians, deg; field); reflexivity|]. split; [exact P|].
  intros w W. exact (position_unique _ _ _ _ _ W P).
Qed.
Theorem C98_there_and_back : forall lat lon h v, -90 < lat < 90 -> -180 < lon <= 180 -> -6290000 <= h -> w_lla2ecef false (lat, lon, h) = Ok v ->
  w_ecef2lla false v = Ok (lat, lon, h) /\ w_ecef2lla true v = Ok (deg lat, deg lon, h).
Proof.
  intros lat lon h v A B C E. destruct (to_position lat lon h) as (w & W & P). rewrite W in E. injection E as <-. exact (round_trip_w lat lon h w A B C P).
Qed.
Theorem C98_back_and_there : forall x y z, 0 < x ^ 2 + y ^ 2 -> 43000 <= length3 (x, y, z) -> exists lat lon h,
  w_ecef2lla false (x, y, z) = Ok (lat, lon, h) /\ w_ecef2lla true (x, y, z) = Ok (deg lat, deg lon, h) /\ -90 < lat < 90 /\ -180 < lon <= 180 /\
  w_lla2ecef false (lat, lon, h) = Ok (x, y, z).
Proof.
  intros x y z A B. destruct (trip_round_w x y z A B) as (lat & lon & h & E1 & E2 & R1 & R2 & P). exists lat, lon, h. split; [exact E1|]. split; [exact E2|]. split; [exact R1|]. split; [exact R2|].
  destruct (to_position lat lon h) as (w & W & Q). rewrite W, (position_unique _ _ _ _ _ Q P). reflexivity.
Qed.
Lemma each_ok : forall {A B} (f : A -> res B) l, (forall x, exists y, f x = Ok y) -> exists l', all_ok f l = Ok l' /\ Forall2 (fun x y => f x = Ok y) l l'.
Proof.
  intros A B f l H. induction l as [|x l (r & R & F)]; [exists []; split; [reflexivity|constructor]|]. destruct (H x) as [y E]. exists (y :: r). split; [cbn; rewrite E; cbn; rewrite R; reflexivity|].
  constructor; assumption.
Qed.
Theorem C98_lists : forall l, exists l', w_lla2ecef_list false l = Ok l' /\ Forall2 (fun lla v => position (fst (fst lla)) (snd (fst lla)) (snd lla) v) l l'.
Proof.
  intro l. destruct (each_ok (w_lla2ecef false) l) as (l' & E & F).
  - intros [[lat lon] h]. destruct (to_position lat lon h) as (v & V & _). exists v. exact V.
  - exists l'. split; [exact E|]. clear E. induction F as [|[[lat lon] h] y l l' H F IH]; constructor; [|exact IH]. cbn.
    destruct (to_position lat lon h) as (v & V & P). rewrite V in H. injection H as <-. exact P.
Qed.
Theorem C98_lists_back : forall l v, Forall (fun lla => -90 < fst (fst lla) < 90 /\ -180 < snd (fst lla) <= 180 /\ -6290000 <= snd lla) l ->
  w_lla2ecef_list false l = Ok v -> w_ecef2lla_list false v = Ok l.
Proof.
  unfold w_lla2ecef_list, w_ecef2lla_list. induction l as [|[[lat lon] h] l IH]; intros v F E; cbn [all_ok] in E; [injection E as <-; reflexivity|].
  destruct (w_lla2ecef false (lat, lon, h)) as [w|] eqn:W; [|discriminate]. cbv beta iota delta [bind] in E. destruct (all_ok (w_lla2ecef false) l) as [r|]; [|discriminate]. injection E as <-.
  inversion F as [|? ? (A & B & C) F']; subst. cbn [all_ok]. destruct (C98_there_and_back lat lon h w A B C W) as [-> _]. cbn [bind]. rewrite (IH r F' eq_refl). reflexivity.
Qed.
(** ** Non-vacuity *)
Lemma up_00 : up (0, 0) = (1, 0, 0).
Proof. unfold up. rewrite deg_0, cos_0, sin_0. apply f_equal2; [apply f_equal2|]; ring. Qed.
Lemma sea_level : position 0 0 1000 (6379137, 0, 0).
Proof.
  pose proof MAJOR_pos as MP. pose proof MINOR_pos as NP. exists (MAJOR, 0, 0). rewrite up_00. split; [unfold on_ellipsoid; field; lra|]. split.
  - exists MAJOR. split; [exact MP|]. apply f_equal2; [apply f_equal2|]; field; lra.
  - unfold mix, MAJOR. apply f_equal2; [apply f_equal2|]; lra.
Qed.
Example C98_equator : w_lla2ecef false (0, 0, 1000) = Ok (6379137, 0, 0) /\ w_ecef2lla false (6379137, 0, 0) = Ok (0, 0, 1000).
Proof.
  destruct (C98_to_ecef 0 0 1000) as (v & E & _ & _ & U). rewrite (U _ sea_level). split; [exact E|].
  apply (C98_there_and_back 0 0 1000 v); try lra. exact E.
Qed.
Example C98_pole : w_lla2ecef false (90, 0, 5) = Ok (0, 0, MINOR + 5).
Proof.
  destruct (C98_to_ecef 90 0 5) as (v & E & _ & _ & U). rewrite E. f_equal. symmetry. apply U. pose proof MAJOR_pos as MP. pose proof MINOR_pos as NP.
  exists (0, 0, MINOR). assert (UP : up (90, 0) = (0, 0, 1)) by (unfold up; replace (deg 90) with (PI / 2) by (unfold deg; field); rewrite cos_PI2, sin_PI2; apply f_equal2; [apply f_equal2|]; ring).
  rewrite UP. split; [unfold on_ellipsoid; field; lra|]. split.
  - exists MINOR. split; [exact NP|]. apply f_equal2; [apply f_equal2|]; field; lra.
  - unfold mix. apply f_equal2; [apply f_equal2|]; lra.
Qed.

(** * C99: travel, latitudes *)
Theorem C99_travel : forall p b d u m, is_unit u m -> between_poles p -> exists q s1 sg lam,
  w_point_from_bearing_dist p b d u TOL MAX_ITER = Ok q /\ on_earth q /\ latitude_by p b (d * m) (1 / 100000) q s1 sg lam.
Proof. intros p b d u m U _. destruct (direct_spec p b d u m U) as (q & s1 & sg & lam & E & O & L & _). exists q, s1, sg, lam. auto. Qed.
Theorem C99_no_distance_keeps_the_latitude : forall p b u m q, is_unit u m -> between_poles p -> w_point_from_bearing_dist p b 0 u TOL MAX_ITER = Ok q -> fst q = fst p.
Proof. intros p b u m q U P E. destruct (direct_zero p b u m P U) as (s1 & _ & E'). rewrite E in E'. injection E' as ->. reflexivity. Qed.
Theorem C99_no_distance_on_a_meridian : forall p b u m, is_unit u m -> between_poles p -> sin (deg b) = 0 -> w_point_from_bearing_dist p b 0 u TOL MAX_ITER = Ok p.
Proof.
  intros p b u m U P S. destruct (direct_zero p b u m P U) as (s1 & _ & E). rewrite E. replace (clairaut p b) with 0 by (unfold clairaut; rewrite S; ring).
  rewrite (surjective_pairing p) at 3. f_equal. f_equal. unfold to_degrees. field. pose proof PI_pos. lra.
Qed.
Theorem C99_meridians : forall p b d u m, is_unit u m -> between_poles p -> sin (deg b) = 0 -> exists lat lon,
  w_point_from_bearing_dist p b d u TOL MAX_ITER = Ok (lat, lon) /\ (lon = snd p \/ lon = snd p + 180).
Proof. intros p b d u m U _ S. exact (direct_meridian p b d u m U S). Qed.
Theorem C99_equator : forall lon b d u m, is_unit u m -> b = 90 \/ b = -90 -> 0 <= d * m < PI * MINOR ->
  w_point_from_bearing_dist (0, lon) b d u TOL MAX_ITER = Ok (0, lon + to_degrees (b / 90 * (d * m / MAJOR))).
Proof. exact direct_equator. Qed.
(** ** Non-vacuity *)
Lemma MINOR_big : 6350000 <= MINOR. Proof. unfold MINOR, MAJOR, FLAT. lra. Qed.
Example C99_quarter : w_point_from_bearing_dist (0, 10) 90 (MAJOR * (PI / 2)) "m" TOL MAX_ITER = Ok (0, 100).
Proof.
  pose proof PI_pos as P. pose proof MINOR_big as MB. rewrite (C99_equator 10 90 _ "m" 1); [|left; reflexivity|left; reflexivity|].
  - f_equal. f_equal. unfold to_degrees, MAJOR. field. lra.
  - unfold MAJOR. nra.
Qed.

(** * C100: travel, longitudes *)
(** The longitude is Vincenty's up to 6 microradians (about 38 m at the equator). *)
Theorem C100_near_partial : forall p b d u m, is_unit u m -> between_poles p -> exists q s1 sg lam,
  w_point_from_bearing_dist p b d u TOL MAX_ITER = Ok q /\ latitude_by p b (d * m) (1 / 100000) q s1 sg lam /\ longitude_by p b (6 / 1000000) q s1 sg lam /\ - PI < lam <= PI.
Proof. intros p b d u m U _. destruct (direct_spec p b d u m U) as (q & s1 & sg & lam & E & _ & L & M & B). exists q, s1, sg, lam. auto. Qed.
Theorem C100_stays_refuted : exists lon, w_point_from_bearing_dist (0, 0) 45 0 "m" TOL MAX_ITER = Ok (0, lon) /\ MAJOR * Rabs (deg lon) > 4.
Proof. exact stay_moves. Qed.

(** * C101: distance and bearing *)
Theorem C101_same_place : forall p u tol n, w_distance_and_bearing p p u tol n = Ok (0, 0).
Proof. exact same_inverse. Qed.
Theorem C101_symmetric : forall p q u tol n, w_distance p q u tol n = w_distance q p u tol n.
Proof. exact distance_sym. Qed.
Theorem C101_parts : forall p q u m tol n d b, is_unit u m -> w_distance_and_bearing p q u tol n = Ok (d, b) ->
  w_distance p q u tol n = Ok d /\ w_bearing p q tol n = Ok b.
Proof.
  intros p q u m tol n d b U H. unfold w_distance, w_bearing. rewrite H. split; [reflexivity|]. unfold w_distance_and_bearing in *.
  destruct (Rzero (fst p - fst q) && Rzero (snd p - snd q)); [injection H as <- <-; reflexivity|]. cbv zeta in *.
  destruct (inverse_loop _ _ _ _ _ _ _ _) as [r|]; [|discriminate]. cbv beta iota delta [bind] in *.
  destruct (unit_convert (inverse_metres r) "m" u) as [x|]; [|discriminate]. injection H as _ <-.
  assert (N : is_unit "nmi" (1000 / 0.539957)) by (right; right; right; left; reflexivity). destruct (unit_of _ _ N) as [_ [C _]]. rewrite C. reflexivity.
Qed.
Theorem C101_vincenty : forall p q u m tol n d b, is_unit u m -> between_poles p -> between_poles q -> p <> q -> w_distance_and_bearing p q u tol n = Ok (d, b) ->
  0 <= d /\ 0 <= b < 360 /\ exists s1 sg lam, 0 < sg < PI /\ latitude_by p b (d * m) (1 / 1000000) q s1 sg lam /\ longitude_by p b tol q s1 sg lam.
Proof. intros p q u m tol n d b U _ Q N H. exact (inverse_spec p q u m tol n d b U Q N H). Qed.
Theorem C101_positive : forall p q u m tol n d b, is_unit u m -> w_distance_and_bearing p q u tol n = Ok (d, b) -> between_poles q -> 0 <= d /\ 0 <= b < 360.
Proof.
  intros p q u m tol n d b U H Q. destruct (Req_dec (fst p) (fst q)) as [E1|E1]; [destruct (Req_dec (snd p) (snd q)) as [E2|E2]|].
  - assert (E : p = q) by (destruct p, q; cbn in *; subst; reflexivity). subst q. rewrite same_inverse in H. injection H as <- <-. lra.
  - assert (NE : p <> q) by (intro X; subst q; contradiction). destruct (inverse_spec p q u m tol n d b U Q NE H) as (A & B & _). auto.
  - assert (NE : p <> q) by (intro X; subst q; contradiction). destruct (inverse_spec p q u m tol n d b U Q NE H) as (A & B & _). auto.
Qed.
(** ** Non-vacuity *)
Example C101_quarter : exists d, w_distance_and_bearing (0, 0) (0, 90) "m" TOL MAX_ITER = Ok (d, 90) /\ Rabs (d - MAJOR * (PI / 2)) <= 1 / 100000.
Proof.
  destruct (inverse_equator_east 0 90 "m" 1) as (d & E & B); [left; reflexivity|lra|]. exists d. split; [exact E|].
  replace (MAJOR * (PI / 2)) with (MAJOR * deg (90 - 0)) by (unfold deg; field). rewrite Rmult_1_r in B. exact B.
Qed.

(** * C102: every pair has a distance *)
Theorem C102_meridians_partial : forall p q u m n, is_unit u m -> between_poles p -> between_poles q -> snd p = snd q -> fst p <> fst q ->
  exists d, w_distance_and_bearing p q u TOL (S n) = Ok (d, if Rlt_dec (fst p) (fst q) then 0 else 180).
Proof. exact inverse_meridian. Qed.
Theorem C102_equator_partial : forall l1 l2 u m, is_unit u m -> Rabs (l2 - l1) <= 179 -> exists d,
  w_distance (0, l1) (0, l2) u TOL MAX_ITER = Ok d /\ Rabs (d * m - MAJOR * deg (Rabs (l2 - l1))) <= 1 / 100000.
Proof. exact inverse_equator. Qed.
Theorem C102_every_pair_refuted : forall u n, w_distance_and_bearing (0, 0) (0, 179.9) u TOL n = Err ValueErr.
Proof. exact opposite_err. Qed.
Example C102_ex : exists d, w_distance_and_bearing (60, 7) (-30, 7) "nmi" TOL 1 = Ok (d, 180).
Proof.
  destruct (C102_meridians_partial (60, 7) (-30, 7) "nmi" (1000 / 0.539957) 0) as (d & E);
    [right; right; right; left; reflexivity|unfold between_poles; cbn; lra|unfold between_poles; cbn; lra|reflexivity|cbn; lra|].
  exists d. rewrite E. cbn [fst]. destruct (Rlt_dec 60 (-30)); [lra|reflexivity].
Qed.

(** * C103: bearing and distance lead there *)
Theorem C103_leads_there : forall p q u m n d b, is_unit u m -> between_poles p -> between_poles q -> w_distance_and_bearing p q u TOL n = Ok (d, b) ->
  exists q' v v', w_point_from_bearing_dist p b d u TOL MAX_ITER = Ok q' /\
    w_lla2ecef false (fst q, snd q, 0) = Ok v /\ w_lla2ecef false (fst q', snd q', 0) = Ok v' /\ length3 (minus v v') <= 40.
Proof.
  intros p q u m n d b U P Q H. destruct (trip_w p q u m n d b U P Q H) as (q' & v & v' & E & V & V' & L). exists q', v, v'. split; [exact E|].
  destruct (to_position (fst q) (snd q) 0) as (w & W & PW). destruct (to_position (fst q') (snd q') 0) as (w' & W' & PW'). rewrite W, W'.
  rewrite (position_unique _ _ _ _ _ PW V), (position_unique _ _ _ _ _ PW' V'). auto.
Qed.
Example C103_quarter : exists d q' v v', w_distance (0, 0) (0, 90) "km" TOL MAX_ITER = Ok d /\ w_point_from_bearing_dist (0, 0) 90 d "km" TOL MAX_ITER = Ok q' /\
  w_lla2ecef false (0, 90, 0) = Ok v /\ w_lla2ecef false (fst q', snd q', 0) = Ok v' /\ length3 (minus v v') <= 40.
Proof.
  destruct (inverse_equator_east 0 90 "km" 1000 km_unit) as (d & E & B); [lra|].
  destruct (C103_leads_there (0, 0) (0, 90) "km" 1000 MAX_ITER d 90 km_unit) as (q' & v & v' & X); try (unfold between_poles; cbn; lra); [exact E|].
  exists d, q', v, v'. split; [unfold w_distance; rewrite E; reflexivity|exact X].
Qed.

(** * C104: paths *)
Theorem C104_line : forall p q n d b, (2 <= n)%nat -> w_distance_and_bearing p q "km" TOL MAX_ITER = Ok (d, b) -> exists l, w_geo_linspace p q n = Ok l /\
  List.length l = S n /\ nth_error l 0 = Some p /\ nth_error l n = Some q /\
  forall i, (0 < i < n)%nat -> exists x, nth_error l i = Some x /\ w_point_from_bearing_dist p b (d * (INR i / INR n)) "km" TOL MAX_ITER = Ok x /\
    exists s1 sg lam, latitude_by p b (1000 * d * INR i / INR n) (1 / 100000) x s1 sg lam /\ longitude_by p b (6 / 1000000) x s1 sg lam.
Proof.
  intros p q n d b N H. destruct (linspace_ok p q n d b N H) as (l & E & L & A & Z & I). exists l. split; [exact E|]. split; [exact L|]. split; [exact A|]. split; [exact Z|].
  intros i B. destruct (I i B) as (x & X & D). exists x. split; [exact X|]. split; [exact D|].
  destruct (direct_spec p b (d * (INR i / INR n)) "km" 1000 km_unit) as (y & s1 & sg & lam & Y & _ & LA & LO & _). rewrite Y in D. injection D as ->.
  exists s1, sg, lam. assert (NZ : INR n <> 0) by (apply not_0_INR; lia). replace (1000 * d * INR i / INR n) with (d * (INR i / INR n) * 1000) by (field; exact NZ). auto.
Qed.
Theorem C104_line_refused : forall p q n, (n < 2)%nat -> w_geo_linspace p q n = Err ValueErr.
Proof. exact linspace_err. Qed.
Theorem C104_line_no_distance : forall p q n e, (2 <= n)%nat -> w_distance_and_bearing p q "km" TOL MAX_ITER = Err e -> w_geo_linspace p q n = Err e.
Proof. exact linspace_err'. Qed.
Theorem C104_line_in_place : forall p n l x, (2 <= n)%nat -> between_poles p -> w_geo_linspace p p n = Ok l -> In x l -> x = p.
Proof.
  intros p n l x N P E I. destruct (linspace_ok p p n 0 0 N (same_inverse p _ _ _)) as (l' & E' & L & A & Z & M). rewrite E in E'. injection E' as <-.
  destruct (In_nth_error _ _ I) as [i X]. assert (LT : (i < S n)%nat) by (rewrite <- L; apply nth_error_Some; congruence).
  destruct (Nat.eq_dec i 0) as [->|NZ]; [congruence|]. destruct (Nat.eq_dec i n) as [->|NN]; [congruence|].
  destruct (M i ltac:(lia)) as (y & Y & D). rewrite Rmult_0_l in D. rewrite (C99_no_distance_on_a_meridian p 0 "km" 1000 km_unit P) in D; [congruence|]. rewrite deg_0. apply sin_0.
Qed.
Theorem C104_circle : forall c r u m n, is_unit u m -> between_poles c -> (1 <= n)%nat -> exists l, w_geo_circle c r u n = Ok l /\ List.length l = S n /\
  (forall i, (i <= n)%nat -> exists x, nth_error l i = Some x /\ w_point_from_bearing_dist c (360 * INR i / INR n) r u TOL MAX_ITER = Ok x /\
     exists s1 sg lam, latitude_by c (360 * INR i / INR n) (r * m) (1 / 100000) x s1 sg lam /\ longitude_by c (360 * INR i / INR n) (6 / 1000000) x s1 sg lam) /\
  nth_error l 0 = nth_error l n.
Proof.
  intros c r u m n U _ N. destruct (circle_w c r u m n U N) as (l & E & L & PT & C). exists l. split; [exact E|]. split; [exact L|]. split; [|exact C].
  intros i I. destruct (PT i I) as (x & X & D). exists x. split; [exact X|]. split; [exact D|].
  destruct (direct_spec c (360 * INR i / INR n) r u m U) as (y & s1 & sg & lam & Y & _ & LA & LO & _). rewrite Y in D. injection D as ->. exists s1, sg, lam. auto.
Qed.
Theorem C104_circle_refused : forall c r u, w_geo_circle c r u 0 = Err DivisionErr.
Proof. exact circle_zero. Qed.
Theorem C104_with_altitudes : forall p q a b n d be, (2 <= n)%nat -> w_distance_and_bearing p q "km" TOL MAX_ITER = Ok (d, be) -> exists l ecef lla,
  w_geo_linspace p q n = Ok l /\ w_ecef_and_geo_linspace p q a b n = Ok (ecef, lla) /\ List.length ecef = S n /\ List.length lla = S n /\
  forall i, (i <= n)%nat -> exists x v, nth_error l i = Some x /\ nth_error lla i = Some (fst x, snd x, a + (b - a) * INR i / INR n) /\
    nth_error ecef i = Some v /\ position (fst x) (snd x) (a + (b - a) * INR i / INR n) v.
Proof. exact and_geo_w. Qed.
(** ** Non-vacuity *)
Example C104_halfway : exists lon, w_geo_linspace (0, 0) (0, 90) 2 = Ok [(0, 0); (0, lon); (0, 90)] /\ Rabs (lon - 45) <= 1 / 1000000000.
Proof.
  pose proof PI_pos as PP. pose proof PI_4 as P4. pose proof PI2_3_2 as P3. pose proof MINOR_big as MB.
  destruct (inverse_equator_east 0 90 "km" 1000 km_unit) as (d & E & B); [lra|].
  destruct (linspace_ok (0, 0) (0, 90) 2 d 90 (le_n 2) E) as (l & EL & L & A & Z & I). destruct (I 1%nat ltac:(lia)) as (x & X & D).
  assert (DB : Rabs (d * 1000 - MAJOR * (PI / 2)) <= 1 / 100000) by (replace (MAJOR * (PI / 2)) with (MAJOR * deg (90 - 0)) by (unfold deg; field); exact B). clear B.
  assert (DP : 0 <= d * (INR 1 / INR 2) * 1000 < PI * MINOR).
  { cbn [INR]. pose proof (Rle_abs (d * 1000 - MAJOR * (PI / 2))); pose proof (Rle_abs (- (d * 1000 - MAJOR * (PI / 2)))) as X2; rewrite Rabs_Ropp in X2; unfold MAJOR in *. unfold MAJOR in DB. split; nra. }
  rewrite (C99_equator 0 90 _ "km" 1000 km_unit (or_introl eq_refl) DP) in D. injection D as <-.
  exists (0 + to_degrees (90 / 90 * (d * (INR 1 / INR 2) * 1000 / MAJOR))). split.
  - rewrite EL. destruct l as [|x0 [|x1 [|x2 [|]]]]; cbn in L; try lia. cbn in A, Z, X. injection A as ->. injection Z as ->. injection X as ->. reflexivity.
  - replace (0 + to_degrees (90 / 90 * (d * (INR 1 / INR 2) * 1000 / MAJOR)) - 45) with ((d * 1000 - MAJOR * (PI / 2)) * (90 / (PI * MAJOR))) by (unfold to_degrees, MAJOR; cbn [INR]; field; lra).
    rewrite Rabs_mult. assert (K : 0 < 90 / (PI * MAJOR) <= 1 / 200000).
    { unfold MAJOR. split; [apply Rdiv_lt_0_compat; nra|]. apply (Rmult_le_reg_r (PI * 6378137)); [nra|]. unfold Rdiv. rewrite Rmult_assoc, Rinv_l by nra. nra. }
    rewrite (Rabs_right (90 / (PI * MAJOR))) by lra. pose proof (Rabs_pos (d * 1000 - MAJOR * (PI / 2))). nra.
Qed.

(** * C105: positions along a path *)
Theorem C105_always_raises_refuted : forall p q a b n, exists e, w_ecef_linspace p q a b n = Err e.
Proof. exact ecef_linspace_w. Qed.
Theorem C105_beside_partial : forall p q a b n d be, (2 <= n)%nat -> w_distance_and_bearing p q "km" TOL MAX_ITER = Ok (d, be) ->
  w_ecef_linspace p q a b n = Err ValueErr /\ exists ecef lla, w_ecef_and_geo_linspace p q a b n = Ok (ecef, lla) /\ List.length ecef = S n.
Proof.
  intros p q a b n d be N H. split.
  - unfold w_ecef_linspace. destruct (linspace_ok p q n d be N H) as (l & EL & L & _). rewrite EL. cbv beta iota delta [bind].
    destruct l as [|x [|y [|z l]]]; cbn in L; try lia; reflexivity.
  - destruct (and_geo_w p q a b n d be N H) as (l & ecef & lla & _ & E & L & _). exists ecef, lla. auto.
Qed.

Print Assumptions C98_to_ecef.
Print Assumptions C98_there_and_back.
Print Assumptions C98_back_and_there.
Print Assumptions C98_lists.
Print Assumptions C98_lists_back.
Print Assumptions C99_travel.
Print Assumptions C99_no_distance_keeps_the_latitude.
Print Assumptions C99_no_distance_on_a_meridian.
Print Assumptions C99_meridians.
Print Assumptions C99_equator.
Print Assumptions C100_near_partial.
Print Assumptions C100_stays_refuted.
Print Assumptions C101_same_place.
Print Assumptions C101_symmetric.
Print Assumptions C101_parts.
Print Assumptions C101_vincenty.
Print Assumptions C101_positive.
Print Assumptions C102_meridians_partial.
Print Assumptions C102_equator_partial.
Print Assumptions C102_every_pair_refuted.
Print Assumptions C103_leads_there.
Print Assumptions C104_line.
Print Assumptions C104_line_refused.
Print Assumptions C104_line_no_distance.
Print Assumptions C104_line_in_place.
Print Assumptions C104_circle.
Print Assumptions C104_circle_refused.
Print Assumptions C104_with_altitudes.
Print Assumptions C105_always_raises_refuted.
Print Assumptions C105_beside_partial.
