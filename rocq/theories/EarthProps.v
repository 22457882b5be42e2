(** Spherical and WGS84 distances compared. *)
From Coq Require Import Reals List Bool String Lra Psatz Lia.
From Verif Require Import GeoModel GeoSpec GeoProofs WgsModel WgsSpec WgsProofs WgsProps VinProofs VinProps EarthProofs.
Import ListNotations.
Open Scope R_scope.

(** * C123: the earth models agree within two percent *)
(** Whatever WGS84 answers, for any bound on the iterations. *)
Theorem C123_two_percent : forall p q u m n d d', is_unit u m -> between_poles p -> between_poles q ->
  w_distance p q u TOL n = Ok d -> distance p q u = Ok d' -> Rabs (d - d') * m <= 0.02 * d' * m + 1 / 10000.
Proof.
  intros p q u m n d d' U P Q H H'. destruct (unit_of u m U) as (M0 & _). rewrite (distance_ok p q u m U) in H'. injection H' as <-.
  assert (RM : RADIUS * angle p q / m * m = RADIUS * angle p q) by (field; lra).
  rewrite <- (Rabs_right m) at 2 by lra. rewrite <- Rabs_mult, Rmult_minus_distr_r, (Rmult_assoc 0.02), RM.
  destruct (Req_dec (fst p) (fst q)) as [E1|E1]; [destruct (Req_dec (snd p) (snd q)) as [E2|E2]|].
  - assert (E : p = q) by (destruct p, q; cbn in *; subst; reflexivity). subst q. unfold w_distance in H. rewrite same_inverse in H. cbn in H. injection H as <-.
    assert (Z : angle p p = 0) by (apply angle_zero; reflexivity). rewrite Z, Rmult_0_l, Rmult_0_r, Rminus_0_r, Rabs_R0. lra.
  - apply (compare p q P Q u m n d U); [intros ->; apply E2; reflexivity|exact H].
  - apply (compare p q P Q u m n d U); [intros ->; apply E1; reflexivity|exact H].
Qed.
Theorem C123_both_answer : forall p q u m, is_unit u m -> between_poles p -> between_poles q -> p = q \/ ~ same_place p q -> angle p q <= deg 178 ->
  exists d d', w_distance p q u TOL MAX_ITER = Ok d /\ distance p q u = Ok d' /\ Rabs (d - d') * m <= 0.02 * d' * m + 1 / 10000.
Proof.
  intros p q u m U P Q S A. destruct (C122_answers p q u m MAX_ITER U P Q S A) as (d & b & _ & D & _); [unfold MAX_ITER; lia|].
  exists d, (RADIUS * angle p q / m). pose proof (distance_ok p q u m U) as D'. split; [exact D|]. split; [exact D'|]. exact (C123_two_percent p q u m MAX_ITER d _ U P Q D D').
Qed.
(** So a place which is clearly farther on the sphere is farther by WGS84, *)
Theorem C123_order : forall p q r u m d1 d2 d1' d2', is_unit u m -> between_poles p -> between_poles q -> between_poles r ->
  w_distance p q u TOL MAX_ITER = Ok d1 -> w_distance p r u TOL MAX_ITER = Ok d2 -> distance p q u = Ok d1' -> distance p r u = Ok d2' ->
  1.05 * d1' * m + 1 / 1000 <= d2' * m -> d1 < d2.
Proof.
  intros p q r u m d1 d2 d1' d2' U P Q R H1 H2 H1' H2' L. destruct (unit_of u m U) as (M0 & _).
  pose proof (C123_two_percent p q u m MAX_ITER d1 d1' U P Q H1 H1') as A. pose proof (C123_two_percent p r u m MAX_ITER d2 d2' U P R H2 H2') as B.
  assert (N : 0 <= d1' * m). { rewrite (distance_ok p q u m U) in H1'. injection H1' as <-. pose proof (angle_bound p q). unfold RADIUS. replace (6378137 * angle p q / m * m) with (6378137 * angle p q) by (field; lra). lra. }
  rewrite <- (Rabs_right m) in A at 1 by lra. rewrite <- (Rabs_right m) in B at 1 by lra. rewrite <- Rabs_mult in A, B. apply Rabs_le_inv in A. apply Rabs_le_inv in B. apply (Rmult_lt_reg_r m); [exact M0|]. lra.
Qed.
(** places apart have a positive distance, *)
Theorem C123_positive : forall p q u m n d, is_unit u m -> between_poles p -> between_poles q -> w_distance p q u TOL n = Ok d -> 1 / 1000 <= RADIUS * angle p q -> 0 < d.
Proof.
  intros p q u m n d U P Q H L. destruct (unit_of u m U) as (M0 & _). pose proof (C123_two_percent p q u m n d _ U P Q H (distance_ok p q u m U)) as A.
  rewrite <- (Rabs_right m) in A at 2 by lra. rewrite <- Rabs_mult in A. apply Rabs_le_inv in A. apply (Rmult_lt_reg_r m); [exact M0|].
  assert (RM : RADIUS * angle p q / m * m = RADIUS * angle p q) by (field; lra). rewrite Rmult_minus_distr_r, !Rmult_assoc in A. replace (/ m * m) with 1 in A by (field; lra).
  replace (RADIUS * (angle p q * (/ m * m))) with (RADIUS * angle p q) in A by (field; lra). nra.
Qed.
(** and a detour is not shorter by more than a few percent. *)
Theorem C123_triangle : forall p q r u m d1 d2 d3, is_unit u m -> between_poles p -> between_poles q -> between_poles r ->
  w_distance p q u TOL MAX_ITER = Ok d1 -> w_distance q r u TOL MAX_ITER = Ok d2 -> w_distance p r u TOL MAX_ITER = Ok d3 -> d3 * m <= 1.05 * (d1 + d2) * m + 1 / 1000.
Proof.
  intros p q r u m d1 d2 d3 U P Q R H1 H2 H3. destruct (unit_of u m U) as (M0 & _).
  assert (K : forall x y d, between_poles x -> between_poles y -> w_distance x y u TOL MAX_ITER = Ok d -> Rabs (d * m - RADIUS * angle x y) <= 0.02 * (RADIUS * angle x y) + 1 / 10000).
  { intros x y d X Y H. pose proof (C123_two_percent x y u m MAX_ITER d _ U X Y H (distance_ok x y u m U)) as A.
    rewrite <- (Rabs_right m) in A at 2 by lra. rewrite <- Rabs_mult, Rmult_minus_distr_r, (Rmult_assoc 0.02) in A. replace (RADIUS * angle x y / m * m) with (RADIUS * angle x y) in A by (field; lra). exact A. }
  pose proof (Rabs_le_inv _ _ (K p q d1 P Q H1)) as K1. pose proof (Rabs_le_inv _ _ (K q r d2 Q R H2)) as K2. pose proof (Rabs_le_inv _ _ (K p r d3 P R H3)) as K3.
  pose proof (angle_triangle p q r) as T. pose proof (angle_bound p q). pose proof (angle_bound q r). pose proof (angle_bound p r). unfold RADIUS in *. nra.
Qed.
(** ** Non-vacuity *)
Example C123_atlantic : exists d d', w_distance (51.5, -0.1) (40.7, -74) "km" TOL MAX_ITER = Ok d /\ distance (51.5, -0.1) (40.7, -74) "km" = Ok d' /\ Rabs (d - d') * 1000 <= 0.02 * d' * 1000 + 1 / 10000.
Proof.
  apply C123_both_answer; [exact km_unit|unfold between_poles; cbn; lra|unfold between_poles; cbn; lra|right; exact atlantic_apart|exact atlantic_near].
Qed.
(** A quarter of a meridian and its tenth. *)
Example C123_order_ex : exists d1 d2, w_distance (0, 0) (8, 0) "km" TOL MAX_ITER = Ok d1 /\ w_distance (0, 0) (80, 0) "km" TOL MAX_ITER = Ok d2 /\ d1 < d2.
Proof.
  assert (P0 : between_poles (0, 0)) by (unfold between_poles; cbn; lra). assert (P1 : between_poles (8, 0)) by (unfold between_poles; cbn; lra). assert (P2 : between_poles (80, 0)) by (unfold between_poles; cbn; lra).
  destruct (C102_meridians_partial (0, 0) (8, 0) "km" 1000 199 km_unit P0 P1) as (d1 & E1); [reflexivity|cbn; lra|].
  destruct (C102_meridians_partial (0, 0) (80, 0) "km" 1000 199 km_unit P0 P2) as (d2 & E2); [reflexivity|cbn; lra|].
  assert (H1 : w_distance (0, 0) (8, 0) "km" TOL MAX_ITER = Ok d1) by (unfold w_distance; change MAX_ITER with (S 199); rewrite E1; reflexivity).
  assert (H2 : w_distance (0, 0) (80, 0) "km" TOL MAX_ITER = Ok d2) by (unfold w_distance; change MAX_ITER with (S 199); rewrite E2; reflexivity).
  exists d1, d2. split; [exact H1|]. split; [exact H2|].
  assert (AN : forall t, 0 < t < 90 -> angle (0, 0) (t, 0) = deg t).
  { intros t T. pose proof PI_pos as PP. unfold angle. rewrite dot_up. cbn [fst snd]. rewrite !deg_0, sin_0, cos_0, Rminus_0_r, cos_0. replace (1 * cos (deg t) * 1 + 0 * sin (deg t)) with (cos (deg t)) by ring. apply acos_cos. unfold deg. nra. }
  apply (C123_order (0, 0) (8, 0) (80, 0) "km" 1000 d1 d2 _ _ km_unit P0 P1 P2 H1 H2 (distance_ok _ _ _ _ km_unit) (distance_ok _ _ _ _ km_unit)).
  rewrite !AN by lra. unfold RADIUS, deg. pose proof PI_bounds. lra.
Qed.

Print Assumptions C123_two_percent.
Print Assumptions C123_both_answer.
Print Assumptions C123_order.
Print Assumptions C123_positive.
Print Assumptions C123_triangle.
