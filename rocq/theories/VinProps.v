(** Two places which are not within two degrees of opposite have a distance and a bearing
    under WGS84: the iteration of wgs84.py:106-129 is a contraction there. *)
From Coq Require Import Reals List Bool String Lra Psatz Lia.
From Verif Require Import GeoModel GeoSpec GeoProofs WgsModel WgsSpec WgsProofs WgsProps VinProofs.
Import ListNotations.
Open Scope R_scope.

(** * C122: distances, bearings and lines exist *)
Theorem C122_answers : forall p q u m n, is_unit u m -> between_poles p -> between_poles q -> p = q \/ ~ same_place p q -> angle p q <= deg 178 -> (61 <= n)%nat ->
  exists d b, w_distance_and_bearing p q u TOL n = Ok (d, b) /\ w_distance p q u TOL n = Ok d /\ w_bearing p q TOL n = Ok b.
Proof.
  intros p q u m n U P Q S A N. assert (H : exists d b, w_distance_and_bearing p q u TOL n = Ok (d, b)).
  { destruct S as [->|S]; [exists 0, 0; apply C101_same_place|apply (inverse_default p q P Q S A u m n U N)]. }
  destruct H as (d & b & H). exists d, b. split; [exact H|]. apply (C101_parts p q u m TOL n d b U H).
Qed.
Theorem C122_any_tolerance : forall p q u m tol, is_unit u m -> between_poles p -> between_poles q -> ~ same_place p q -> angle p q <= deg 178 -> 0 < tol ->
  exists n0, forall n, (n0 <= n)%nat -> exists d b, w_distance_and_bearing p q u tol n = Ok (d, b).
Proof. intros p q u m tol U P Q S A T. exact (inverse_tol p q P Q S A u m tol U T). Qed.
(** The answer with the defaults satisfies Vincenty's equations. *)
Theorem C122_vincenty : forall p q u m, is_unit u m -> between_poles p -> between_poles q -> ~ same_place p q -> angle p q <= deg 178 ->
  exists d b, w_distance_and_bearing p q u TOL MAX_ITER = Ok (d, b) /\ 0 <= d /\ 0 <= b < 360 /\
    exists s1 sg lam, 0 < sg < PI /\ latitude_by p b (d * m) (1 / 1000000) q s1 sg lam /\ longitude_by p b TOL q s1 sg lam.
Proof.
  intros p q u m U P Q S A. destruct (C122_answers p q u m MAX_ITER U P Q (or_intror S) A) as (d & b & H & _); [unfold MAX_ITER; lia|].
  exists d, b. split; [exact H|]. apply (C101_vincenty p q u m TOL MAX_ITER d b U P Q); [|exact H]. intros ->. apply S. reflexivity.
Qed.
Theorem C122_leads_there : forall p q u m, is_unit u m -> between_poles p -> between_poles q -> p = q \/ ~ same_place p q -> angle p q <= deg 178 ->
  exists d b q' v v', w_distance_and_bearing p q u TOL MAX_ITER = Ok (d, b) /\ w_point_from_bearing_dist p b d u TOL MAX_ITER = Ok q' /\
    w_lla2ecef false (fst q, snd q, 0) = Ok v /\ w_lla2ecef false (fst q', snd q', 0) = Ok v' /\ length3 (minus v v') <= 40.
Proof.
  intros p q u m U P Q S A. destruct (C122_answers p q u m MAX_ITER U P Q S A) as (d & b & H & _); [unfold MAX_ITER; lia|].
  destruct (C103_leads_there p q u m MAX_ITER d b U P Q H) as (q' & v & v' & X). exists d, b, q', v, v'. auto.
Qed.
Theorem C122_line : forall p q n, between_poles p -> between_poles q -> p = q \/ ~ same_place p q -> angle p q <= deg 178 -> (2 <= n)%nat ->
  exists d b l, w_distance_and_bearing p q "km" TOL MAX_ITER = Ok (d, b) /\ w_geo_linspace p q n = Ok l /\
  List.length l = S n /\ nth_error l 0 = Some p /\ nth_error l n = Some q /\
  forall i, (0 < i < n)%nat -> exists x, nth_error l i = Some x /\ w_point_from_bearing_dist p b (d * (INR i / INR n)) "km" TOL MAX_ITER = Ok x /\
    exists s1 sg lam, latitude_by p b (1000 * d * INR i / INR n) (1 / 100000) x s1 sg lam /\ longitude_by p b (6 / 1000000) x s1 sg lam.
Proof.
  intros p q n P Q S A N. destruct (C122_answers p q "km" 1000 MAX_ITER km_unit P Q S A) as (d & b & H & _); [unfold MAX_ITER; lia|].
  destruct (C104_line p q n d b N H) as (l & X). exists d, b, l. auto.
Qed.
Theorem C122_line_with_altitudes : forall p q a b n, between_poles p -> between_poles q -> p = q \/ ~ same_place p q -> angle p q <= deg 178 -> (2 <= n)%nat ->
  exists l ecef lla, w_geo_linspace p q n = Ok l /\ w_ecef_and_geo_linspace p q a b n = Ok (ecef, lla) /\ List.length ecef = S n /\ List.length lla = S n /\
  forall i, (i <= n)%nat -> exists x v, nth_error l i = Some x /\ nth_error lla i = Some (fst x, snd x, a + (b - a) * INR i / INR n) /\
    nth_error ecef i = Some v /\ position (fst x) (snd x) (a + (b - a) * INR i / INR n) v.
Proof.
  intros p q a b n P Q S A N. destruct (C122_answers p q "km" 1000 MAX_ITER km_unit P Q S A) as (d & be & H & _); [unfold MAX_ITER; lia|].
  exact (C104_with_altitudes p q a b n d be N H).
Qed.
(** A condition to check by eye: the latitudes and longitudes differ by 178 degrees in all. *)
Theorem C122_by_differences : forall p q u m, is_unit u m -> between_poles p -> between_poles q -> Rabs (fst p - fst q) + Rabs (snd p - snd q) <= 178 ->
  exists d b, w_distance_and_bearing p q u TOL MAX_ITER = Ok (d, b).
Proof.
  intros p q u m U P Q H. assert (A : angle p q <= deg 178) by (apply near_by_differences; exact H).
  assert (S : p = q \/ ~ same_place p q).
  { destruct (Req_dec (fst p) (fst q)) as [E1|E1]; [destruct (Req_dec (snd p) (snd q)) as [E2|E2]|].
    - left. destruct p, q. cbn in *. subst. reflexivity.
    - right. intro X. apply E2. apply (same_lon p q P X). pose proof (Rabs_pos (fst p - fst q)). lra.
    - right. intro X. apply E1. exact (same_lat_place p q P Q X). }
  destruct (C122_answers p q u m MAX_ITER U P Q S A) as (d & b & E & _); [unfold MAX_ITER; lia|]. eauto.
Qed.
(** ** Non-vacuity *)
(** From London to New York, and the line between them. *)
Example C122_atlantic : exists d b, w_distance_and_bearing (51.5, -0.1) (40.7, -74) "nmi" TOL MAX_ITER = Ok (d, b).
Proof.
  apply (C122_by_differences _ _ "nmi" (1000 / 0.539957)); [right; right; right; left; reflexivity| | |]; unfold between_poles; cbn [fst snd]; try lra.
  unfold Rabs. repeat destruct Rcase_abs; lra.
Qed.
Lemma atlantic_near : angle (51.5, -0.1) (40.7, -74) <= deg 178.
Proof. apply near_by_differences. cbn [fst snd]. unfold Rabs. repeat destruct Rcase_abs; lra. Qed.
Lemma atlantic_apart : ~ same_place (51.5, -0.1) (40.7, -74).
Proof. intro X. apply same_lat_place in X; cbn [fst] in *; unfold between_poles; cbn [fst]; lra. Qed.
Example C122_atlantic_line : exists l, w_geo_linspace (51.5, -0.1) (40.7, -74) 10 = Ok l /\ List.length l = 11%nat /\ nth_error l 0 = Some (51.5, -0.1) /\ nth_error l 10 = Some (40.7, -74).
Proof.
  destruct (C122_line (51.5, -0.1) (40.7, -74) 10) as (d & b & l & _ & E & L & A & Z & _);
    [unfold between_poles; cbn; lra|unfold between_poles; cbn; lra|right; exact atlantic_apart|exact atlantic_near|lia|]. exists l. auto.
Qed.
(** Two places on one parallel, where the start of the iteration is not its end. *)
Example C122_parallel : exists d b, w_distance_and_bearing (45, 10) (45, 150) "m" TOL MAX_ITER = Ok (d, b) /\ 0 <= d.
Proof.
  destruct (C122_vincenty (45, 10) (45, 150) "m" 1) as (d & b & E & D & _).
  - left. reflexivity.
  - unfold between_poles; cbn; lra.
  - unfold between_poles; cbn; lra.
  - intro X. assert (E : snd ((45, 10) : place) = snd ((45, 150) : place)); [|cbn in E; lra]. apply same_lon; [unfold between_poles; cbn; lra|exact X|]. cbn [snd]. unfold Rabs. destruct Rcase_abs; lra.
  - apply near_by_differences. cbn [fst snd]. unfold Rabs. repeat destruct Rcase_abs; lra.
  - exists d, b. auto.
Qed.
Print Assumptions C122_answers.
Print Assumptions C122_any_tolerance.
Print Assumptions C122_vincenty.
Print Assumptions C122_leads_there.
Print Assumptions C122_line.
Print Assumptions C122_line_with_altitudes.
Print Assumptions C122_by_differences.
