(** Proofs about geometry on the sphere. *)
From Coq Require Import Reals List Bool String QArith Qreals Lra Lia Psatz ZArith.
From Verif Require UnitsModel.
From Verif Require Import GeoModel GeoSpec.
Import ListNotations.
Open Scope R_scope.

(** ** Comparisons and errors *)
Lemma Rleb_true : forall a b, a <= b -> Rleb a b = true.
Proof. intros a b H. unfold Rleb. destruct (Rle_dec a b); [reflexivity|contradiction]. Qed.
Lemma Rleb_false : forall a b, b < a -> Rleb a b = false.
Proof. intros a b H. unfold Rleb. destruct (Rle_dec a b); [lra|reflexivity]. Qed.
Lemma Rltb_true : forall a b, a < b -> Rltb a b = true.
Proof. intros a b H. unfold Rltb. destruct (Rlt_dec a b); [reflexivity|contradiction]. Qed.
Lemma Rltb_false : forall a b, b <= a -> Rltb a b = false.
Proof. intros a b H. unfold Rltb. destruct (Rlt_dec a b); [lra|reflexivity]. Qed.
Lemma rdiv_ok : forall a b, b <> 0 -> rdiv a b = Ok (a / b).
Proof. intros a b H. unfold rdiv, Rzero. destruct (Req_EM_T b 0); [contradiction|reflexivity]. Qed.
Lemma rdiv_zero : forall a, rdiv a 0 = Err DivisionErr.
Proof. intros a. unfold rdiv, Rzero. destruct (Req_EM_T 0 0); [reflexivity|contradiction]. Qed.
Lemma rsqrt_ok : forall a, 0 <= a -> rsqrt a = Ok (sqrt a).
Proof. intros a H. unfold rsqrt. rewrite Rleb_true by exact H. reflexivity. Qed.
Lemma rasin_ok : forall a, -1 <= a <= 1 -> rasin a = Ok (asin a).
Proof. intros a H. unfold rasin. rewrite !Rleb_true by lra. reflexivity. Qed.
Lemma racos_ok : forall a, -1 <= a <= 1 -> racos a = Ok (acos a).
Proof. intros a H. unfold racos. rewrite !Rleb_true by lra. reflexivity. Qed.

(** ** Angles *)
Lemma PI_pos : 0 < PI. Proof. exact PI_RGT_0. Qed.
Lemma radians_deg : forall x, radians x = deg x.
Proof. intros x. unfold radians, deg. field. Qed.
Lemma deg_degrees : forall x, deg (degrees x) = x.
Proof. intros x. unfold deg, degrees. pose proof PI_pos. field. lra. Qed.
Lemma cs1 : forall x, cos x ^ 2 + sin x ^ 2 = 1.
Proof. intros x. pose proof (sin2_cos2 x) as H. unfold Rsqr in H. simpl. lra. Qed.
Lemma sum_squares : forall x y, 0 <= x ^ 2 + y ^ 2.
Proof. intros x y. pose proof (pow2_ge_0 x). pose proof (pow2_ge_0 y). lra. Qed.
Lemma sqrt_pow2' : forall x, 0 <= x -> sqrt x ^ 2 = x.
Proof. intros x H. simpl. rewrite Rmult_1_r. apply sqrt_sqrt. exact H. Qed.
Lemma sqrt_unique' : forall x y, 0 <= x -> x ^ 2 = y -> sqrt y = x.
Proof. intros x y H <-. apply sqrt_pow2. exact H. Qed.

Lemma tan_angle : forall x, tan (x + PI) = tan x.
Proof.
  intros x. unfold tan. rewrite neg_sin, neg_cos.
  destruct (Req_dec (cos x) 0) as [E|E].
  - rewrite E, Ropp_0. unfold Rdiv. rewrite Rinv_0. ring.
  - field. exact E.
Qed.
(** The angle of a point of the plane given in polar coordinates. *)
Lemma atan2_polar : forall k x, 0 < k -> - PI < x <= PI -> atan2 (k * sin x) (k * cos x) = x.
Proof.
  intros k x K [L U]. pose proof PI_pos as P. unfold atan2.
  assert (Q : cos x <> 0 -> k * sin x / (k * cos x) = tan x) by (intro C; unfold tan; field; split; [exact C|lra]).
  destruct (Rlt_dec x (- (PI / 2))) as [A|A].
  { assert (C : cos x < 0). { rewrite <- cos_neg. apply cos_lt_0; lra. }
    assert (S : sin x < 0). { replace x with (- (- x)) by ring. rewrite sin_neg. assert (0 < sin (- x)) by (apply sin_gt_0; lra). lra. }
    rewrite Rltb_false by nra. rewrite Rltb_true by nra. rewrite Rleb_false by nra. rewrite Q by lra.
    rewrite <- tan_angle, atan_tan by lra. ring. }
  destruct (Req_dec x (- (PI / 2))) as [->|A'].
  { rewrite sin_neg, cos_neg, cos_PI2, sin_PI2.
    rewrite Rltb_false by lra. rewrite Rltb_false by lra. rewrite Rltb_false by lra. rewrite Rltb_true by lra. reflexivity. }
  destruct (Rlt_dec x (PI / 2)) as [B|B].
  { assert (C : 0 < cos x) by (apply cos_gt_0; lra). rewrite Rltb_true by nra. rewrite Q by lra. apply atan_tan. lra. }
  destruct (Req_dec x (PI / 2)) as [->|B'].
  { rewrite cos_PI2, sin_PI2. rewrite Rltb_false by lra. rewrite Rltb_false by lra. rewrite Rltb_true by lra. reflexivity. }
  assert (C : cos x < 0) by (apply cos_lt_0; lra).
  assert (S : 0 <= sin x) by (apply sin_ge_0; lra).
  rewrite Rltb_false by nra. rewrite Rltb_true by nra. rewrite Rleb_true by nra. rewrite Q by lra.
  replace (tan x) with (tan (x - PI)) by (rewrite <- tan_angle; f_equal; ring).
  rewrite atan_tan by lra. ring.
Qed.
(** Every point of the plane has polar coordinates. *)
Lemma polar : forall x y, exists t, - PI < t <= PI /\ x = sqrt (x ^ 2 + y ^ 2) * cos t /\ y = sqrt (x ^ 2 + y ^ 2) * sin t.
Proof.
  intros x y. pose proof PI_pos as P. set (r := sqrt (x ^ 2 + y ^ 2)).
  pose proof (sqrt_pow2' _ (sum_squares x y)) as R2. fold r in R2.
  assert (R0 : 0 <= r) by apply sqrt_pos.
  destruct (Req_dec r 0) as [E|E].
  { exists 0. rewrite E in *. assert (x = 0 /\ y = 0) as [-> ->].
    { pose proof (pow2_ge_0 x). pose proof (pow2_ge_0 y). assert (x ^ 2 = 0) by lra. assert (y ^ 2 = 0) by lra. split; nra. }
    repeat split; lra. }
  assert (Rp : 0 < r) by lra.
  assert (B : -1 <= x / r <= 1).
  { assert ((x / r) ^ 2 <= 1). { unfold Rdiv. rewrite Rpow_mult_distr. apply Rmult_le_reg_r with (r ^ 2); [nra|].
      rewrite Rmult_assoc, <- Rpow_mult_distr, Rinv_l by lra. pose proof (pow2_ge_0 y). nra. } nra. }
  set (u := acos (x / r)). pose proof (acos_bound (x / r)) as UB. fold u in UB.
  assert (CU : r * cos u = x). { unfold u. rewrite cos_acos by exact B. field. lra. }
  assert (SU : 0 <= sin u) by (apply sin_ge_0; lra).
  assert (S2 : (r * sin u) ^ 2 = y ^ 2).
  { pose proof (cs1 u). rewrite Rpow_mult_distr. assert (r ^ 2 * sin u ^ 2 = r ^ 2 - (r * cos u) ^ 2) by nra. rewrite CU in *. lra. }
  destruct (Rle_dec 0 y) as [Y|Y].
  - exists u. split; [lra|]. split; [lra|]. assert (0 <= r * sin u) by nra. nra.
  - exists (- u). rewrite cos_neg, sin_neg. assert (YS : r * sin u = - y) by (assert (0 <= r * sin u) by nra; nra).
    split; [|split; lra]. split; [|lra].
    destruct (Req_dec u PI) as [Z|Z]; [|lra]. rewrite Z, sin_PI in YS. lra.
Qed.
Lemma atan2_spec : forall y x, - PI < atan2 y x <= PI /\ sqrt (x ^ 2 + y ^ 2) * cos (atan2 y x) = x /\ sqrt (x ^ 2 + y ^ 2) * sin (atan2 y x) = y.
Proof.
  intros y x. pose proof PI_pos as P. destruct (polar x y) as [t [T [X Y]]].
  set (r := sqrt (x ^ 2 + y ^ 2)) in *. destruct (Req_dec r 0) as [E|E].
  - rewrite E in *. assert (x = 0) by lra. assert (y = 0) by lra. subst x. subst y.
    unfold atan2. rewrite !Rltb_false by lra. lra.
  - assert (Rp : 0 < r) by (assert (0 <= r) by apply sqrt_pos; lra).
    assert (A : atan2 y x = t) by (rewrite X, Y; apply atan2_polar; assumption).
    rewrite A. split; [exact T|]. split; lra.
Qed.

(** ** Vectors *)
Definition unit3 (v : space) : Prop := dot v v = 1.
Ltac vecs := repeat match goal with v : space |- _ => destruct v as [[? ?] ?] | p : place |- _ => destruct p as [? ?] end.
Ltac veq := apply f_equal2; [apply f_equal2|]; ring.
Lemma dot_comm : forall a b, dot a b = dot b a.
Proof. intros a b. vecs. simpl. ring. Qed.
Lemma dot_mix : forall s v t w x, dot (mix s v t w) x = s * dot v x + t * dot w x.
Proof. intros. vecs. simpl. ring. Qed.
Lemma dot_mix_r : forall s v t w x, dot x (mix s v t w) = s * dot x v + t * dot x w.
Proof. intros. vecs. simpl. ring. Qed.
Lemma up_unit : forall p, dot (up p) (up p) = 1.
Proof.
  intros [lat lon]. unfold up, dot. pose proof (cs1 (deg lat)). pose proof (cs1 (deg lon)).
  set (a := cos (deg lat)) in *. set (b := sin (deg lat)) in *. set (c := cos (deg lon)) in *. set (d := sin (deg lon)) in *.
  replace (a * c * (a * c) + a * d * (a * d) + b * b) with (a ^ 2 * (c ^ 2 + d ^ 2) + b ^ 2) by ring. rewrite H0. lra.
Qed.
Lemma north_unit : forall p, dot (north p) (north p) = 1.
Proof.
  intros [lat lon]. unfold north, dot. pose proof (cs1 (deg lat)). pose proof (cs1 (deg lon)).
  set (a := cos (deg lat)) in *. set (b := sin (deg lat)) in *. set (c := cos (deg lon)) in *. set (d := sin (deg lon)) in *.
  replace (- (b * c) * - (b * c) + - (b * d) * - (b * d) + a * a) with (b ^ 2 * (c ^ 2 + d ^ 2) + a ^ 2) by ring. rewrite H0. lra.
Qed.
Lemma east_unit : forall p, dot (east p) (east p) = 1.
Proof. intros [lat lon]. unfold east, dot. pose proof (cs1 (deg lon)). simpl in *. lra. Qed.
Lemma up_north : forall p, dot (up p) (north p) = 0.
Proof.
  intros [lat lon]. unfold up, north, dot. pose proof (cs1 (deg lon)).
  set (a := cos (deg lat)) in *. set (b := sin (deg lat)) in *. set (c := cos (deg lon)) in *. set (d := sin (deg lon)) in *.
  replace (a * c * - (b * c) + a * d * - (b * d) + b * a) with (a * b * (1 - (c ^ 2 + d ^ 2))) by ring. rewrite H. ring.
Qed.
Lemma up_east : forall p, dot (up p) (east p) = 0.
Proof. intros [lat lon]. unfold up, east, dot. ring. Qed.
Lemma north_east : forall p, dot (north p) (east p) = 0.
Proof. intros [lat lon]. unfold north, east, dot. ring. Qed.
Lemma square_bound : forall x y, x ^ 2 <= y ^ 2 -> 0 <= y -> - y <= x <= y.
Proof. intros x y H Y. split; nra. Qed.
Lemma cauchy : forall a b, dot a a = 1 -> dot b b = 1 -> -1 <= dot a b <= 1.
Proof.
  intros [[ax ay] az] [[bx by_] bz] A B. simpl in *. apply square_bound; [|lra].
  assert (L : (ax * bx + ay * by_ + az * bz) ^ 2 =
    (ax * ax + ay * ay + az * az) * (bx * bx + by_ * by_ + bz * bz)
    - ((ax * by_ - ay * bx) ^ 2 + (ax * bz - az * bx) ^ 2 + (ay * bz - az * by_) ^ 2)) by ring.
  rewrite L, A, B. pose proof (pow2_ge_0 (ax * by_ - ay * bx)). pose proof (pow2_ge_0 (ax * bz - az * bx)). pose proof (pow2_ge_0 (ay * bz - az * by_)). lra.
Qed.
Lemma unit_eq : forall a b, dot a a = 1 -> dot b b = 1 -> dot a b = 1 -> a = b.
Proof.
  intros [[ax ay] az] [[bx by_] bz] A B C. simpl in *.
  assert (Z : (ax - bx) ^ 2 + (ay - by_) ^ 2 + (az - bz) ^ 2 = 0) by nra.
  pose proof (pow2_ge_0 (ax - bx)). pose proof (pow2_ge_0 (ay - by_)). pose proof (pow2_ge_0 (az - bz)).
  assert (ax - bx = 0) by nra. assert (ay - by_ = 0) by nra. assert (az - bz = 0) by nra.
  repeat f_equal; lra.
Qed.
Lemma unit_opp : forall a b, dot a a = 1 -> dot b b = 1 -> dot a b = -1 -> a = mix (-1) b 0 b.
Proof.
  intros a b A B C. apply unit_eq; [exact A| |]; rewrite ?dot_mix, ?dot_mix_r, ?B, ?C; lra.
Qed.
(** The triangle inequality on the sphere. *)
Lemma gram : forall u v w, dot u u = 1 -> dot v v = 1 -> dot w w = 1 ->
  (dot u w - dot u v * dot v w) ^ 2 <= (1 - dot u v ^ 2) * (1 - dot v w ^ 2).
Proof.
  intros [[ux uy] uz] [[vx vy] vz] [[wx wy] wz] U V W. simpl in *.
  set (det := ux * (vy * wz - vz * wy) - uy * (vx * wz - vz * wx) + uz * (vx * wy - vy * wx)).
  assert (G : det ^ 2 =
    let uu := ux * ux + uy * uy + uz * uz in let vv := vx * vx + vy * vy + vz * vz in let ww := wx * wx + wy * wy + wz * wz in
    let uv := ux * vx + uy * vy + uz * vz in let vw := vx * wx + vy * wy + vz * wz in let uw := ux * wx + uy * wy + uz * wz in
    uu * vv * ww + 2 * uv * vw * uw - uu * vw ^ 2 - vv * uw ^ 2 - ww * uv ^ 2) by (unfold det; simpl; ring).
  cbv zeta in G. rewrite U, V, W in G. pose proof (pow2_ge_0 det).
  set (uv := ux * vx + uy * vy + uz * vz) in *. set (vw := vx * wx + vy * wy + vz * wz) in *. set (uw := ux * wx + uy * wy + uz * wz) in *.
  nra.
Qed.
Lemma sqrt_le_abs : forall x y, x ^ 2 <= y -> - sqrt y <= x <= sqrt y.
Proof.
  intros x y H. apply square_bound; [|apply sqrt_pos]. rewrite sqrt_pow2'; [exact H|]. pose proof (pow2_ge_0 x). lra.
Qed.
Lemma triangle : forall u v w, dot u u = 1 -> dot v v = 1 -> dot w w = 1 ->
  acos (dot u w) <= acos (dot u v) + acos (dot v w).
Proof.
  intros u v w U V W. pose proof (cauchy _ _ U V) as B1. pose proof (cauchy _ _ V W) as B2. pose proof (cauchy _ _ U W) as B3.
  pose proof (acos_bound (dot u v)) as A1. pose proof (acos_bound (dot v w)) as A2. pose proof (acos_bound (dot u w)) as A3.
  destruct (Rle_dec PI (acos (dot u v) + acos (dot v w))) as [L|L]; [lra|].
  destruct (Rle_dec (acos (dot u w)) (acos (dot u v) + acos (dot v w))) as [Z|Z]; [exact Z|exfalso].
  assert (D : cos (acos (dot u w)) < cos (acos (dot u v) + acos (dot v w))) by (apply cos_decreasing_1; lra).
  rewrite cos_plus, !cos_acos, !sin_acos in D by assumption. unfold Rsqr in D.
  rewrite <- sqrt_mult in D by nra.
  pose proof (gram u v w U V W) as G.
  replace (1 - dot u v ^ 2) with (1 - dot u v * dot u v) in G by ring. replace (1 - dot v w ^ 2) with (1 - dot v w * dot v w) in G by ring.
  apply sqrt_le_abs in G. lra.
Qed.

(** ** Units *)
Lemma unit_of : forall u m, is_unit u m -> 0 < m /\
  (forall x, unit_convert x "m" u = Ok (x / m)) /\ (forall x, unit_convert x u "m" = Ok (x * m)).
Proof.
  intros u m H. unfold is_unit in H. unfold unit_convert.
  repeat (destruct H as [H|H]; [injection H as <- <-|]); try contradiction; (split; [lra|]);
    split; intro x;
    match goal with |- context [UnitsModel.unit_convert ?a ?b ?c] =>
      let r := eval vm_compute in (UnitsModel.unit_convert a b c) in change (UnitsModel.unit_convert a b c) with r end;
    cbv beta iota; unfold Q2R; simpl; f_equal; lra.
Qed.

(** ** Distance *)
Lemma half_sin : forall x, sin (0.5 * x) ^ 2 = (1 - cos x) / 2.
Proof. intros x. replace (cos x) with (cos (2 * (0.5 * x))) by (f_equal; lra). rewrite cos_2a_sin. simpl. lra. Qed.
Lemma haversine : forall p q,
  sin (0.5 * (radians (fst q) - radians (fst p))) ^ 2 + cos (radians (fst p)) * cos (radians (fst q)) * sin (0.5 * (radians (snd q) - radians (snd p))) ^ 2
  = (1 - dot (up p) (up q)) / 2.
Proof.
  intros [lat1 lon1] [lat2 lon2]. simpl fst. simpl snd. rewrite !half_sin, !radians_deg, !cos_minus. unfold up, dot. lra.
Qed.
Lemma acos_half : forall d, -1 <= d <= 1 -> atan2 (sqrt ((1 - d) / 2)) (sqrt (1 - (1 - d) / 2)) = acos d / 2.
Proof.
  intros d D. set (t := acos d). pose proof (acos_bound d) as B. fold t in B. pose proof PI_pos.
  assert (C : cos t = d) by (apply cos_acos; exact D).
  assert (S : sqrt ((1 - d) / 2) = sin (t / 2)).
  { apply sqrt_unique'; [apply sin_ge_0; lra|]. replace (t / 2) with (0.5 * t) by lra. rewrite half_sin, C. reflexivity. }
  assert (K : sqrt (1 - (1 - d) / 2) = cos (t / 2)).
  { apply sqrt_unique'; [apply cos_ge_0; lra|]. pose proof (cs1 (t / 2)) as E. pose proof (half_sin t) as F.
    replace (0.5 * t) with (t / 2) in F by lra. rewrite C in F. lra. }
  rewrite S, K. replace (sin (t / 2)) with (1 * sin (t / 2)) by ring. replace (cos (t / 2)) with (1 * cos (t / 2)) by ring.
  apply atan2_polar; lra.
Qed.
Lemma angle_bound : forall p q, 0 <= angle p q <= PI.
Proof. intros p q. apply acos_bound. Qed.
Lemma dot_bound : forall p q, -1 <= dot (up p) (up q) <= 1.
Proof. intros p q. apply cauchy; apply up_unit. Qed.
Lemma distance_ok : forall p q u m, is_unit u m -> distance p q u = Ok (RADIUS * angle p q / m).
Proof.
  intros p q u m U. unfold distance. cbv zeta. rewrite haversine. pose proof (dot_bound p q) as B.
  rewrite rsqrt_ok by lra. unfold bind at 1. rewrite rsqrt_ok by lra. unfold bind. rewrite acos_half by exact B.
  destruct (unit_of _ _ U) as [M [-> _]]. f_equal. unfold EARTH, RADIUS, angle. field. lra.
Qed.
Lemma angle_sym : forall p q, angle p q = angle q p.
Proof. intros p q. unfold angle. rewrite dot_comm. reflexivity. Qed.
Lemma acos_inj1 : forall x, -1 <= x <= 1 -> acos x = 0 -> x = 1.
Proof. intros x X H. rewrite <- (cos_acos x X), H. apply cos_0. Qed.
Lemma angle_zero : forall p q, angle p q = 0 <-> same_place p q.
Proof.
  intros p q. unfold angle, same_place. split; intro H.
  - apply unit_eq; try apply up_unit. apply acos_inj1; [apply dot_bound|exact H].
  - rewrite H, up_unit. apply acos_1.
Qed.
Lemma angle_PI : forall p q, angle p q = PI <-> opposite p q.
Proof.
  intros p q. unfold angle, opposite. split; intro H.
  - apply unit_opp; try apply up_unit. rewrite <- (cos_acos (dot (up p) (up q))) by apply dot_bound. rewrite H. apply cos_PI.
  - rewrite H, dot_mix, up_unit. replace (-1 * 1 + 0 * 1) with (- (1)) by ring. rewrite acos_opp, acos_1. ring.
Qed.
Lemma angle_triangle : forall p q r, angle p r <= angle p q + angle q r.
Proof. intros p q r. apply triangle; apply up_unit. Qed.

(** ** Travel *)
Lemma heading_unit : forall p b, dot (heading p b) (heading p b) = 1.
Proof.
  intros p b. unfold heading. rewrite dot_mix, !dot_mix_r, (dot_comm (east p) (north p)), north_unit, east_unit, north_east.
  pose proof (cs1 (deg b)). nra.
Qed.
Lemma up_heading : forall p b, dot (up p) (heading p b) = 0.
Proof. intros p b. unfold heading. rewrite dot_mix_r, up_north, up_east. ring. Qed.
Lemma travel_unit : forall p b d, dot (travel p b d) (travel p b d) = 1.
Proof.
  intros p b d. unfold travel. rewrite dot_mix, !dot_mix_r, (dot_comm (heading p b) (up p)), up_unit, heading_unit, up_heading.
  pose proof (cs1 d). nra.
Qed.
Lemma up_travel : forall p b d, dot (up p) (travel p b d) = cos d.
Proof. intros p b d. unfold travel. rewrite dot_mix_r, up_unit, up_heading. ring. Qed.
(** Latitude and longitude of a direction. *)
Lemma up_of : forall x y z, x ^ 2 + y ^ 2 + z ^ 2 = 1 ->
  up (degrees (atan2 z (sqrt (x ^ 2 + y ^ 2))), degrees (atan2 y x)) = (x, y, z).
Proof.
  intros x y z H. unfold up. rewrite !deg_degrees.
  destruct (atan2_spec y x) as [_ [A B]]. destruct (atan2_spec z (sqrt (x ^ 2 + y ^ 2))) as [_ [C D]].
  rewrite sqrt_pow2' in C, D by apply sum_squares. rewrite H, sqrt_1, Rmult_1_l in C, D. rewrite C, D, A, B. reflexivity.
Qed.
Lemma asin_cos : forall x, -1 <= x <= 1 -> 0 <= cos (asin x).
Proof. intros x X. apply cos_ge_0; pose proof (asin_bound x); lra. Qed.
Lemma cos_lat : forall p, between_poles p -> 0 < cos (deg (fst p)).
Proof. intros p [A B]. pose proof PI_pos. apply cos_gt_0; unfold deg; nra. Qed.
Lemma cos_lat' : forall p, on_earth p -> 0 <= cos (deg (fst p)).
Proof. intros p [A B]. pose proof PI_pos. apply cos_ge_0; unfold deg; nra. Qed.
Lemma on_earth_cases : forall p, on_earth p -> between_poles p \/ cos (deg (fst p)) = 0.
Proof.
  intros p [A B]. destruct (Req_dec (fst p) 90) as [E|E]; [right|destruct (Req_dec (fst p) (-90)) as [F|F]; [right|left; split; lra]].
  - rewrite E. unfold deg. replace (90 * PI / 180) with (PI / 2) by lra. apply cos_PI2.
  - rewrite F. unfold deg. replace (-90 * PI / 180) with (- (PI / 2)) by lra. rewrite cos_neg. apply cos_PI2.
Qed.
Lemma deg_bound : forall x, - (PI / 2) <= x <= PI / 2 -> -90 <= degrees x <= 90.
Proof.
  intros x H. pose proof PI_pos. unfold degrees. replace (x * (180 / PI)) with (x / (PI / 2) * 90) by (field; lra).
  assert (-1 <= x / (PI / 2) <= 1); [|lra]. split.
  - apply Rmult_le_reg_r with (PI / 2); [lra|]. unfold Rdiv at 2. rewrite Rmult_assoc, Rinv_l by lra. lra.
  - apply Rmult_le_reg_r with (PI / 2); [lra|]. unfold Rdiv at 1. rewrite Rmult_assoc, Rinv_l by lra. lra.
Qed.
Lemma travel_ok : forall p b d u m, is_unit u m -> exists q, point_from_bearing_dist p b d u = Ok q /\ on_earth q /\
  (between_poles p -> up q = travel p b (d * m / RADIUS)) /\ (on_earth p -> dot (up p) (up q) = cos (d * m / RADIUS)).
Proof.
  intros [lat1 lon1] b d u m U. destruct (unit_of _ _ U) as [M [_ V]]. unfold point_from_bearing_dist. rewrite V. unfold bind at 1.
  cbv zeta. simpl fst. simpl snd. rewrite !radians_deg. change EARTH with RADIUS. set (delta := d * m / RADIUS).
  pose proof (cos_lat (lat1, lon1)) as CL. pose proof (on_earth_cases (lat1, lon1)) as OC. simpl fst in CL, OC.
  unfold travel, heading, up at 2, north, east, mix.
  pose proof (cs1 (deg lat1)) as L1. pose proof (cs1 (deg lon1)) as L2. pose proof (cs1 (deg b)) as L3. pose proof (cs1 delta) as L4.
  set (cl := cos (deg lat1)) in *. set (sl := sin (deg lat1)) in *. set (co := cos (deg lon1)) in *. set (so := sin (deg lon1)) in *.
  set (cb := cos (deg b)) in *. set (sb := sin (deg b)) in *. set (cd := cos delta) in *. set (sd := sin delta) in *.
  set (x := cd * cl - sd * cb * sl). set (y := sd * sb).
  replace (sl * cd + cl * sd * cb) with (cd * sl + sd * (cb * cl)) by ring. set (z := cd * sl + sd * (cb * cl)).
  assert (XYZ : x ^ 2 + y ^ 2 + z ^ 2 = 1).
  { unfold x, y, z. replace ((cd * cl - sd * cb * sl) ^ 2 + (sd * sb) ^ 2 + (cd * sl + sd * (cb * cl)) ^ 2)
      with ((cd ^ 2 + sd ^ 2 * cb ^ 2) * (cl ^ 2 + sl ^ 2) + sd ^ 2 * sb ^ 2) by ring. rewrite L1.
    replace ((cd ^ 2 + sd ^ 2 * cb ^ 2) * 1 + sd ^ 2 * sb ^ 2) with (cd ^ 2 + sd ^ 2 * (cb ^ 2 + sb ^ 2)) by ring. rewrite L3. lra. }
  assert (ZB : -1 <= z <= 1). { pose proof (pow2_ge_0 x). pose proof (pow2_ge_0 y). apply square_bound; nra. }
  rewrite rasin_ok by exact ZB. unfold bind. rewrite sin_asin by exact ZB.
  replace (sb * sd * cl) with (cl * y) by (unfold y; ring).
  assert (HX : cd - sl * z = cl * x).
  { unfold x, z. replace (cl * (cd * cl - sd * cb * sl)) with (cd * cl ^ 2 - sl * sd * cb * cl) by ring.
    replace (cl ^ 2) with (1 - sl ^ 2) by lra. ring. }
  rewrite HX. eexists. split; [reflexivity|]. split; [apply deg_bound, asin_bound|].
  assert (H2 : cos (asin z) = sqrt (x ^ 2 + y ^ 2)).
  { rewrite cos_asin by exact ZB. f_equal. unfold Rsqr. lra. }
  set (h := sqrt (x ^ 2 + y ^ 2)) in *.
  assert (UP : 0 < cl -> up (degrees (asin z), degrees (deg lon1 + atan2 (cl * y) (cl * x))) = (x * co - y * so, x * so + y * co, z)).
  { intro C. destruct (atan2_spec (cl * y) (cl * x)) as [_ [A B]].
    replace ((cl * x) ^ 2 + (cl * y) ^ 2) with (cl ^ 2 * (x ^ 2 + y ^ 2)) in A, B by ring.
    rewrite sqrt_mult in A, B by nra. rewrite sqrt_pow2 in A, B by lra. fold h in A, B.
    set (t := atan2 (cl * y) (cl * x)) in *.
    assert (A' : h * cos t = x) by (apply Rmult_eq_reg_l with cl; [lra|lra]).
    assert (B' : h * sin t = y) by (apply Rmult_eq_reg_l with cl; [lra|lra]).
    unfold up. rewrite !deg_degrees, H2, sin_asin, cos_plus, sin_plus by exact ZB. fold co. fold so.
    rewrite <- A', <- B'. veq. }
  split.
  - intro BP. rewrite UP by (apply CL; exact BP). unfold x, y, z. veq.
  - intro OE. destruct (OC OE) as [BP|C0].
    + rewrite UP by (apply CL; exact BP). unfold up, dot. fold cl. fold sl. fold co. fold so. unfold x, y, z.
      replace (cl * co * ((cd * cl - sd * cb * sl) * co - sd * sb * so) + cl * so * ((cd * cl - sd * cb * sl) * so + sd * sb * co) + sl * (cd * sl + sd * (cb * cl)))
        with (cl * (cd * cl - sd * cb * sl) * (co ^ 2 + so ^ 2) + sl * (cd * sl + sd * (cb * cl))) by ring.
      rewrite L2. replace (cl * (cd * cl - sd * cb * sl) * 1 + sl * (cd * sl + sd * (cb * cl))) with (cd * (cl ^ 2 + sl ^ 2)) by ring. rewrite L1. ring.
    + unfold up, dot. fold cl. fold sl. fold co. fold so. rewrite !deg_degrees, sin_asin by exact ZB.
      match goal with |- cl * co * ?A + cl * so * ?B + _ = _ => generalize A; generalize B end. intros B A.
      assert (ZZ : z = cd * sl) by (unfold z; rewrite C0; ring). rewrite ZZ, C0.
      replace (0 * co * A + 0 * so * B + sl * (cd * sl)) with (cd * sl ^ 2) by ring.
      rewrite C0 in L1. replace (sl ^ 2) with 1 by lra. ring.
Qed.

(** ** Bearing *)
Lemma cos_periodZ : forall x k, cos (x + 2 * IZR k * PI) = cos x.
Proof.
  intros x k. destruct (Z_le_gt_dec 0 k) as [H|H].
  - rewrite <- (Z2Nat.id k) by exact H. rewrite <- INR_IZR_INZ. apply cos_period.
  - rewrite <- (cos_period (x + 2 * IZR k * PI) (Z.to_nat (- k))). f_equal.
    rewrite INR_IZR_INZ, Z2Nat.id by lia. rewrite opp_IZR. ring.
Qed.
Lemma sin_periodZ : forall x k, sin (x + 2 * IZR k * PI) = sin x.
Proof.
  intros x k. destruct (Z_le_gt_dec 0 k) as [H|H].
  - rewrite <- (Z2Nat.id k) by exact H. rewrite <- INR_IZR_INZ. apply sin_period.
  - rewrite <- (sin_period (x + 2 * IZR k * PI) (Z.to_nat (- k))). f_equal.
    rewrite INR_IZR_INZ, Z2Nat.id by lia. rewrite opp_IZR. ring.
Qed.
Lemma rmod_bound : forall a b, 0 < b -> 0 <= rmod a b < b.
Proof.
  intros a b B. unfold rmod. destruct (base_Int_part (a / b)) as [L U].
  assert (E : a = b * (a / b)) by (field; lra). split.
  - assert (b * IZR (Int_part (a / b)) <= b * (a / b)) by (apply Rmult_le_compat_l; lra). lra.
  - assert (b * (a / b) < b * (IZR (Int_part (a / b)) + 1)) by (apply Rmult_lt_compat_l; lra). lra.
Qed.
Lemma deg_rmod : forall a, exists k, deg (rmod a 360) = deg a + 2 * IZR k * PI.
Proof.
  intros a. exists (- Int_part (a / 360))%Z. unfold rmod, deg. rewrite opp_IZR. field.
Qed.
Lemma cos_rmod : forall a, cos (deg (rmod a 360)) = cos (deg a).
Proof. intros a. destruct (deg_rmod a) as [k ->]. apply cos_periodZ. Qed.
Lemma sin_rmod : forall a, sin (deg (rmod a 360)) = sin (deg a).
Proof. intros a. destruct (deg_rmod a) as [k ->]. apply sin_periodZ. Qed.
Lemma cos_one : forall z, - (2 * PI) < z < 2 * PI -> cos z = 1 -> z = 0.
Proof.
  intros z B C. pose proof (half_sin z) as H. rewrite C in H. pose proof PI_pos.
  assert (S : sin (0.5 * z) = 0) by nra.
  destruct (Rtotal_order z 0) as [L|[E|G]]; [|exact E|].
  - assert (0 < sin (- (0.5 * z))) by (apply sin_gt_0; lra). rewrite sin_neg in *. lra.
  - assert (0 < sin (0.5 * z)) by (apply sin_gt_0; lra). lra.
Qed.
Lemma same_bearing : forall a b, 0 <= a < 360 -> 0 <= b < 360 -> cos (deg a) = cos (deg b) -> sin (deg a) = sin (deg b) -> a = b.
Proof.
  intros a b A B C S. pose proof PI_pos as P. assert (Z : deg a - deg b = 0).
  { apply cos_one.
    - unfold deg. split; apply Rmult_lt_reg_r with (180 / PI); try (apply Rdiv_lt_0_compat; lra);
      match goal with |- ?l < ?r => replace l with (l) by reflexivity end;
      [replace (- (2 * PI) * (180 / PI)) with (-360) by (field; lra); replace ((a * PI / 180 - b * PI / 180) * (180 / PI)) with (a - b) by (field; lra)
      |replace (2 * PI * (180 / PI)) with 360 by (field; lra); replace ((a * PI / 180 - b * PI / 180) * (180 / PI)) with (a - b) by (field; lra)]; lra.
    - rewrite cos_minus, C, S. pose proof (cs1 (deg b)). nra. }
  unfold deg in Z. assert (E : (a - b) * (PI / 180) = 0) by lra. apply Rmult_integral in E. destruct E; lra.
Qed.
Lemma coords : forall p q, dot (north p) (up q) = cos (radians (fst p)) * sin (radians (fst q)) - sin (radians (fst p)) * cos (radians (fst q)) * cos (radians (snd q) - radians (snd p)) /\
  dot (east p) (up q) = sin (radians (snd q) - radians (snd p)) * cos (radians (fst q)).
Proof.
  intros [lat1 lon1] [lat2 lon2]. simpl fst. simpl snd. rewrite !radians_deg, cos_minus, sin_minus. unfold north, east, up, dot. split; ring.
Qed.
Lemma frame : forall p v, v = mix (dot (up p) v) (up p) 1 (mix (dot (north p) v) (north p) (dot (east p) v) (east p)).
Proof.
  intros [lat lon] [[x y] z]. unfold up, north, east, dot, mix. pose proof (cs1 (deg lat)) as A. pose proof (cs1 (deg lon)) as B.
  set (a := cos (deg lat)) in *. set (b := sin (deg lat)) in *. set (c := cos (deg lon)) in *. set (d := sin (deg lon)) in *.
  apply f_equal2; [apply f_equal2|].
  - replace ((a * c * x + a * d * y + b * z) * (a * c) + 1 * ((- (b * c) * x + - (b * d) * y + a * z) * - (b * c) + (- d * x + c * y + 0 * z) * - d))
      with (c * (c * x + d * y) * (a ^ 2 + b ^ 2) + d ^ 2 * x - c * d * y) by ring. rewrite A.
    replace (c * (c * x + d * y) * 1 + d ^ 2 * x - c * d * y) with (x * (c ^ 2 + d ^ 2)) by ring. rewrite B. ring.
  - replace ((a * c * x + a * d * y + b * z) * (a * d) + 1 * ((- (b * c) * x + - (b * d) * y + a * z) * - (b * d) + (- d * x + c * y + 0 * z) * c))
      with (d * (c * x + d * y) * (a ^ 2 + b ^ 2) - c * d * x + c ^ 2 * y) by ring. rewrite A.
    replace (d * (c * x + d * y) * 1 - c * d * x + c ^ 2 * y) with (y * (c ^ 2 + d ^ 2)) by ring. rewrite B. ring.
  - replace ((a * c * x + a * d * y + b * z) * b + 1 * ((- (b * c) * x + - (b * d) * y + a * z) * a + (- d * x + c * y + 0 * z) * 0))
      with (z * (a ^ 2 + b ^ 2)) by ring. rewrite A. ring.
Qed.
Lemma frame_norm : forall p v, dot v v = dot (up p) v ^ 2 + dot (north p) v ^ 2 + dot (east p) v ^ 2.
Proof.
  intros p v. rewrite (frame p v) at 1 2. set (a := dot (up p) v). set (b := dot (north p) v). set (c := dot (east p) v).
  repeat (rewrite dot_mix || rewrite dot_mix_r).
  rewrite ?(dot_comm (east p) (up p)), ?(dot_comm (east p) (north p)), ?(dot_comm (north p) (up p)), up_unit, north_unit, up_north, up_east, north_east, east_unit. ring.
Qed.
Lemma sin_angle : forall p q, 0 <= sin (angle p q) /\ cos (angle p q) = dot (up p) (up q).
Proof. intros p q. split; [apply sin_ge_0; apply angle_bound|apply cos_acos, dot_bound]. Qed.
Lemma bearing_ok : forall p q, 0 <= bearing p q < 360 /\ up q = travel p (bearing p q) (angle p q).
Proof.
  intros p q. unfold bearing. cbv zeta. destruct (coords p q) as [<- <-].
  set (t := atan2 (dot (east p) (up q)) (dot (north p) (up q))).
  split; [apply rmod_bound; lra|]. unfold travel, heading. rewrite cos_rmod, sin_rmod, deg_degrees.
  destruct (atan2_spec (dot (east p) (up q)) (dot (north p) (up q))) as [_ [A B]]. fold t in A, B.
  destruct (sin_angle p q) as [S C].
  assert (RS : sqrt (dot (north p) (up q) ^ 2 + dot (east p) (up q) ^ 2) = sin (angle p q)).
  { apply sqrt_unique'; [exact S|]. pose proof (frame_norm p (up q)) as F. rewrite up_unit in F. pose proof (cs1 (angle p q)) as K. rewrite C in K. lra. }
  rewrite RS in A, B. rewrite (frame p (up q)) at 1. rewrite <- A, <- B, C.
  set (P := up p). set (N := north p). set (E := east p). clear. vecs. simpl. veq.
Qed.
Lemma travel_bearing : forall p b d q, 0 < d < PI -> up q = travel p b d -> bearing p q = rmod b 360.
Proof.
  intros p b d q D T. unfold bearing. cbv zeta. destruct (coords p q) as [<- <-]. rewrite T.
  assert (K : 0 < sin d) by (apply sin_gt_0; lra).
  assert (N : dot (north p) (travel p b d) = sin d * cos (deg b)).
  { unfold travel, heading. rewrite !dot_mix_r, (dot_comm (north p) (up p)), up_north, north_unit, north_east. ring. }
  assert (E : dot (east p) (travel p b d) = sin d * sin (deg b)).
  { unfold travel, heading. rewrite !dot_mix_r, (dot_comm (east p) (up p)), (dot_comm (east p) (north p)), up_east, north_east, east_unit. ring. }
  rewrite N, E. destruct (atan2_spec (sin d * sin (deg b)) (sin d * cos (deg b))) as [_ [A B]].
  assert (RS : sqrt ((sin d * cos (deg b)) ^ 2 + (sin d * sin (deg b)) ^ 2) = sin d).
  { apply sqrt_unique'; [lra|]. pose proof (cs1 (deg b)). nra. }
  rewrite RS in A, B. apply Rmult_eq_reg_l in A; [|lra]. apply Rmult_eq_reg_l in B; [|lra].
  apply same_bearing; try (apply rmod_bound; lra); rewrite ?cos_rmod, ?sin_rmod, deg_degrees; assumption.
Qed.
Lemma travel_angle : forall p q d, 0 <= d <= PI -> dot (up p) (up q) = cos d -> angle p q = d.
Proof. intros p q d D H. unfold angle. rewrite H. apply acos_cos. exact D. Qed.

(** ** Between two points *)
Lemma slerp_norm : forall A B, sin A ^ 2 + sin B ^ 2 + 2 * sin A * sin B * cos (A + B) = sin (A + B) ^ 2.
Proof.
  intros A B. rewrite cos_plus, sin_plus. pose proof (cs1 A). pose proof (cs1 B).
  set (a := sin A) in *. set (b := sin B) in *. set (c := cos A) in *. set (d := cos B) in *.
  assert (c ^ 2 = 1 - a ^ 2) by lra. assert (d ^ 2 = 1 - b ^ 2) by lra.
  replace ((a * d + c * b) ^ 2) with (a ^ 2 * d ^ 2 + 2 * a * b * c * d + c ^ 2 * b ^ 2) by ring. rewrite H1, H2. ring.
Qed.
Lemma up_along : forall p q a b, mix a (up p) b (up q) =
  (a * cos (radians (fst p)) * cos (radians (snd p)) + b * cos (radians (fst q)) * cos (radians (snd q)),
   a * cos (radians (fst p)) * sin (radians (snd p)) + b * cos (radians (fst q)) * sin (radians (snd q)),
   a * sin (radians (fst p)) + b * sin (radians (fst q))).
Proof. intros [lat1 lon1] [lat2 lon2] a b. simpl fst. simpl snd. rewrite !radians_deg. unfold up, mix. veq. Qed.
Lemma metres : is_unit "m" 1.
Proof. left. reflexivity. Qed.
Lemma RADIUS_pos : 0 < RADIUS. Proof. unfold RADIUS. lra. Qed.
Lemma along_ok : forall p q f, ~ same_place p q -> ~ opposite p q -> 0 <= f <= 1 ->
  exists x, point_along p q f = Ok x /\ angle p x = f * angle p q /\ angle x q = (1 - f) * angle p q.
Proof.
  intros p q f S O F. pose proof RADIUS_pos as RP. pose proof (angle_bound p q) as AB.
  assert (D0 : angle p q <> 0) by (intro E; apply S; apply angle_zero; exact E).
  assert (DP : angle p q <> PI) by (intro E; apply O; apply angle_PI; exact E).
  unfold point_along. rewrite (distance_ok p q "m" 1 metres). unfold bind at 1. cbv zeta. change EARTH with RADIUS.
  replace (RADIUS * angle p q / 1 / RADIUS) with (angle p q) by (field; lra).
  destruct (sin_angle p q) as [_ C]. set (d := angle p q) in *.
  assert (SD : 0 < sin d) by (apply sin_gt_0; lra).
  rewrite rdiv_ok by lra. unfold bind at 1. rewrite rdiv_ok by lra. unfold bind at 1.
  set (a := sin ((1 - f) * d) / sin d). set (b := sin (f * d) / sin d).
  assert (N : a ^ 2 + b ^ 2 + 2 * a * b * cos d = 1).
  { pose proof (slerp_norm ((1 - f) * d) (f * d)) as H. replace ((1 - f) * d + f * d) with d in H by ring. unfold a, b.
    replace ((sin ((1 - f) * d) / sin d) ^ 2 + (sin (f * d) / sin d) ^ 2 + 2 * (sin ((1 - f) * d) / sin d) * (sin (f * d) / sin d) * cos d)
      with ((sin ((1 - f) * d) ^ 2 + sin (f * d) ^ 2 + 2 * sin ((1 - f) * d) * sin (f * d) * cos d) / sin d ^ 2) by (field; lra). rewrite H. field. lra. }
  assert (DP1 : a + b * cos d = cos (f * d)).
  { unfold a, b. replace ((1 - f) * d) with (d - f * d) by ring. rewrite sin_minus. field. lra. }
  assert (DQ1 : a * cos d + b = cos ((1 - f) * d)).
  { unfold a, b. replace (f * d) with (d - (1 - f) * d) by ring. rewrite sin_minus. field. lra. }
  assert (U : dot (mix a (up p) b (up q)) (mix a (up p) b (up q)) = 1).
  { repeat (rewrite dot_mix || rewrite dot_mix_r). rewrite (dot_comm (up q) (up p)), !up_unit, <- C. lra. }
  assert (X1 : dot (up p) (mix a (up p) b (up q)) = cos (f * d)) by (rewrite dot_mix_r, up_unit, <- C; lra).
  assert (X2 : dot (mix a (up p) b (up q)) (up q) = cos ((1 - f) * d)) by (rewrite dot_mix, up_unit, <- C; lra).
  rewrite up_along in U, X1, X2.
  match goal with |- context [rsqrt (?x ^ 2 + ?y ^ 2)] => set (vx := x) in *; set (vy := y) in * end.
  set (vz := a * sin (radians (fst p)) + b * sin (radians (fst q))) in *.
  rewrite rsqrt_ok by apply sum_squares. unfold bind.
  assert (V : vx ^ 2 + vy ^ 2 + vz ^ 2 = 1) by (simpl in U; lra).
  eexists. split; [reflexivity|]. split; apply travel_angle; try (rewrite up_of by exact V); try assumption; split; nra.
Qed.
Lemma along_err : forall p q f, same_place p q \/ opposite p q -> point_along p q f = Err DivisionErr.
Proof.
  intros p q f H. unfold point_along. rewrite (distance_ok p q "m" 1 metres). unfold bind at 1. cbv zeta. change EARTH with RADIUS.
  pose proof RADIUS_pos. replace (RADIUS * angle p q / 1 / RADIUS) with (angle p q) by (field; lra).
  assert (sin (angle p q) = 0) as ->. { destruct H as [H|H]; [apply angle_zero in H|apply angle_PI in H]; rewrite H; [apply sin_0|apply sin_PI]. }
  rewrite rdiv_zero. reflexivity.
Qed.

(** ** Evenly spaced points *)
Lemma close_near : forall v w, close v w = true <-> near v w.
Proof.
  intros [[vx vy] vz] [[wx wy] wz]. unfold close, near, Rleb.
  repeat match goal with |- context [Rle_dec ?a ?b] => destruct (Rle_dec a b) end; simpl; split; intro H; try discriminate; tauto.
Qed.
Lemma combine_mix : forall s v t w, combine3 s v t w = mix s v t w.
Proof. reflexivity. Qed.
Lemma near_refl : forall v, near v v.
Proof.
  intros [[x y] z]. unfold near. unfold Rminus. rewrite !Rplus_opp_r, Rabs_R0. lra.
Qed.
Lemma path_angle_ok : forall v1 v2, dot v1 v1 = 1 -> dot v2 v2 = 1 -> -1 < dot v1 v2 < 1 -> first3 v1 + first3 v2 <> 0 ->
  exists t w, path_angle v1 v2 = Ok (t, w) /\ - PI < t < PI /\ dot w w = 1 /\ dot v1 w = 0 /\
    v2 = mix (cos (acos (dot v1 v2))) v1 (sin (acos (dot v1 v2))) w /\
    (t = acos (dot v1 v2) \/ near (mix (cos t) v1 (sin t) w) v2).
Proof.
  intros v1 v2 U1 U2 D X. set (d := dot v1 v2) in *. set (g := acos d).
  pose proof PI_pos as PP.
  assert (CG : cos g = d) by (apply cos_acos; lra).
  pose proof (acos_bound_lt d D) as GB. fold g in GB. assert (SG : 0 < sin g) by (apply sin_gt_0; lra).
  pose proof (cs1 g) as CS. rewrite CG in CS.
  assert (S2 : sin g ^ 2 = (1 - d) * (1 + d)) by nra.
  unfold path_angle. change (GeoModel.vdot v1 v2) with d. cbv zeta.
  assert (DD : (d - 1) * (d + 1) <> 0) by nra.
  rewrite rdiv_ok by exact DD. unfold bind at 1.
  assert (Q : -1 / ((d - 1) * (d + 1)) = (/ sin g) ^ 2).
  { replace ((/ sin g) ^ 2) with (1 / (sin g ^ 2)) by (field; lra). rewrite S2. field. split; nra. }
  rewrite Q. assert (IS : 0 < / sin g) by (apply Rinv_0_lt_compat; exact SG).
  rewrite rsqrt_ok by apply pow2_ge_0. rewrite sqrt_pow2 by lra. unfold bind at 1.
  set (w := mix (- d * / sin g) v1 (/ sin g) v2).
  assert (W1 : dot v1 w = 0). { unfold w. rewrite dot_mix_r, U1. fold d. ring. }
  assert (WW : dot w w = 1).
  { unfold w. repeat (rewrite dot_mix || rewrite dot_mix_r). rewrite (dot_comm v2 v1), U1, U2. fold d.
    replace (- d * / sin g * (- d * / sin g * 1 + / sin g * d) + / sin g * (- d * / sin g * d + / sin g * 1)) with ((1 - d) * (1 + d) / sin g ^ 2) by (field; lra).
    rewrite S2. field. split; nra. }
  assert (V2 : v2 = mix (cos g) v1 (sin g) w).
  { rewrite CG. unfold w. clear - SG. destruct v1 as [[a1 a2] a3]. destruct v2 as [[b1 b2] b3]. simpl. apply f_equal2; [apply f_equal2|]; field; lra. }
  set (a := fst (fst v1)). set (e := fst (fst v2)). change (a + e <> 0) in X.
  set (lead := a * (- d * / sin g) + / sin g * e).
  assert (LE : lead = fst (fst w)) by (unfold lead, w, a, e; destruct v1 as [[? ?] ?]; destruct v2 as [[? ?] ?]; simpl; ring).
  assert (EE : e = d * a + sin g * lead) by (unfold lead; field; lra).
  assert (SI : a ^ 2 * (- d * / sin g) ^ 2 + a ^ 2 + 2 * a * (- d * / sin g) * / sin g * e + / sin g ^ 2 * e ^ 2 - e ^ 2 = (a * sin g - lead * d) ^ 2).
  { replace (a ^ 2 * (- d * / sin g) ^ 2 + a ^ 2 + 2 * a * (- d * / sin g) * / sin g * e + / sin g ^ 2 * e ^ 2 - e ^ 2) with (lead ^ 2 + a ^ 2 - e ^ 2) by (unfold lead; field; lra).
    rewrite EE at 1. assert (d ^ 2 = 1 - sin g ^ 2) by lra.
    replace (lead ^ 2 + a ^ 2 - (d * a + sin g * lead) ^ 2) with (lead ^ 2 * (1 - sin g ^ 2) + a ^ 2 * (1 - d ^ 2) - 2 * a * d * sin g * lead) by ring.
    rewrite <- H. replace (1 - d ^ 2) with (sin g ^ 2) by lra. ring. }
  replace ((/ sin g) ^ 2 * e ^ 2) with (/ sin g ^ 2 * e ^ 2) by (field; lra).
  rewrite SI. rewrite Rltb_false by apply pow2_ge_0.
  rewrite rdiv_ok by exact X. unfold bind at 1.
  set (k := a * sin g - lead * d) in *.
  assert (TG : tan (g / 2) = sin g / (1 + d)).
  { assert (CH : 0 < cos (g / 2)) by (apply cos_gt_0; lra).
    assert (sin g = 2 * sin (g / 2) * cos (g / 2)) by (rewrite <- sin_2a; f_equal; lra).
    assert (1 + d = 2 * cos (g / 2) * cos (g / 2)). { rewrite <- CG. replace (cos g) with (cos (2 * (g / 2))) by (f_equal; lra). rewrite cos_2a_cos. ring. }
    rewrite H, H0. unfold tan. field. lra. }
  assert (RT : (lead + k) / (a + e) = tan (g / 2)).
  { rewrite TG. apply Rmult_eq_reg_r with (a + e); [|exact X]. apply Rmult_eq_reg_r with (1 + d); [|lra].
    replace ((lead + k) / (a + e) * (a + e) * (1 + d)) with ((lead + k) * (1 + d)) by (field; exact X).
    replace (sin g / (1 + d) * (a + e) * (1 + d)) with (sin g * (a + e)) by (field; lra).
    rewrite EE. unfold k. replace ((lead + (a * sin g - lead * d)) * (1 + d)) with (lead * (1 - d ^ 2) + a * sin g * (1 + d)) by ring.
    replace (1 - d ^ 2) with (sin g ^ 2) by lra. ring. }
  assert (G2 : 2 * atan (tan (g / 2)) = g) by (rewrite atan_tan by lra; lra).
  assert (AB : forall x, - PI < 2 * atan x < PI) by (intro x; pose proof (atan_bound x); lra).
  change (combine3 (- d * / sin g) v1 (/ sin g) v2) with w.
  destruct (Rle_dec 0 k) as [K|K].
  - rewrite sqrt_pow2 by exact K. rewrite RT, G2, combine_mix, <- V2.
    assert (close v2 v2 = true) as -> by (apply close_near, near_refl).
    exists g, w. split; [reflexivity|]. split; [lra|]. split; [exact WW|]. split; [exact W1|]. split; [exact V2|]. left. reflexivity.
  - replace (k ^ 2) with ((- k) ^ 2) by ring. rewrite sqrt_pow2 by lra.
    destruct (close _ v2) eqn:CL.
    + eexists; exists w. split; [reflexivity|]. split; [apply AB|]. split; [exact WW|]. split; [exact W1|]. split; [exact V2|].
      right. apply close_near. exact CL.
    + rewrite rdiv_ok by exact X. unfold bind. replace (lead - - k) with (lead + k) by ring. rewrite RT, G2.
      exists g, w. split; [reflexivity|]. split; [lra|]. split; [exact WW|]. split; [exact W1|]. split; [exact V2|]. left. reflexivity.
Qed.
Lemma path_angle_err : forall v1 v2, dot v1 v1 = 1 -> dot v2 v2 = 1 -> dot v1 v2 = 1 \/ dot v1 v2 = -1 \/ first3 v1 + first3 v2 = 0 ->
  path_angle v1 v2 = Err DivisionErr.
Proof.
  intros v1 v2 U1 U2 H. unfold path_angle. change (GeoModel.vdot v1 v2) with (dot v1 v2). cbv zeta.
  pose proof (cauchy v1 v2 U1 U2) as B.
  destruct (Req_dec ((dot v1 v2 - 1) * (dot v1 v2 + 1)) 0) as [E|E]; [rewrite E, rdiv_zero; reflexivity|].
  assert (D : -1 < dot v1 v2 < 1). { split; [destruct (Req_dec (dot v1 v2) (-1))|destruct (Req_dec (dot v1 v2) 1)]; try lra; exfalso; apply E; rewrite H0; ring. }
  destruct H as [H|[H|H]]; try lra. set (d := dot v1 v2) in *.
  rewrite rdiv_ok by exact E. unfold bind at 1.
  assert (P : 0 < -1 / ((d - 1) * (d + 1))).
  { replace (-1 / ((d - 1) * (d + 1))) with (/ ((1 - d) * (d + 1))) by (field; split; lra). apply Rinv_0_lt_compat. nra. }
  rewrite rsqrt_ok by lra. unfold bind at 1.
  set (b := sqrt (-1 / ((d - 1) * (d + 1)))). assert (b ^ 2 = -1 / ((d - 1) * (d + 1))) by (apply sqrt_pow2'; lra).
  unfold first3 in H. set (a := fst (fst v1)) in *. set (e := fst (fst v2)) in *.
  rewrite Rltb_false.
  - replace (a + e) with 0 by exact (eq_sym H). rewrite rdiv_zero. reflexivity.
  - assert (e = - a) by lra. rewrite H1. replace (a ^ 2 * (- d * b) ^ 2 + a ^ 2 + 2 * a * (- d * b) * b * - a + b ^ 2 * (- a) ^ 2 - (- a) ^ 2)
      with (a ^ 2 * (d + 1) ^ 2 * b ^ 2) by ring. pose proof (pow2_ge_0 (a * (d + 1) * b)) as Z. replace ((a * (d + 1) * b) ^ 2) with (a ^ 2 * (d + 1) ^ 2 * b ^ 2) in Z by ring. exact Z.
Qed.
Lemma ll2cart_up : forall p, ll2cart p = up p.
Proof. intros [lat lon]. unfold ll2cart, up. simpl fst. simpl snd. rewrite !radians_deg. veq. Qed.
Lemma first_up : forall p, first3 (up p) = cos (deg (fst p)) * cos (deg (snd p)).
Proof. intros [lat lon]. reflexivity. Qed.
Lemma mix_unit : forall u w t, dot u u = 1 -> dot w w = 1 -> dot u w = 0 -> dot (mix (cos t) u (sin t) w) (mix (cos t) u (sin t) w) = 1.
Proof.
  intros u w t U W O. repeat (rewrite dot_mix || rewrite dot_mix_r). rewrite (dot_comm w u), U, W, O. pose proof (cs1 t). nra.
Qed.
Lemma mix_dot : forall u w s t, dot u u = 1 -> dot w w = 1 -> dot u w = 0 -> dot (mix (cos s) u (sin s) w) (mix (cos t) u (sin t) w) = cos (s - t).
Proof.
  intros u w s t U W O. repeat (rewrite dot_mix || rewrite dot_mix_r). rewrite (dot_comm w u), U, W, O, cos_minus. ring.
Qed.
Lemma ecef_up : forall v lat lon h, dot v v = 1 -> ecef2lla v = (lat, lon, h) -> up (lat, lon) = v.
Proof.
  intros [[x y] z] lat lon h U H. unfold ecef2lla in H. injection H as <- <- _. apply up_of. simpl in U. lra.
Qed.
Lemma nth_seq_map : forall {A} (f : nat -> A) n i, (i <= n)%nat -> nth_error (map f (seq 0 (S n))) i = Some (f i).
Proof.
  intros A f n i H. rewrite nth_error_map, (nth_error_nth' (seq 0 (S n)) O) by (rewrite seq_length; lia). rewrite seq_nth by lia. reflexivity.
Qed.
Lemma with_ecef_ok : forall p q n, (2 <= n)%nat -> ~ same_place p q -> ~ opposite p q -> first3 (up p) + first3 (up q) <> 0 ->
  exists t w l e, geo_linspace_with_ecef p q n = Ok (l, e) /\ List.length l = S n /\ List.length e = S n /\ - PI < t < PI /\ dot w w = 1 /\ dot (up p) w = 0 /\
    up q = mix (cos (angle p q)) (up p) (sin (angle p q)) w /\
    (t = angle p q \/ near (mix (cos t) (up p) (sin t) w) (up q)) /\
    forall i, (i <= n)%nat -> exists x, nth_error l i = Some x /\ nth_error e i = Some (up x) /\ up x = mix (cos (t / INR n * INR i)) (up p) (sin (t / INR n * INR i)) w.
Proof.
  intros p q n N S O X.
  assert (D : -1 < dot (up p) (up q) < 1).
  { pose proof (dot_bound p q) as B. split.
    - destruct (Req_dec (dot (up p) (up q)) (-1)) as [E|E]; [|lra]. exfalso. apply O. apply unit_opp; try apply up_unit. exact E.
    - destruct (Req_dec (dot (up p) (up q)) 1) as [E|E]; [|lra]. exfalso. apply S. apply unit_eq; try apply up_unit. exact E. }
  destruct (path_angle_ok (up p) (up q) (up_unit p) (up_unit q) D X) as [t [w [PA [T [W [O' [V2 E]]]]]]].
  unfold geo_linspace_with_ecef, ecef_points. rewrite !ll2cart_up, PA.
  replace (n <? 2)%nat with false by (symmetry; apply Nat.ltb_ge; lia). unfold bind.
  exists t, w. eexists; eexists. split; [reflexivity|]. rewrite !map_length, seq_length. split; [reflexivity|]. split; [reflexivity|].
  split; [exact T|]. split; [exact W|]. split; [exact O'|]. split; [exact V2|]. split; [exact E|].
  intros i I. rewrite map_map, !nth_seq_map by exact I.
  destruct (ecef2lla (combine3 (cos (t / INR n * INR i)) (up p) (sin (t / INR n * INR i)) w)) as [[lat lon] h] eqn:EQ.
  exists (lat, lon). apply ecef_up in EQ; [|apply mix_unit; auto using up_unit]. rewrite EQ. auto.
Qed.
Lemma with_ecef_err : forall p q n, (n < 2)%nat \/ same_place p q \/ opposite p q \/ first3 (up p) + first3 (up q) = 0 ->
  exists e, geo_linspace_with_ecef p q n = Err e.
Proof.
  intros p q n H. unfold geo_linspace_with_ecef, ecef_points. destruct (n <? 2)%nat eqn:E; [eexists; reflexivity|].
  rewrite !ll2cart_up, path_angle_err; [eexists; reflexivity|apply up_unit|apply up_unit|].
  destruct H as [H|[H|[H|H]]].
  - apply Nat.ltb_ge in E. lia.
  - left. unfold same_place in H. rewrite H. apply up_unit.
  - right. left. unfold opposite in H. rewrite H, dot_mix, up_unit. ring.
  - right. right. exact H.
Qed.

(** ** Circles *)
Lemma circle_ok : forall c r u m n, is_unit u m -> (1 <= n)%nat -> exists l, geo_circle c r u n = Ok l /\ List.length l = S n /\
  forall i, (i <= n)%nat -> exists x, nth_error l i = Some x /\ point_from_bearing_dist c (INR i / INR n * 360) r u = Ok x.
Proof.
  intros c r u m n U N. unfold geo_circle.
  assert (NZ : INR n <> 0) by (apply not_0_INR; lia).
  assert (G : forall k s, exists l, all_ok (fun i => do f <- rdiv (INR i) (INR n); point_from_bearing_dist c (f * 360) r u) (seq s k) = Ok l /\
    List.length l = k /\ forall i, (i < k)%nat -> exists x, nth_error l i = Some x /\ point_from_bearing_dist c (INR (s + i) / INR n * 360) r u = Ok x).
  { induction k as [|k IH]; intro s.
    - exists []. split; [reflexivity|]. split; [reflexivity|]. intros i I. lia.
    - cbn [seq all_ok]. rewrite rdiv_ok by exact NZ. unfold bind at 2.
      destruct (travel_ok c (INR s / INR n * 360) r u m U) as [x [EX _]]. rewrite EX. unfold bind at 1.
      destruct (IH (S s)) as [l [E [L F]]]. rewrite E. unfold bind.
      exists (x :: l). split; [reflexivity|]. split; [simpl; lia|]. intros [|i] I.
      + exists x. rewrite Nat.add_0_r. auto.
      + destruct (F i) as [y [Y1 Y2]]; [lia|]. exists y. split; [exact Y1|]. replace (s + S i)%nat with (S s + i)%nat by lia. exact Y2. }
  destruct (G (S n) O) as [l [E [L F]]]. exists l. split; [exact E|]. split; [exact L|]. intros i I. apply (F i). lia.
Qed.

(** ** Cross track *)
Definition normal (p : place) (b : R) : space := mix (- sin (deg b)) (north p) (cos (deg b)) (east p).
Lemma normal_facts : forall p b, dot (normal p b) (normal p b) = 1 /\ dot (up p) (normal p b) = 0 /\ dot (heading p b) (normal p b) = 0.
Proof.
  intros p b. unfold normal, heading. repeat (rewrite dot_mix || rewrite dot_mix_r).
  rewrite ?(dot_comm (east p) (north p)), up_north, up_east, north_unit, east_unit, north_east. pose proof (cs1 (deg b)). repeat split; nra.
Qed.
Lemma frame_at : forall p b v, dot v v = dot v (up p) ^ 2 + dot v (heading p b) ^ 2 + dot v (normal p b) ^ 2.
Proof.
  intros p b v. rewrite (frame_norm p v). unfold heading, normal. rewrite !dot_mix_r, (dot_comm v (up p)), (dot_comm v (north p)), (dot_comm v (east p)).
  pose proof (cs1 (deg b)) as C. set (c := cos (deg b)) in *. set (s := sin (deg b)) in *. set (x := dot (north p) v). set (y := dot (east p) v).
  replace ((c * x + s * y) ^ 2) with (c ^ 2 * x ^ 2 + s ^ 2 * y ^ 2 + 2 * c * s * x * y) by ring.
  replace ((- s * x + c * y) ^ 2) with (s ^ 2 * x ^ 2 + c ^ 2 * y ^ 2 - 2 * c * s * x * y) by ring.
  replace (c ^ 2) with (1 - s ^ 2) by lra. ring.
Qed.
Lemma dot_travel : forall p b t v, dot v (travel p b t) = cos t * dot v (up p) + sin t * dot v (heading p b).
Proof. intros. unfold travel. apply dot_mix_r. Qed.
Lemma place_of : forall v, dot v v = 1 -> exists x, up x = v.
Proof. intros [[x y] z] U. eexists. apply (up_of x y z). simpl in U. lra. Qed.
Lemma asin_abs : forall g, -1 <= g <= 1 -> Rabs (asin g) = acos (sqrt (1 - g ^ 2)).
Proof.
  intros g G. pose proof (asin_bound g) as B. pose proof (cos_asin g G) as C. unfold Rsqr in C. replace (1 - g ^ 2) with (1 - g * g) by ring. rewrite <- C.
  destruct (Rle_dec 0 (asin g)) as [H|H].
  - rewrite Rabs_pos_eq by exact H. rewrite acos_cos by lra. reflexivity.
  - rewrite Rabs_left by lra. rewrite <- cos_neg, acos_cos by lra. reflexivity.
Qed.
Lemma acos_decr : forall x y, -1 <= x <= 1 -> -1 <= y <= 1 -> x <= y -> acos y <= acos x.
Proof.
  intros x y X Y H. destruct (Rle_dec (acos y) (acos x)) as [L|L]; [exact L|exfalso].
  assert (cos (acos y) < cos (acos x)) by (apply cos_decreasing_1; pose proof (acos_bound x); pose proof (acos_bound y); lra).
  rewrite !cos_acos in H0 by assumption. lra.
Qed.
(** The nearest point of a great circle. *)
Lemma nearest : forall o b c, let g := dot (up c) (normal o b) in
  -1 <= g <= 1 /\ (forall x, on_circle o b x -> Rabs (asin g) <= angle c x) /\
  forall x t, up x = travel o b t -> sqrt (1 - g ^ 2) * cos t = dot (up c) (up o) -> sqrt (1 - g ^ 2) * sin t = dot (up c) (heading o b) -> angle c x = Rabs (asin g).
Proof.
  intros o b c g. assert (G : -1 <= g <= 1) by (apply cauchy; [apply up_unit|apply normal_facts]).
  pose proof (frame_at o b (up c)) as F. rewrite up_unit in F. fold g in F.
  set (cp := dot (up c) (up o)) in *. set (ct := dot (up c) (heading o b)) in *.
  assert (S2 : sqrt (1 - g ^ 2) ^ 2 = 1 - g ^ 2) by (apply sqrt_pow2'; nra).
  assert (S0 : 0 <= sqrt (1 - g ^ 2)) by apply sqrt_pos.
  split; [exact G|]. split.
  - intros x [t T]. rewrite asin_abs by exact G. unfold angle. apply acos_decr.
    + apply dot_bound.
    + split; nra.
    + rewrite T, dot_travel. fold cp. fold ct.
      pose proof (sqrt_le_abs (cos t * cp + sin t * ct) (1 - g ^ 2)) as Q. apply Q.
      pose proof (cs1 t) as K. assert (E : (cos t * cp + sin t * ct) ^ 2 + (sin t * cp - cos t * ct) ^ 2 = (cos t ^ 2 + sin t ^ 2) * (cp ^ 2 + ct ^ 2)) by ring.
      rewrite K in E. pose proof (pow2_ge_0 (sin t * cp - cos t * ct)). lra.
  - intros x t T A B. rewrite asin_abs by exact G. unfold angle. f_equal. rewrite T, dot_travel. fold cp. fold ct. rewrite <- A, <- B.
    pose proof (cs1 t) as K. replace (cos t * (sqrt (1 - g ^ 2) * cos t) + sin t * (sqrt (1 - g ^ 2) * sin t)) with (sqrt (1 - g ^ 2) * (cos t ^ 2 + sin t ^ 2)) by ring.
    rewrite K. ring.
Qed.
Lemma cross_sine : forall o e c, sin (angle o c) * sin (deg (bearing o c) - deg (bearing o e)) = dot (up c) (normal o (bearing o e)) /\
  sin (angle o c) * cos (deg (bearing o c) - deg (bearing o e)) = dot (up c) (heading o (bearing o e)) /\ cos (angle o c) = dot (up c) (up o).
Proof.
  intros o e c. destruct (bearing_ok o c) as [_ E]. set (b := bearing o e). set (b' := bearing o c) in *.
  assert (H : forall v, dot (up c) v = cos (angle o c) * dot (up o) v + sin (angle o c) * (cos (deg b') * dot (north o) v + sin (deg b') * dot (east o) v)).
  { intro v. rewrite E at 1. unfold travel, heading. rewrite !dot_mix. reflexivity. }
  split; [|split].
  - rewrite H. unfold normal. rewrite !dot_mix_r, up_north, up_east, (dot_comm (east o) (north o)), north_unit, east_unit, north_east, sin_minus. ring.
  - rewrite H. unfold heading. rewrite !dot_mix_r, up_north, up_east, (dot_comm (east o) (north o)), north_unit, east_unit, north_east, cos_minus. ring.
  - rewrite dot_comm. apply sin_angle.
Qed.
Lemma cross_ok : forall o e c u m, is_unit u m -> cross_track_distance o e c u = Ok (RADIUS * Rabs (asin (dot (up c) (normal o (bearing o e)))) / m).
Proof.
  intros o e c u m U. unfold cross_track_distance. rewrite (distance_ok o c "m" 1 metres). unfold bind at 1. cbv zeta. change EARTH with RADIUS.
  pose proof RADIUS_pos. replace (RADIUS * angle o c / 1 / RADIUS) with (angle o c) by (field; lra). rewrite !radians_deg.
  destruct (cross_sine o e c) as [-> _]. destruct (nearest o (bearing o e) c) as [G _].
  rewrite rasin_ok by exact G. unfold bind. destruct (unit_of _ _ U) as [M [-> _]]. f_equal. rewrite Rabs_mult, (Rabs_pos_eq RADIUS) by lra. field. lra.
Qed.
Lemma circle_normal : forall o b x, on_circle o b x <-> dot (up x) (normal o b) = 0.
Proof.
  intros o b x. destruct (normal_facts o b) as [NN [UN TN]]. split.
  - intros [t ->]. unfold travel. rewrite dot_mix, UN, TN. ring.
  - intro Z. pose proof (frame_at o b (up x)) as F. rewrite Z, up_unit in F.
    destruct (atan2_spec (dot (up x) (heading o b)) (dot (up x) (up o))) as [_ [A B]].
    replace (dot (up x) (up o) ^ 2 + dot (up x) (heading o b) ^ 2) with 1 in A, B by lra. rewrite sqrt_1, !Rmult_1_l in A, B.
    set (t := atan2 (dot (up x) (heading o b)) (dot (up x) (up o))) in *. exists t.
    rewrite (frame o (up x)). unfold travel. rewrite A, B, (dot_comm (up o) (up x)).
    assert (E : mix (dot (up x) (up o)) (up o) (dot (up x) (heading o b)) (heading o b) = mix (dot (up x) (up o)) (up o) 1 (mix (dot (up x) (heading o b) * cos (deg b)) (north o) (dot (up x) (heading o b) * sin (deg b)) (east o))).
    { unfold heading at 2. generalize (dot (up x) (heading o b)). destruct (up o) as [[? ?] ?], (north o) as [[? ?] ?], (east o) as [[? ?] ?]. intro. unfold mix. veq. }
    rewrite E. f_equal. revert Z. unfold heading, normal. rewrite !dot_mix_r, (dot_comm (north o)), (dot_comm (east o)).
    set (n := dot (up x) (north o)). set (e := dot (up x) (east o)). intro Z. pose proof (cs1 (deg b)) as C.
    set (c := cos (deg b)) in *. set (s := sin (deg b)) in *.
    assert ((c * n + s * e) * c = n). { replace ((c * n + s * e) * c) with ((c ^ 2 + s ^ 2) * n + s * (- s * n + c * e)) by ring. rewrite Z, C. ring. }
    assert ((c * n + s * e) * s = e). { replace ((c * n + s * e) * s) with ((c ^ 2 + s ^ 2) * e - c * (- s * n + c * e)) by ring. rewrite Z, C. ring. }
    rewrite H, H0. reflexivity.
Qed.
Lemma volume_normal : forall o e x, volume (up o) (up e) (up x) = - (sin (angle o e) * dot (up x) (normal o (bearing o e))).
Proof.
  intros o e x. destruct (bearing_ok o e) as [_ E]. rewrite E at 1. generalize (bearing o e), (angle o e), (up x). clear. intros b t [[x y] z].
  destruct o as [lat lon]. unfold travel, heading, normal, up, north, east, mix, dot, volume.
  pose proof (cs1 (deg lat)) as A. pose proof (cs1 (deg lon)) as B.
  set (ca := cos (deg lat)) in *. set (sa := sin (deg lat)) in *. set (co := cos (deg lon)) in *. set (so := sin (deg lon)) in *.
  set (cb := cos (deg b)). set (sb := sin (deg b)). set (ct := cos t). set (st := sin t).
  assert (A' : ca ^ 2 = 1 - sa ^ 2) by lra. assert (B' : co ^ 2 = 1 - so ^ 2) by lra. ring_simplify.
  repeat match goal with |- context [ca ^ 2] => rewrite A' | |- context [co ^ 2] => rewrite B' end. ring.
Qed.
Lemma line_circle : forall o e x, ~ same_place o e -> ~ opposite o e -> in_line o e x <-> on_circle o (bearing o e) x.
Proof.
  intros o e x S O. rewrite circle_normal. unfold in_line. rewrite volume_normal.
  assert (0 < sin (angle o e)).
  { pose proof (angle_bound o e) as B. apply sin_gt_0.
    - destruct (Req_dec (angle o e) 0) as [E|E]; [|lra]. exfalso. apply S. apply angle_zero. exact E.
    - destruct (Req_dec (angle o e) PI) as [E|E]; [|lra]. exfalso. apply O. apply angle_PI. exact E. }
  split; intro H0; [nra|rewrite H0; ring].
Qed.
(** The code's nearest point. *)
Lemma cos_asin' : forall g, -1 <= g <= 1 -> cos (asin g) = sqrt (1 - g ^ 2).
Proof. intros g G. rewrite cos_asin by exact G. unfold Rsqr. f_equal. ring. Qed.
Lemma track_point : forall o e c, between_poles o -> let b := bearing o e in let g := dot (up c) (normal o b) in -1 < g < 1 ->
  exists x, cross_track_point o e c = Ok x /\ on_circle o b x /\ (ahead o b c -> angle c x = Rabs (asin g)) /\ (~ ahead o b c -> Rabs (asin g) < angle c x).
Proof.
  intros o e c P b g G. destruct (cross_sine o e c) as [S [T C]]. fold b in S, T. fold g in S.
  pose proof RADIUS_pos as RP. pose proof (frame_at o b (up c)) as F. rewrite up_unit in F. fold g in F.
  set (cp := dot (up c) (up o)) in *. set (ct := dot (up c) (heading o b)) in *.
  assert (S2 : sqrt (1 - g ^ 2) ^ 2 = 1 - g ^ 2) by (apply sqrt_pow2'; nra).
  assert (S0 : 0 < sqrt (1 - g ^ 2)) by (apply sqrt_lt_R0; nra). set (s := sqrt (1 - g ^ 2)) in *.
  assert (Q : -1 <= cp / s <= 1).
  { assert (- s <= cp <= s) by (apply square_bound; [nra|lra]). split.
    - apply Rmult_le_reg_r with s; [lra|]. unfold Rdiv. rewrite Rmult_assoc, Rinv_l by lra. lra.
    - apply Rmult_le_reg_r with s; [lra|]. unfold Rdiv. rewrite Rmult_assoc, Rinv_l by lra. lra. }
  destruct (travel_ok o (degrees (radians b)) (acos (cp / s) * RADIUS) "m" 1 metres) as [x [X1 [X2 [X3 _]]]]. specialize (X3 P).
  assert (DR : degrees (radians b) = b) by (unfold degrees, radians; field; apply PI_neq0).
  replace (acos (cp / s) * RADIUS * 1 / RADIUS) with (acos (cp / s)) in X3 by (field; lra). rewrite DR in X3.
  exists x. split; [|split; [exists (acos (cp / s)); exact X3|]].
  { unfold cross_track_point. rewrite (distance_ok o c "m" 1 metres). unfold bind at 1. cbv zeta. change EARTH with RADIUS.
    replace (RADIUS * angle o c / 1 / RADIUS) with (angle o c) by (field; lra). rewrite (radians_deg (bearing o c)), (radians_deg (bearing o e)). fold b. rewrite S.
    rewrite rasin_ok by lra. unfold bind at 1. rewrite cos_asin' by lra. fold s. rewrite C, rdiv_ok by lra. unfold bind at 1. rewrite racos_ok by exact Q.
    unfold bind. rewrite <- (radians_deg b). exact X1. }
  set (a := acos (cp / s)) in *. assert (CA : cos a = cp / s) by (apply cos_acos; exact Q).
  assert (SA : 0 <= sin a) by (apply sin_ge_0; apply acos_bound).
  assert (K : s * cos a = cp) by (rewrite CA; field; lra). pose proof (cs1 a) as CS.
  assert (SS : (s * sin a) ^ 2 = ct ^ 2) by nra.
  assert (SP : 0 <= s * sin a) by nra. split.
  - intro A. red in A. fold ct in A. destruct (nearest o b c) as [_ [_ N]]. apply (N x a X3); [exact K|].
    change (s * sin a = ct). replace ((s * sin a) ^ 2) with ((s * sin a) * (s * sin a)) in SS by ring. apply Rsqr_inj; [lra|lra|]. unfold Rsqr. lra.
  - intro A. assert (A' : ct < 0). { destruct (Rlt_dec ct 0) as [H|H]; [exact H|]. exfalso. apply A. red. fold ct. lra. }
    assert (E : s * sin a = - ct). { apply Rsqr_inj; [lra|lra|]. unfold Rsqr. nra. }
    rewrite asin_abs by lra. fold s. unfold angle. rewrite X3, dot_travel. fold cp. fold ct. rewrite <- K. replace ct with (- (s * sin a)) by lra.
    set (y := cos a * (s * cos a) + sin a * - (s * sin a)).
    assert (s <= 1) by nra. assert (Y : y < s). { unfold y. assert (0 < sin a) by nra. nra. }
    assert (Y' : - s <= y). { unfold y. nra. }
    destruct (Rle_dec (acos y) (acos s)) as [L|L]; [|lra]. exfalso.
    assert (H0 : cos (acos s) <= cos (acos y)) by (apply cos_decr_1; pose proof (acos_bound y); pose proof (acos_bound s); lra).
    rewrite !cos_acos in H0 by lra. lra.
Qed.

(** ** Conversions *)
Lemma ecef_of : forall lat lon h, lla2ecef (lat, lon, h) = mix (RADIUS + h) (up (lat, lon)) 0 (up (lat, lon)).
Proof. intros. unfold lla2ecef, up, mix. change EARTH with RADIUS. rewrite !radians_deg. veq. Qed.
Lemma ecef_length : forall lat lon h, - RADIUS <= h -> length3 (lla2ecef (lat, lon, h)) = RADIUS + h.
Proof.
  intros. rewrite ecef_of. unfold length3. repeat (rewrite dot_mix || rewrite dot_mix_r). rewrite up_unit. apply sqrt_unique'; [lra|ring].
Qed.
Lemma ecef_chord : forall p q hp hq, let v := lla2ecef (fst p, snd p, hp) in let w := lla2ecef (fst q, snd q, hq) in
  length3 (mix 1 v (-1) w) ^ 2 = (RADIUS + hp) ^ 2 + (RADIUS + hq) ^ 2 - 2 * (RADIUS + hp) * (RADIUS + hq) * cos (angle p q).
Proof.
  intros [a b] [c d] hp hq v w. subst v w. simpl fst. simpl snd. rewrite !ecef_of. destruct (sin_angle (a, b) (c, d)) as [_ ->].
  unfold length3. rewrite sqrt_pow2'.
  - repeat (rewrite dot_mix || rewrite dot_mix_r). rewrite !up_unit, (dot_comm (up (c, d)) (up (a, b))). ring.
  - generalize (mix 1 (mix (RADIUS + hp) (up (a, b)) 0 (up (a, b))) (-1) (mix (RADIUS + hq) (up (c, d)) 0 (up (c, d)))). intros [[x y] z]. unfold dot. nra.
Qed.
Lemma degrees_deg : forall x, degrees (deg x) = x.
Proof. intros x. unfold deg, degrees. field. apply PI_neq0. Qed.
Lemma box_dec : forall x y, (Rltb (Rabs x) 1 && Rltb (Rabs y) 1 = true)%bool <-> Rabs x < 1 /\ Rabs y < 1.
Proof.
  intros x y. unfold Rltb. destruct (Rlt_dec (Rabs x) 1), (Rlt_dec (Rabs y) 1); simpl; split; intro H; try discriminate; tauto.
Qed.
Lemma lat_range : forall lat, -90 <= lat <= 90 -> - (PI / 2) <= deg lat <= PI / 2.
Proof. intros lat H. pose proof PI_pos. unfold deg. split; nra. Qed.
Lemma lon_range : forall lon, -180 < lon <= 180 -> - PI < deg lon <= PI.
Proof. intros lon H. pose proof PI_pos. unfold deg. split; nra. Qed.
Lemma round_trip : forall lat lon h, -90 <= lat <= 90 -> -180 < lon <= 180 -> - RADIUS < h ->
  exists lon' h', ecef2lla (lla2ecef (lat, lon, h)) = (lat, lon', h') /\ (-90 < lat < 90 -> lon' = lon) /\
    (-90 < lat < 90 -> ~ near_axis (lla2ecef (lat, lon, h)) -> h' = h) /\ (near_axis (lla2ecef (lat, lon, h)) -> h - 2 / (RADIUS + h) <= h' <= h).
Proof.
  intros lat lon h LA LO H. pose proof PI_pos as PP. pose proof (lat_range lat LA) as LA'. pose proof (lon_range lon LO) as LO'.
  assert (C0 : 0 <= cos (deg lat)) by (apply cos_ge_0; lra).
  unfold lla2ecef, ecef2lla. change EARTH with RADIUS. rewrite !radians_deg. set (rho := RADIUS + h). assert (RH : 0 < rho) by (unfold rho; lra).
  set (ca := cos (deg lat)) in *. set (x := rho * cos (deg lon) * ca). set (y := rho * ca * sin (deg lon)). set (z := rho * sin (deg lat)).
  assert (P2 : x ^ 2 + y ^ 2 = (rho * ca) ^ 2).
  { unfold x, y. pose proof (cs1 (deg lon)) as B. replace ((rho * cos (deg lon) * ca) ^ 2 + (rho * ca * sin (deg lon)) ^ 2) with ((rho * ca) ^ 2 * (cos (deg lon) ^ 2 + sin (deg lon) ^ 2)) by ring. rewrite B. ring. }
  assert (P1 : sqrt (x ^ 2 + y ^ 2) = rho * ca) by (apply sqrt_unique'; [nra|symmetry; exact P2]). rewrite P1.
  assert (A : atan2 z (rho * ca) = deg lat) by (apply atan2_polar; lra). rewrite A, degrees_deg. fold ca.
  exists (degrees (atan2 y x)). eexists. split; [reflexivity|]. split; [|split].
  - intro B. assert (0 < ca). { unfold ca. apply cos_gt_0; unfold deg; nra. }
    replace x with (rho * ca * cos (deg lon)) by (unfold x; ring). unfold y. rewrite atan2_polar; [apply degrees_deg|nra|lra].
  - intros B NB. unfold near_axis in NB. rewrite <- box_dec in NB. apply Bool.not_true_is_false in NB. rewrite NB.
    assert (0 < ca). { unfold ca. apply cos_gt_0; unfold deg; nra. } unfold rho. field. lra.
  - intro B. unfold near_axis in B. pose proof B as B'. rewrite <- box_dec in B. rewrite B.
    assert (PB : (rho * ca) ^ 2 <= 2).
    { rewrite <- P2. destruct B' as [B1 B2]. rewrite <- (pow2_abs x), <- (pow2_abs y). pose proof (Rabs_pos x). pose proof (Rabs_pos y). nra. }
    pose proof (cs1 (deg lat)) as CS. fold ca in CS. set (sa := sin (deg lat)) in *.
    assert (ZA : Rabs z = rho * Rabs sa) by (unfold z; rewrite Rabs_mult, (Rabs_pos_eq rho) by lra; reflexivity). rewrite ZA.
    rewrite <- (pow2_abs sa) in CS. pose proof (Rabs_pos sa) as AP. set (m := Rabs sa) in *.
    assert (M1 : m <= 1) by nra. assert (RE : rho = RADIUS + h) by reflexivity. clearbody rho. split; [|nra].
    assert (K : rho * (1 - m) <= 2 / rho).
    { apply Rmult_le_reg_r with rho; [exact RH|]. replace (2 / rho * rho) with 2 by (field; lra).
      assert ((1 - m) * (1 + m) = ca ^ 2) by lra. assert (1 - m <= ca ^ 2) by nra.
      assert (rho * (1 - m) * rho <= rho * ca ^ 2 * rho); [|nra].
      apply Rmult_le_compat_r; [lra|]. apply Rmult_le_compat_l; lra. }
    lra.
Qed.
Lemma trip_round : forall v, ~ near_axis v -> lla2ecef (ecef2lla v) = v.
Proof.
  intros [[x y] z] B. unfold ecef2lla, lla2ecef. unfold near_axis in B. pose proof B as B'. rewrite <- box_dec in B. apply Bool.not_true_is_false in B. rewrite B.
  change EARTH with RADIUS. rewrite !radians_deg, !deg_degrees.
  set (p := sqrt (x ^ 2 + y ^ 2)).
  assert (XY : 0 < x ^ 2 + y ^ 2).
  { destruct (Rlt_dec 0 (x ^ 2 + y ^ 2)) as [K|K]; [exact K|]. exfalso. apply B'. pose proof (pow2_ge_0 x). pose proof (pow2_ge_0 y).
    assert (x ^ 2 = 0) by lra. assert (y ^ 2 = 0) by lra. assert (x = 0) by nra. assert (y = 0) by nra. subst x y. rewrite Rabs_R0. lra. }
  assert (P : 0 < p) by (apply sqrt_lt_R0; exact XY).
  destruct (atan2_spec y x) as [_ [A1 A2]]. destruct (atan2_spec z p) as [_ [B1 B2]]. fold p in A1, A2.
  set (lon := atan2 y x) in *. set (lat := atan2 z p) in *. set (r := sqrt (p ^ 2 + z ^ 2)) in *.
  assert (C : cos lat <> 0) by (intro E; rewrite E in B1; lra).
  replace (RADIUS + (p / cos lat - RADIUS)) with r by (rewrite <- B1; field; exact C).
  apply f_equal2; [apply f_equal2|exact B2].
  - replace (r * cos lon * cos lat) with (r * cos lat * cos lon) by ring. rewrite B1. exact A1.
  - rewrite B1. exact A2.
Qed.

Lemma and_geo_ok : forall p q a b n, (2 <= n)%nat -> ~ same_place p q -> ~ opposite p q -> first3 (up p) + first3 (up q) <> 0 ->
  exists l pts, geo_linspace p q n = Ok pts /\ ecef_and_geo_linspace p q a b n = Ok (map lla2ecef l, l) /\ List.length l = S n /\
    forall i, (i <= n)%nat -> exists x, nth_error pts i = Some x /\ nth_error l i = Some (fst x, snd x, a + (b - a) * INR i / INR n).
Proof.
  intros p q a b n N S O X. destruct (with_ecef_ok p q n N S O X) as [t [w [l [e [E [L [_ [_ [_ [_ [_ [_ F]]]]]]]]]]]].
  unfold geo_linspace, ecef_and_geo_linspace. rewrite E. unfold bind. simpl fst.
  exists (map (fun e => (fst (fst e), snd (fst e), snd e)) (List.combine l (alts a b n))), l.
  assert (LA : List.length (alts a b n) = Datatypes.S n) by (unfold alts; rewrite map_length, seq_length; reflexivity).
  split; [reflexivity|]. split; [reflexivity|]. split; [rewrite map_length, combine_length, L, LA; lia|].
  intros i I. destruct (F i I) as [x [X1 _]]. exists x. split; [exact X1|].
  rewrite nth_error_map. assert (NC : forall {A B} (l1 : list A) (l2 : list B) i x y, nth_error l1 i = Some x -> nth_error l2 i = Some y -> nth_error (List.combine l1 l2) i = Some (x, y)).
  { clear. induction l1 as [|h l1 IH]; intros [|h2 l2] [|i] x y H H0; simpl in *; try discriminate; [congruence|]. apply IH; assumption. }
  rewrite (NC _ _ _ _ _ x (a + (b - a) * INR i / INR n) X1); [reflexivity|]. unfold alts. rewrite nth_seq_map by exact I. reflexivity.
Qed.
Lemma ecef_linspace_err : forall p q a b n, exists e, ecef_linspace p q a b n = Err e.
Proof.
  intros p q a b n. unfold ecef_linspace, geo_linspace, geo_linspace_with_ecef, ecef_points.
  destruct (n <? 2)%nat eqn:E; [eexists; reflexivity|]. apply Nat.ltb_ge in E.
  destruct (path_angle (ll2cart p) (ll2cart q)) as [[t w]|e]; [|eexists; reflexivity]. unfold bind. simpl fst.
  destruct n as [|[|n]]; try lia. rewrite map_map. simpl. eexists; reflexivity.
Qed.

Lemma linspace_even : forall p q n, (2 <= n)%nat -> ~ same_place p q -> ~ opposite p q -> first3 (up p) + first3 (up q) <> 0 ->
  exists l s, geo_linspace p q n = Ok l /\ evenly p q n s l.
Proof.
  intros p q n N S O X. destruct (with_ecef_ok p q n N S O X) as [t [w [l [e [E [L [_ [T [W [O' [V2 [D F]]]]]]]]]]]].
  unfold geo_linspace. rewrite E. unfold bind. simpl fst. exists l, (Rabs t / INR n). split; [reflexivity|].
  assert (NP : 0 < INR n) by (apply lt_0_INR; lia).
  assert (F' : forall i x, nth_error l i = Some x -> (i <= n)%nat /\ up x = mix (cos (t / INR n * INR i)) (up p) (sin (t / INR n * INR i)) w).
  { intros i x H. assert (I : (i <= n)%nat). { assert (i < List.length l)%nat by (apply nth_error_Some; rewrite H; discriminate). lia. }
    split; [exact I|]. destruct (F i I) as [y [Y [_ U]]]. rewrite H in Y. injection Y as ->. exact U. }
  assert (M0 : forall v, mix 1 (up p) 0 v = up p) by (intro v; destruct (up p) as [[? ?] ?], v as [[? ?] ?]; unfold mix; veq).
  split; [exact L|]. split; [|split; [|split]].
  - intros x H. apply F' in H. destruct H as [_ H]. red. rewrite H. simpl INR. rewrite Rmult_0_r, cos_0, sin_0. apply M0.
  - intros x H. apply F' in H. destruct H as [_ H]. rewrite H. replace (t / INR n * INR n) with t by (field; lra).
    destruct D as [D|D]; [|exact D]. rewrite D, <- V2. apply near_refl.
  - intros i x H. apply F' in H. destruct H as [_ H]. red. rewrite V2, H. generalize (t / INR n * INR i), (angle p q), (up p). intros a b [[? ?] ?].
    destruct w as [[? ?] ?]. unfold mix, volume. ring.
  - intros i j x y HX HY. apply F' in HX, HY. destruct HX as [I HX], HY as [J HY]. unfold angle. rewrite HX, HY.
    rewrite mix_dot by (assumption || apply up_unit). replace (t / INR n * INR i - t / INR n * INR j) with (t * ((INR i - INR j) / INR n)) by (field; lra).
    assert (AB : Rabs (t * ((INR i - INR j) / INR n)) = Rabs t / INR n * Rabs (INR i - INR j)).
    { unfold Rdiv. rewrite !Rabs_mult, (Rabs_pos_eq (/ INR n)) by (left; apply Rinv_0_lt_compat; exact NP). ring. }
    rewrite <- AB.
    assert (B : Rabs (t * ((INR i - INR j) / INR n)) <= PI).
    { rewrite AB. assert (T' : Rabs t <= PI) by (apply Rabs_le; lra). pose proof (Rabs_pos t).
      assert (K : Rabs (INR i - INR j) <= INR n). { apply le_INR in I, J. pose proof (pos_INR i). pose proof (pos_INR j). apply Rabs_le. lra. }
      apply Rle_trans with (Rabs t / INR n * INR n).
      - apply Rmult_le_compat_l; [|exact K]. apply Rmult_le_pos; [lra|]. left. apply Rinv_0_lt_compat. exact NP.
      - replace (Rabs t / INR n * INR n) with (Rabs t) by (field; lra). exact T'. }
    set (z := t * ((INR i - INR j) / INR n)) in *. destruct (Rle_dec 0 z) as [Z|Z].
    + rewrite Rabs_pos_eq in * by exact Z. apply acos_cos. lra.
    + rewrite Rabs_left in * by lra. rewrite <- cos_neg. apply acos_cos. lra.
Qed.
Lemma nearest_exists : forall o b c, exists x, on_circle o b x /\ angle c x = Rabs (asin (dot (up c) (normal o b))).
Proof.
  intros o b c. destruct (nearest o b c) as [G [_ N]]. pose proof (frame_at o b (up c)) as F. rewrite up_unit in F.
  destruct (atan2_spec (dot (up c) (heading o b)) (dot (up c) (up o))) as [_ [A B]].
  set (t := atan2 (dot (up c) (heading o b)) (dot (up c) (up o))) in *.
  replace (dot (up c) (up o) ^ 2 + dot (up c) (heading o b) ^ 2) with (1 - dot (up c) (normal o b) ^ 2) in A, B by lra.
  destruct (place_of (travel o b t) (travel_unit o b t)) as [x X]. exists x. split; [exists t; exact X|]. apply (N x t X A B).
Qed.
