(** The two models of the earth compared. *)
From Coq Require Import Reals List Bool String Lra Psatz Lia.
From Verif Require Import GeoModel GeoSpec GeoProofs WgsModel WgsSpec WgsProofs WgsProps VinProofs.
Import ListNotations.
Open Scope R_scope.

(** ** Small facts *)
Lemma sin_abs_le : forall x, Rabs (sin x) <= Rabs x.
Proof. intro x. pose proof (sin_lip x 0) as H. rewrite sin_0, !Rminus_0_r in H. exact H. Qed.
Lemma half_cos : forall x, sin (x / 2) ^ 2 = (1 - cos x) / 2.
Proof. intro x. rewrite <- half_sin. do 2 f_equal. lra. Qed.
Lemma abs_acos : forall x, - PI <= x <= PI -> acos (cos x) = Rabs x.
Proof. intros x H. unfold Rabs. destruct (Rcase_abs x); [rewrite <- cos_neg|]; apply acos_cos; lra. Qed.
Lemma norm_le : forall a b a' b' k e, 0 <= a -> 0 <= b -> 0 <= a' -> 0 <= b' -> 0 <= k -> 0 <= e -> a' <= k * a -> b' <= k * b + e ->
  sqrt (a' ^ 2 + b' ^ 2) <= k * sqrt (a ^ 2 + b ^ 2) + e.
Proof.
  intros a b a' b' k e A B A' B' K E H1 H2. set (n := sqrt (a ^ 2 + b ^ 2)). assert (N : n ^ 2 = a ^ 2 + b ^ 2) by (apply sqrt_pow2', sum_squares).
  assert (N0 : 0 <= n) by apply sqrt_pos. assert (BN : b <= n) by (destruct (Rle_dec b n); [assumption|]; exfalso; nra).
  apply Rsqr_incr_0_var; [|nra]. rewrite Rsqr_sqrt by apply sum_squares. unfold Rsqr.
  assert (a' ^ 2 <= k ^ 2 * a ^ 2) by nra. assert (b' ^ 2 <= (k * b + e) ^ 2) by nra.
  assert (k ^ 2 * n ^ 2 = k ^ 2 * a ^ 2 + k ^ 2 * b ^ 2) by (rewrite N; ring). assert (k * e * b <= k * e * n) by (apply Rmult_le_compat_l; [nra|exact BN]). nra.
Qed.
Lemma sq_le : forall x y, 0 <= y -> x ^ 2 <= y ^ 2 -> x <= y.
Proof. intros x y Y H. destruct (Rle_dec x y); [assumption|]. exfalso. nra. Qed.

(** ** Reduced latitudes *)
Lemma param_cos_range : forall p, between_poles p -> cos (deg (fst p)) <= cos (parametric p) <= 1.003366 * cos (deg (fst p)).
Proof.
  intros p P. pose proof (cos_lat p P) as C. pose proof (param_pos p) as CU. pose proof (param_sin p) as SU. pose proof FLAT_bound as F. pose proof (cs1 (parametric p)) as E1. pose proof (cs1 (deg (fst p))) as E2.
  set (cu := cos (parametric p)) in *. set (c := cos (deg (fst p))) in *. set (s := sin (deg (fst p))) in *.
  assert (T : tan (deg (fst p)) = s / c) by reflexivity. rewrite T in SU.
  assert (X : cu ^ 2 * (c ^ 2 + (1 - FLAT) ^ 2 * s ^ 2) = c ^ 2).
  { rewrite SU in E1. transitivity (c ^ 2 * (cu ^ 2 + ((1 - FLAT) * (s / c) * cu) ^ 2)); [field; lra|rewrite E1; ring]. }
  assert (S2 : s ^ 2 = 1 - c ^ 2) by lra. rewrite S2 in X. assert (C1 : c ^ 2 <= 1) by (pose proof (pow2_ge_0 s); lra).
  set (g := (1 - FLAT) ^ 2) in *. assert (G : 0.9933 <= g <= 1) by (unfold g; nra). assert (G2 : 1 <= 1.003366 ^ 2 * g) by (unfold g; nra).
  set (w := c ^ 2 + g * (1 - c ^ 2)) in *. assert (W : g <= w <= 1) by (unfold w; nra).
  assert (0 < cu ^ 2) by nra. split; apply sq_le; try lra.
  - nra.
  - replace ((1.003366 * c) ^ 2) with (1.003366 ^ 2 * c ^ 2) by ring. rewrite <- X. nra.
Qed.
Lemma param_close : forall p, between_poles p -> Rabs (deg (fst p) - parametric p) <= 0.0034.
Proof.
  intros p P. pose proof (param_near p P) as N. pose proof (lat_open _ P) as A. pose proof PI_pos.
  assert (B : - (PI / 2) < parametric p < PI / 2) by (unfold parametric; pose proof (atan_bound ((1 - FLAT) * tan (deg (fst p)))); lra).
  rewrite <- abs_acos by lra. unfold angle in N. replace (dot (up p) (up (on_sphere p))) with (cos (deg (fst p) - parametric p)) in N; [exact N|].
  unfold on_sphere, up, dot. destruct p as [la lo]. cbn [fst snd]. rewrite deg_to, cos_minus. pose proof (cs1 (deg lo)) as E.
  transitivity (cos (deg la) * cos (parametric (la, lo)) * (cos (deg lo) ^ 2 + sin (deg lo) ^ 2) + sin (deg la) * sin (parametric (la, lo))); [rewrite E; ring|ring].
Qed.
Lemma param_sin_diff : forall p q, between_poles p -> between_poles q ->
  0.9966 * Rabs (sin (deg (fst p) - deg (fst q))) <= Rabs (sin (parametric p - parametric q)) <= 1.0034 * Rabs (sin (deg (fst p) - deg (fst q))).
Proof.
  intros p q P Q. pose proof (cos_lat p P) as C1. pose proof (cos_lat q Q) as C2. pose proof (param_sin p) as S1. pose proof (param_sin q) as S2. pose proof FLAT_bound as F.
  pose proof (param_cos_range p P) as R1. pose proof (param_cos_range q Q) as R2.
  assert (T1 : tan (deg (fst p)) = sin (deg (fst p)) / cos (deg (fst p))) by reflexivity. assert (T2 : tan (deg (fst q)) = sin (deg (fst q)) / cos (deg (fst q))) by reflexivity.
  rewrite !sin_minus, S1, S2. set (t1 := tan (deg (fst p))) in *. set (t2 := tan (deg (fst q))) in *.
  assert (E1 : sin (deg (fst p)) = t1 * cos (deg (fst p))) by (rewrite T1; field; lra). assert (E2 : sin (deg (fst q)) = t2 * cos (deg (fst q))) by (rewrite T2; field; lra).
  rewrite E1, E2. set (c1 := cos (deg (fst p))) in *. set (c2 := cos (deg (fst q))) in *. set (u1 := cos (parametric p)) in *. set (u2 := cos (parametric q)) in *.
  replace ((1 - FLAT) * t1 * u1 * u2 - u1 * ((1 - FLAT) * t2 * u2)) with ((1 - FLAT) * (u1 * u2) * (t1 - t2)) by ring.
  replace (t1 * c1 * c2 - c1 * (t2 * c2)) with (c1 * c2 * (t1 - t2)) by ring.
  assert (U0 : 0 < u1) by lra. assert (V0 : 0 < u2) by lra. assert (CC : 0 < c1 * c2) by nra.
  assert (LO : c1 * c2 <= u1 * u2) by (apply Rmult_le_compat; lra).
  assert (HI : u1 * u2 <= 1.003366 ^ 2 * (c1 * c2)). { replace (1.003366 ^ 2 * (c1 * c2)) with ((1.003366 * c1) * (1.003366 * c2)) by ring. apply Rmult_le_compat; lra. }
  rewrite !Rabs_mult, (Rabs_right (1 - FLAT)), (Rabs_right u1), (Rabs_right u2), (Rabs_right c1), (Rabs_right c2) by lra.
  pose proof (Rabs_pos (t1 - t2)) as X. set (x := Rabs (t1 - t2)) in *. set (cc := c1 * c2) in *. set (uu := u1 * u2) in *.
  assert (L1 : 0.9966 * cc <= (1 - FLAT) * uu). { assert (0.9966 * cc <= 0.9966 * uu) by lra. assert (0.9966 * uu <= (1 - FLAT) * uu) by (apply Rmult_le_compat_r; lra). lra. }
  assert (L2 : (1 - FLAT) * uu <= 1.0034 * cc). { assert ((1 - FLAT) * uu <= 0.9966472 * uu) by (apply Rmult_le_compat_r; lra). lra. }
  split; [rewrite <- Rmult_assoc|rewrite <- (Rmult_assoc 1.0034)]; apply Rmult_le_compat_r; assumption.
Qed.
Lemma half_lat : forall p q, between_poles p -> between_poles q -> 0 <= cos (deg (fst p) - deg (fst q)) ->
  let a := Rabs (sin ((deg (fst p) - deg (fst q)) / 2)) in let a' := Rabs (sin ((parametric p - parametric q) / 2)) in
  a' <= 1.0069 * a /\ a <= 1.0069 * a'.
Proof.
  intros p q P Q H a a'. pose proof (param_sin_diff p q P Q) as S. pose proof (param_close p P) as C1. pose proof (param_close q Q) as C2.
  set (x := deg (fst p) - deg (fst q)) in *. set (x' := parametric p - parametric q) in *.
  assert (XX : Rabs (x' - x) <= 0.0068). { apply Rabs_le_inv in C1. apply Rabs_le_inv in C2. unfold x, x'. apply Rabs_le. lra. }
  assert (CX : 0 <= cos x) by exact H.
  pose proof (cos_lip x' x) as CL. assert (CD : -0.0068 <= cos x' - cos x <= 0.0068) by (assert (CL2 := Rabs_le_inv _ _ CL); lra). clear CL.
  pose proof (cs1 x) as E. pose proof (cs1 x') as E'. pose proof (COS_bound x) as B. pose proof (COS_bound x') as B'.
  assert (A2 : a ^ 2 = (1 - cos x) / 2) by (unfold a; rewrite pow2_abs; apply half_cos). assert (A2' : a' ^ 2 = (1 - cos x') / 2) by (unfold a'; rewrite pow2_abs; apply half_cos).
  assert (S2 : Rabs (sin x) ^ 2 = (1 - cos x) * (1 + cos x)) by (rewrite pow2_abs; nra). assert (S2' : Rabs (sin x') ^ 2 = (1 - cos x') * (1 + cos x')) by (rewrite pow2_abs; nra).
  pose proof (Rabs_pos (sin x)) as P0. pose proof (Rabs_pos (sin x')) as P0'. set (s := Rabs (sin x)) in *. set (s' := Rabs (sin x')) in *.
  assert (U : s' ^ 2 <= 1.0034 ^ 2 * s ^ 2). { replace (1.0034 ^ 2 * s ^ 2) with ((1.0034 * s) ^ 2) by ring. apply pow_incr. lra. }
  assert (V : 0.9966 ^ 2 * s ^ 2 <= s' ^ 2). { replace (0.9966 ^ 2 * s ^ 2) with ((0.9966 * s) ^ 2) by ring. apply pow_incr. lra. }
  assert (a0 : 0 <= a) by apply Rabs_pos. assert (a0' : 0 <= a') by apply Rabs_pos. rewrite S2, S2' in *.
  set (c := cos x) in *. set (c' := cos x') in *.
  split; apply sq_le; try lra.
  - replace ((1.0069 * a) ^ 2) with (1.0069 ^ 2 * a ^ 2) by ring. rewrite A2, A2'. apply (Rmult_le_reg_r (1 + c')); [lra|].
    assert (1 + c <= 1.00685 * (1 + c')) by lra. assert ((1 - c) * (1 + c) <= (1 - c) * (1.00685 * (1 + c'))) by (apply Rmult_le_compat_l; lra).
    assert (0 <= (1 - c) * (1 + c')) by (apply Rmult_le_pos; lra). nra.
  - replace ((1.0069 * a') ^ 2) with (1.0069 ^ 2 * a' ^ 2) by ring. rewrite A2, A2'. apply (Rmult_le_reg_r (1 + c)); [lra|].
    assert (1 + c' <= 1.0068 * (1 + c)) by lra. assert ((1 - c') * (1 + c') <= (1 - c') * (1.0068 * (1 + c))) by (apply Rmult_le_compat_l; lra).
    assert (0 <= (1 - c') * (1 + c)) by (apply Rmult_le_pos; lra). nra.
Qed.
Lemma dot_up : forall p q, dot (up p) (up q) = cos (deg (fst p)) * cos (deg (fst q)) * cos (deg (snd q) - deg (snd p)) + sin (deg (fst p)) * sin (deg (fst q)).
Proof. intros [a l] [b m]. cbn [fst snd]. unfold up, dot. rewrite cos_minus. ring. Qed.
(** ** Where the iteration stops *)
Section Stop.
Variables p q : place.
Hypothesis Hp : between_poles p.
Hypothesis Hq : between_poles q.
Let L := deg (snd q - snd p).
Let x := sin (parametric p).
Let y := sin (parametric q).
Let a := cos (parametric p).
Let b := cos (parametric q).
Lemma stop : forall u m tol n d, is_unit u m -> p <> q -> w_distance p q u tol n = Ok d -> exists lam sa s1, let sg := acos (vC x y a b lam) in
  0 < sin sg /\ -1 <= sa <= 1 /\ d * m = round6 (arc_length sa s1 sg) /\ Rabs (L + vg x y a b lam - lam) < tol.
Proof.
  intros u m tol n d U NE H. unfold w_distance, w_distance_and_bearing in H.
  destruct (Rzero (fst p - fst q) && Rzero (snd p - snd q))%bool eqn:E; [apply same_point in E; contradiction|]. rewrite !param_code in H.
  destruct (inverse_loop _ _ _ _ _ _ _ _) as [r|] eqn:EL in H; [|discriminate]. cbv beta iota delta [bind] in H.
  destruct (inverse_loop_last _ _ _ _ _ _ _ EL) as (lam & ER & T). destruct (unit_of u m U) as (M0 & MU & _). rewrite MU in H. cbn [fst] in H. injection H as Hd.
  destruct (sin_sg_cases p q lam) as [Z|Z]; [rewrite (round_err p q _ lam Z) in ER; discriminate|].
  destruct (round_ok p q (radians (snd q - snd p)) lam Z) as (mm & HM & ER'). rewrite ER in ER'. injection ER' as ER'.
  set (sg := angle (on_sphere p) (sphere_q q (snd p + to_degrees lam))) in *. set (bb := GeoModel.bearing (on_sphere p) (sphere_q q (snd p + to_degrees lam))) in *.
  rewrite (round_metres p q lam mm r HM) in Hd by (rewrite ER'; reflexivity). fold bb sg in Hd.
  assert (EA : acos (vC x y a b lam) = sg) by (unfold x, y, a, b; rewrite vC_dot; reflexivity).
  exists lam, (clairaut p bb), (s1_of p bb). rewrite EA. split; [exact Z|]. split; [apply clairaut_bound|]. split; [rewrite <- Hd; unfold s1_of; field; lra|].
  pose proof (vC_range x y a b (xa p) (yb q) lam) as VR.
  assert (CB : -1 < vC x y a b lam < 1).
  { assert (SS : sin (acos (vC x y a b lam)) > 0) by (rewrite EA; exact Z). destruct VR as [[V1|V1] [V2|V2]]; try lra; exfalso.
    - rewrite V2, acos_1, sin_0 in SS. lra.
    - rewrite <- V1 in SS. replace (-1) with (Ropp 1) in SS by ring. rewrite acos_opp, acos_1, Rminus_0_r, sin_PI in SS. lra. }
  destruct (code_round x y a b (xa p) (yb q) (radians (snd q - snd p)) lam (proj1 CB) (proj2 CB)) as (r' & ER2 & N). unfold x, y, a, b in ER2. rewrite ER in ER2. injection ER2 as <-.
  rewrite N, radians_deg in T. exact T.
Qed.
Lemma hav_sphere : forall t, sin (acos (vC x y a b t) / 2) ^ 2 = Rabs (sin ((parametric p - parametric q) / 2)) ^ 2 + (sqrt (a * b) * Rabs (sin (t / 2))) ^ 2.
Proof.
  intro t. pose proof (a_pos p) as A0. pose proof (b_pos q) as B0. assert (AB : 0 <= a * b) by (unfold a, b; nra).
  rewrite half_cos, cos_acos by apply (vC_range x y a b (xa p) (yb q)). rewrite pow2_abs, half_cos.
  replace ((sqrt (a * b) * Rabs (sin (t / 2))) ^ 2) with (sqrt (a * b) ^ 2 * Rabs (sin (t / 2)) ^ 2) by ring. rewrite pow2_abs, half_cos, sqrt_pow2' by exact AB.
  rewrite cos_minus. unfold vC, x, y, a, b. field.
Qed.
Lemma hav_places : sin (angle p q / 2) ^ 2 = Rabs (sin ((deg (fst p) - deg (fst q)) / 2)) ^ 2 + (sqrt (cos (deg (fst p)) * cos (deg (fst q))) * Rabs (sin (L / 2))) ^ 2.
Proof.
  pose proof (cos_lat p Hp) as A0. pose proof (cos_lat q Hq) as B0. assert (AB : 0 <= cos (deg (fst p)) * cos (deg (fst q))) by nra.
  rewrite half_cos. unfold angle. rewrite cos_acos by apply dot_bound. rewrite pow2_abs, half_cos.
  replace ((sqrt (cos (deg (fst p)) * cos (deg (fst q))) * Rabs (sin (L / 2))) ^ 2) with (sqrt (cos (deg (fst p)) * cos (deg (fst q))) ^ 2 * Rabs (sin (L / 2)) ^ 2) by ring.
  rewrite pow2_abs, half_cos, sqrt_pow2' by exact AB. unfold L. replace (deg (snd q - snd p)) with (deg (snd q) - deg (snd p)) by (unfold deg; field). rewrite dot_up, !cos_minus. field.
Qed.
End Stop.
(** ** Angles from half sines *)
Lemma sin_low4 : forall w, 0 <= w <= 2 -> w * (1 - w ^ 2 / 6 + w ^ 4 / 120 - w ^ 6 / 5040) <= sin w.
Proof.
  intros w H. pose proof PI_bounds as P. destruct (SIN w) as [S _]; [lra|lra|]. unfold sin_lb, sin_approx, sin_term in S. simpl in S.
  eapply Rle_trans; [|exact S]. apply Req_le. field.
Qed.
Lemma steep_16 : forall s, 0 < s <= 1.6 -> s <= 1.602 * sin s.
Proof.
  intros s H. pose proof (sin_low4 s ltac:(lra)) as S. set (y := s ^ 2). assert (Y : 0 <= y <= 2.56) by (unfold y; nra).
  replace (s ^ 4) with (y ^ 2) in S by (unfold y; ring). replace (s ^ 6) with (y ^ 3) in S by (unfold y; ring). fold y in S.
  assert (Q : 0.6245 <= 1 - y / 6 + y ^ 2 / 120 - y ^ 3 / 5040).
  { assert (Y2 : 0 <= y ^ 2) by nra. assert (Y3 : y ^ 3 <= 2.56 * y ^ 2) by nra. nra. }
  assert (s * 0.6245 <= s * (1 - y / 6 + y ^ 2 / 120 - y ^ 3 / 5040)) by (apply Rmult_le_compat_l; lra). lra.
Qed.
Lemma half_to_angle : forall s t e, 0 <= s <= 1.6 -> 0 <= t <= PI / 2 -> 0 <= e -> Rabs (sin (s / 2) - sin (t / 2)) <= 0.0088 * sin (t / 2) + e -> Rabs (s - t) <= 0.0176 -> Rabs (s - t) <= 0.0129 * t + 3 * e.
Proof.
  intros s t e S T E H N. pose proof PI_bounds as P. assert (X : sin (s / 2) - sin (t / 2) = 2 * cos ((s + t) / 4) * sin ((s - t) / 4)).
  { replace (s / 2) with ((s + t) / 4 + (s - t) / 4) by field. replace (t / 2) with ((s + t) / 4 - (s - t) / 4) by field. rewrite sin_plus, sin_minus. ring. }
  assert (C : 0.685 <= cos ((s + t) / 4)).
  { set (w := (s + t) / 4). assert (W : 0 <= w <= 0.7929) by (unfold w; lra). replace w with (2 * (w / 2)) by field. rewrite cos_2a_sin. pose proof (sin_abs_le (w / 2)) as A.
    rewrite (Rabs_right (w / 2)) in A by lra. assert (B : Rabs (sin (w / 2)) ^ 2 <= (w / 2) ^ 2) by (apply pow_incr; split; [apply Rabs_pos|exact A]). rewrite pow2_abs in B.
    assert (sin (w / 2) ^ 2 = sin (w / 2) * sin (w / 2)) by ring. nra. }
  rewrite X in H. clear X. set (w := (s - t) / 4) in *.
  assert (SW : 0.9999 * Rabs w <= Rabs (sin w)).
  { assert (K : forall v, 0 <= v <= 0.0044 -> 0.9999 * v <= sin v). { intros v V. pose proof (sin_low v ltac:(lra)) as SL. assert (v ^ 2 <= 0.0001) by nra. assert (v * 0.9999 <= v * (1 - v ^ 2 / 6)) by (apply Rmult_le_compat_l; lra). lra. }
    assert (WB : -0.0044 <= w <= 0.0044) by (unfold w; apply Rabs_le_inv in N; lra).
    destruct (Rle_dec 0 w) as [W|W].
    - specialize (K w ltac:(lra)). rewrite (Rabs_right w) by lra. rewrite Rabs_right by lra. exact K.
    - specialize (K (- w) ltac:(lra)). rewrite sin_neg in K. rewrite (Rabs_left w) by lra. rewrite Rabs_left by lra. lra. }
  rewrite !Rabs_mult, (Rabs_right 2), (Rabs_right (cos ((s + t) / 4))) in H by lra.
  assert (TT : sin (t / 2) <= t / 2). { pose proof (sin_abs_le (t / 2)) as A. rewrite (Rabs_right (t / 2)) in A by lra. pose proof (Rle_abs (sin (t / 2))). lra. }
  assert (WW : Rabs (s - t) = 4 * Rabs w). { unfold w. replace (s - t) with (4 * ((s - t) / 4)) at 1 by field. rewrite Rabs_mult, (Rabs_right 4) by lra. reflexivity. }
  rewrite WW. pose proof (Rabs_pos w) as W0. pose proof (Rabs_pos (sin w)) as W1.
  assert (2 * 0.685 * Rabs (sin w) <= 2 * cos ((s + t) / 4) * Rabs (sin w)) by (apply Rmult_le_compat_r; lra). lra.
Qed.
(** ** The correction is small beside the longitude *)
Lemma g_small : forall x y a b t, 0 < a -> 0 < b -> x ^ 2 + a ^ 2 = 1 -> y ^ 2 + b ^ 2 = 1 -> -1 < vC x y a b t -> vC x y a b t < 1 -> acos (vC x y a b t) <= 1.6 ->
  Rabs (vg x y a b t) <= 0.010749 * Rabs (sin (t / 2)).
Proof.
  intros x y a b t A B XA YB Hlo Hhi S.
  pose proof (S_pos x y a b t Hlo Hhi) as S0. pose proof (p_nonneg x y a b XA YB t Hlo Hhi) as P. pose proof (p_one x y a b t) as P1.
  pose proof (k_range x y a b XA YB t Hlo Hhi) as K. pose proof (E_range x y a b XA YB t Hlo Hhi) as E. pose proof (S_sigma x y a b XA YB t) as SS. pose proof fb as F.
  pose proof (steep_16 (acos (vC x y a b t)) ltac:(lra)) as St. rewrite <- sigma_S in St by assumption. apply Rabs_le_inv in E.
  set (e := vE x y a b t) in *. set (k := vk x y a b t) in *. set (pp := vp x y a b t) in *. set (ss := vS x y a b t) in *. set (sg := acos (vC x y a b t)) in *.
  assert (X : vg x y a b t = WGS84_F * (1 - k * pp) * (a * b * sin t * (sg / ss + e))).
  { unfold vg, vh, vq. fold e k pp ss sg. field. lra. }
  assert (Z : 0 <= sg / ss <= 1.602). { split; [apply Rmult_le_pos; [lra|left; apply Rinv_0_lt_compat; exact S0]|]. apply (Rmult_le_reg_r ss); [exact S0|]. unfold Rdiv. rewrite Rmult_assoc, Rinv_l by lra. lra. }
  assert (KP : 0 <= 1 - k * pp <= 1) by bp k 0.00085 pp 1. assert (U : 0 <= WGS84_F * (1 - k * pp) <= 0.0033529) by bp WGS84_F 0.0033529 (1 - k * pp) 1.
  assert (A1 : a <= 1) by nra. assert (B1 : b <= 1) by nra. assert (AB : 0 <= a * b <= 1) by bp a 1 b 1.
  rewrite X, !Rabs_mult, <- Rabs_mult. rewrite (Rabs_right (WGS84_F * (1 - k * pp))) by lra. rewrite (Rabs_right a), (Rabs_right b) by lra.
  assert (ZE : Rabs (sg / ss + e) <= 1.60286) by (apply Rabs_le; lra).
  assert (ST : Rabs (sin t) <= 2 * Rabs (sin (t / 2))).
  { replace t with (2 * (t / 2)) at 1 by field. rewrite sin_2a, !Rabs_mult, (Rabs_right 2) by lra. pose proof (COS_bound (t / 2)). assert (Rabs (cos (t / 2)) <= 1) by (apply Rabs_le; lra). pose proof (Rabs_pos (sin (t / 2))). nra. }
  pose proof (Rabs_pos (sin t)) as T0. pose proof (Rabs_pos (sg / ss + e)) as V0. set (v := Rabs (sg / ss + e)) in *. set (w := Rabs (sin t)) in *.
  assert (M1 : 0 <= a * b * w <= 1 * w) by (apply box0; lra). assert (M2 : 0 <= a * b * w * v <= 1 * w * 1.60286) by (apply box0; lra).
  assert (M3 : 0 <= WGS84_F * (1 - k * pp) * (a * b * w * v) <= 0.0033529 * (1 * w * 1.60286)) by (apply box0; lra). lra.
Qed.
Lemma VD_fine : forall k s1 sg, 0 <= k <= 0.00675 -> 0 <= sg -> Rabs (VD k s1 sg) <= 0.0018 * sg.
Proof.
  intros k s1 sg K S. pose proof (VB_bound k K) as VBb. unfold VD. set (B := VB k) in *.
  assert (H : forall c n u, 0 <= c -> 0 <= n -> Rabs (c * sin (n * sg) * cos u) <= c * (n * sg)).
  { intros c n u C N. rewrite !Rabs_mult, (Rabs_right c) by lra. pose proof (sin_abs_le (n * sg)) as A. assert (N0 : 0 <= n * sg) by (apply Rmult_le_pos; assumption).
    rewrite (Rabs_right (n * sg)) in A by lra. pose proof (COS_bound u). assert (Cu : Rabs (cos u) <= 1) by (apply Rabs_le; lra). pose proof (Rabs_pos (sin (n * sg))). pose proof (Rabs_pos (cos u)).
    assert (Rabs (sin (n * sg)) * Rabs (cos u) <= (n * sg) * 1) by (apply Rmult_le_compat; lra). rewrite Rmult_assoc. apply Rmult_le_compat_l; lra. }
  assert (B2 : 0 <= B ^ 2 <= 0.0017 ^ 2) by nra. assert (B3 : 0 <= B ^ 3 <= 0.0017 ^ 3) by (split; [apply pow_le; lra|apply pow_incr; lra]).
  pose proof (H B 1 (2 * s1 + sg) ltac:(lra) ltac:(lra)) as H1. rewrite !Rmult_1_l in H1.
  pose proof (H (B ^ 2 / 8) 2 (4 * s1 + 2 * sg) ltac:(lra) ltac:(lra)) as H2. pose proof (H (B ^ 3 / 24) 3 (6 * s1 + 3 * sg) ltac:(lra) ltac:(lra)) as H3.
  eapply Rle_trans; [apply Rabs_triang|]. eapply Rle_trans; [apply Rplus_le_compat_r, Rabs_triang|].
  assert (B * sg <= 0.0017 * sg) by (apply Rmult_le_compat_r; lra). assert (B ^ 2 / 8 * (2 * sg) <= 0.0017 ^ 2 / 8 * (2 * sg)) by (apply Rmult_le_compat_r; lra).
  assert (B ^ 3 / 24 * (3 * sg) <= 0.0017 ^ 3 / 24 * (3 * sg)) by (apply Rmult_le_compat_r; lra). lra.
Qed.
Lemma arc_range : forall sa s1 sg, -1 <= sa <= 1 -> 0 <= sg -> 6345300 * sg <= arc_length sa s1 sg <= 6381000 * sg.
Proof.
  intros sa s1 sg SA S. unfold arc_length. pose proof (ksq_bound sa SA) as K. pose proof (VA_bound _ K) as V. pose proof (VD_fine (ksq sa) s1 sg K S) as D. apply Rabs_le_inv in D.
  assert (M : 6356752 <= MINOR <= 6356753) by (unfold MINOR, MAJOR, FLAT; lra). set (v := VA (ksq sa)) in *. set (w := sg - VD (ksq sa) s1 sg). assert (W : 0.9982 * sg <= w <= 1.0018 * sg) by (unfold w; lra).
  assert (MV : 6356752 <= MINOR * v <= 6356753 * 1.002) by nra. assert (W0 : 0 <= w) by lra.
  split.
  - apply (Rle_trans _ (6356752 * (0.9982 * sg))); [lra|]. apply Rmult_le_compat; lra.
  - apply (Rle_trans _ (6356753 * 1.002 * (1.0018 * sg))); [|lra]. apply Rmult_le_compat; lra.
Qed.
(** ** The comparison *)
Section Compare.
Variables p q : place.
Hypothesis Hp : between_poles p.
Hypothesis Hq : between_poles q.
Let L := deg (snd q - snd p).
Let x := sin (parametric p).
Let y := sin (parametric q).
Let a := cos (parametric p).
Let b := cos (parametric q).
Lemma near_angle : forall t, Rabs (acos (vC x y a b t) - angle p q) <= 0.0068 + Rabs (t - L).
Proof.
  intro t. unfold x, y, a, b. rewrite vC_dot. fold (angle (on_sphere p) (to_degrees (parametric q), snd p + to_degrees t)). set (r := (to_degrees (parametric q), snd p + to_degrees t)).
  pose proof (param_near p Hp) as N1. pose proof (param_near q Hq) as N2.
  pose proof (turn_near (to_degrees (parametric q)) (snd q) (t - L)) as T4.
  replace (snd q + to_degrees (t - L)) with (snd p + to_degrees t) in T4.
  2:{ replace (to_degrees t) with (to_degrees ((t - L) + L)) by (f_equal; ring). rewrite to_plus. unfold L. rewrite to_deg. ring. }
  fold r in T4. change (to_degrees (parametric q), snd q) with (on_sphere q) in T4.
  pose proof (angle_triangle (on_sphere p) (on_sphere q) r) as A1. pose proof (angle_triangle (on_sphere p) p (on_sphere q)) as A2. pose proof (angle_triangle p q (on_sphere q)) as A3.
  pose proof (angle_triangle p (on_sphere p) q) as B1. pose proof (angle_triangle (on_sphere p) r q) as B2. pose proof (angle_triangle r (on_sphere q) q) as B3.
  rewrite (angle_sym (on_sphere p) p) in A2. rewrite (angle_sym r (on_sphere q)) in B3. rewrite (angle_sym (on_sphere q) q) in B3. apply Rabs_le. lra.
Qed.
Lemma close_angle : forall t tol, 0 <= tol <= 1 / 10000 -> -1 < vC x y a b t -> vC x y a b t < 1 -> Rabs (L + vg x y a b t - t) < tol ->
  Rabs (acos (vC x y a b t) - angle p q) <= 0.0129 * angle p q + 3 * tol.
Proof.
  intros t tol TL Hlo Hhi ST. pose proof PI_bounds as PB. pose proof (angle_bound p q) as AB. pose proof (near_angle t) as NA.
  destruct (g_sign x y a b (a_pos p) (b_pos q) (xa p) (yb q) t Hlo Hhi) as [_ G].
  assert (TL2 : Rabs (t - L) <= 0.0106 + tol). { apply Rabs_le_inv in G. apply Rabs_def2 in ST. apply Rabs_le. lra. }
  destruct (Rle_dec (angle p q) (PI / 2)) as [TH|TH]; [|lra].
  set (sg := acos (vC x y a b t)) in *. set (th := angle p q) in *.
  assert (SG : 0 <= sg <= 1.6). { pose proof (acos_bound (vC x y a b t)) as Bd. fold sg in Bd. apply Rabs_le_inv in NA. lra. }
  apply half_to_angle; [exact SG|lra|lra| |lra].
  pose proof (g_small x y a b t (a_pos p) (b_pos q) (xa p) (yb q) Hlo Hhi (proj2 SG)) as GS.
  set (s := Rabs (sin (t / 2))) in *. set (s' := Rabs (sin (L / 2))).
  assert (s0 : 0 <= s) by apply Rabs_pos. assert (s0' : 0 <= s') by apply Rabs_pos. assert (s1' : s' <= 1) by (unfold s'; pose proof (SIN_bound (L / 2)); apply Rabs_le; lra). assert (s1 : s <= 1) by (unfold s; pose proof (SIN_bound (t / 2)); apply Rabs_le; lra).
  assert (DS : Rabs (s - s') <= 0.0053745 * s + tol / 2).
  { unfold s, s'. eapply Rle_trans; [apply Rabs_triang_inv2|]. eapply Rle_trans; [apply sin_lip|]. fold s.
    replace (t / 2 - L / 2) with ((t - L) * / 2) by field. rewrite Rabs_mult, (Rabs_right (/ 2)) by lra.
    assert (Rabs (t - L) <= 0.010749 * s + tol); [|lra]. apply Rabs_le_inv in GS. apply Rabs_def2 in ST. apply Rabs_le. lra. }
  apply Rabs_le_inv in DS.
  assert (CL : 0 <= cos (deg (fst p) - deg (fst q))).
  { assert (CT : 0 <= cos th) by (apply cos_ge_0; lra). unfold th, angle in CT. rewrite cos_acos, dot_up in CT by apply dot_bound. rewrite cos_minus.
    pose proof (cos_lat p Hp). pose proof (cos_lat q Hq). pose proof (COS_bound (deg (snd q) - deg (snd p))). assert (0 <= cos (deg (fst p)) * cos (deg (fst q))) by nra. nra. }
  destruct (half_lat p q Hp Hq CL) as [H1 H2].
  pose proof (hav_sphere p q t) as HS. fold x y a b in HS. fold sg s in HS. pose proof (hav_places p q Hp Hq) as HP. fold L th s' in HP.
  set (da := Rabs (sin ((deg (fst p) - deg (fst q)) / 2))) in *. set (da' := Rabs (sin ((parametric p - parametric q) / 2))) in *.
  assert (D0 : 0 <= da) by apply Rabs_pos. assert (D0' : 0 <= da') by apply Rabs_pos.
  set (c := sqrt (cos (deg (fst p)) * cos (deg (fst q)))) in *. set (c' := sqrt (a * b)) in *.
  assert (C0 : 0 <= c) by apply sqrt_pos. assert (C0' : 0 <= c') by apply sqrt_pos.
  pose proof (cos_lat p Hp) as CP. pose proof (cos_lat q Hq) as CQ. pose proof (param_cos_range p Hp) as R1. pose proof (param_cos_range q Hq) as R2. fold a in R1. fold b in R2.
  assert (C1 : c <= 1). { unfold c. rewrite <- sqrt_1. apply sqrt_le_1_alt. pose proof (COS_bound (deg (fst p))). pose proof (COS_bound (deg (fst q))). nra. }
  assert (CC : c <= c' <= 1.003366 * c).
  { split; [apply sqrt_le_1_alt, Rmult_le_compat; lra|]. apply sq_le; [lra|]. unfold c'. rewrite sqrt_pow2' by nra. replace ((1.003366 * c) ^ 2) with (1.003366 ^ 2 * c ^ 2) by ring. unfold c. rewrite sqrt_pow2' by nra.
    replace (1.003366 ^ 2 * (cos (deg (fst p)) * cos (deg (fst q)))) with ((1.003366 * cos (deg (fst p))) * (1.003366 * cos (deg (fst q)))) by ring. apply Rmult_le_compat; lra. }
  assert (C1' : c' <= 1.01) by lra.
  assert (SS : sin (sg / 2) = sqrt (da' ^ 2 + (c' * s) ^ 2)). { rewrite <- HS. symmetry. apply sqrt_pow2. apply sin_ge_0; lra. }
  assert (SP : sin (th / 2) = sqrt (da ^ 2 + (c * s') ^ 2)). { rewrite <- HP. symmetry. apply sqrt_pow2. apply sin_ge_0; lra. }
  assert (U : sin (sg / 2) <= 1.0088 * sin (th / 2) + tol).
  { rewrite SS, SP. apply norm_le; try lra; try (apply Rmult_le_pos; assumption).
    assert (s <= 1.005404 * (s' + tol / 2)) by lra. assert (M : c' * s <= (1.003366 * c) * (1.005404 * (s' + tol / 2))) by (apply Rmult_le_compat; lra).
    assert (c * s' >= 0) by (assert (0 <= c * s') by (apply Rmult_le_pos; assumption); lra). assert (0 <= c * tol <= 1 * (tol)) by (apply box0; lra). nra. }
  assert (V : sin (th / 2) <= 1.0069 * sin (sg / 2) + tol).
  { rewrite SS, SP. apply norm_le; try lra; try (apply Rmult_le_pos; assumption).
    assert (s' <= 1.0053745 * s + tol / 2) by lra. assert (M : c * s' <= c' * (1.0053745 * s + tol / 2)) by (apply Rmult_le_compat; lra).
    assert (0 <= c' * s) by (apply Rmult_le_pos; assumption). assert (0 <= c' * tol <= 1.01 * tol) by (apply box0; lra). nra. }
  assert (0 <= sin (th / 2)) by (apply sin_ge_0; lra). apply Rabs_le. lra.
Qed.
Lemma compare : forall u m n d, is_unit u m -> p <> q -> w_distance p q u TOL n = Ok d -> Rabs (d * m - RADIUS * angle p q) <= 0.02 * (RADIUS * angle p q) + 1 / 10000.
Proof.
  intros u m n d U NE H. destruct (stop p q u m TOL n d U NE H) as (lam & sa & s1 & S0 & SA & DM & ST). fold x y a b in S0, DM, ST. fold L in ST.
  pose proof (vC_range x y a b (xa p) (yb q) lam) as VR. pose proof TOL_val as TV.
  assert (CB : -1 < vC x y a b lam < 1).
  { destruct VR as [[V1|V1] [V2|V2]]; try lra; exfalso.
    - rewrite V2, acos_1, sin_0 in S0. lra.
    - rewrite <- V1 in S0. replace (-1) with (Ropp 1) in S0 by ring. rewrite acos_opp, acos_1, Rminus_0_r, sin_PI in S0. lra. }
  pose proof (close_angle lam TOL ltac:(rewrite TV; lra) (proj1 CB) (proj2 CB) ST) as C. set (sg := acos (vC x y a b lam)) in *.
  assert (SG : 0 <= sg) by apply acos_bound. pose proof (arc_range sa s1 sg SA SG) as A. pose proof (round6_close (arc_length sa s1 sg)) as R6. rewrite <- DM in R6.
  pose proof (angle_bound p q) as AB. unfold RADIUS. rewrite TV in C. apply Rabs_le_inv in C. apply Rabs_le_inv in R6. apply Rabs_le. lra.
Qed.
End Compare.
