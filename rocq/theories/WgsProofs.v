(** Proofs for the ellipsoidal earth. *)
From Coq Require Import Reals List Bool String Lra Psatz Lia.
From Verif Require Import GeoModel GeoSpec GeoProofs WgsModel WgsSpec.
Import ListNotations.
Open Scope R_scope.

(** ** Closed form *)
Section Heikkinen.
Variables a e2 r z : R.
Hypothesis Ha : 0 < a.
Hypothesis He : 0 < e2 < 1.
Hypothesis Hr : 0 < r.
Let b2 := a ^ 2 * (1 - e2).
Let F := 54 * b2 * z ^ 2.
Let G := r ^ 2 + (1 - e2) * z ^ 2 - e2 * (a ^ 2 - b2).
Hypothesis HG : 0 < G.
Let c := e2 * e2 * F * r ^ 2 / (G * G * G).
Lemma h_F : 0 <= F.
Proof. unfold F, b2. pose proof (pow2_ge_0 z). pose proof (pow_lt a 2 Ha). assert (0 <= a ^ 2 * (1 - e2)) by nra. nra. Qed.
Lemma h_G3 : 0 < G * G * G.
Proof. assert (0 < G * G) by nra. nra. Qed.
Lemma h_c : 0 <= c.
Proof.
  unfold c. pose proof h_F. pose proof h_G3. pose proof (pow_lt r 2 Hr). unfold Rdiv. apply Rmult_le_pos.
  - assert (0 <= e2 * e2) by nra. assert (0 <= e2 * e2 * F) by nra. nra.
  - left. apply Rinv_0_lt_compat. assumption.
Qed.
Let w := sqrt (c * c + 2 * c).
Let s := Rpower (1 + c + w) (1 / 3).
Lemma h_w : 0 <= w /\ w * w = c * c + 2 * c.
Proof. pose proof h_c. unfold w. split; [apply sqrt_pos|apply sqrt_sqrt; nra]. Qed.
Lemma h_s : 0 < s /\ s * s * s = 1 + c + w.
Proof.
  pose proof h_c. destruct h_w as [W _]. unfold s. split; [apply exp_pos|].
  rewrite <- !Rpower_plus. replace (1 / 3 + 1 / 3 + 1 / 3) with 1 by lra. apply Rpower_1. lra.
Qed.
Let t := s + 1 / s + 1.
Lemma h_t : 3 <= t /\ t ^ 2 * (t - 3) = 2 * c.
Proof.
  destruct h_s as [S0 S3]. destruct h_w as [W W2]. pose proof h_c as C.
  assert (E : s * (1 / s) = 1) by (field; lra).
  unfold t. set (v := 1 / s) in *. assert (V : 0 < v) by nra.
  assert (X : 2 <= s + v). { pose proof (pow2_ge_0 (s - v)). assert (4 <= (s + v) * (s + v)) by nra. nra. }
  split; [lra|].
  assert (V3 : v * v * v * (1 + c + w) = 1).
  { rewrite <- S3. replace (v * v * v * (s * s * s)) with ((s * v) * (s * v) * (s * v)) by ring. rewrite E. ring. }
  assert (V4 : v * v * v = 1 + c - w).
  { apply (Rmult_eq_reg_r (1 + c + w)); [|lra]. rewrite V3. ring_simplify. nra. }
  replace ((s + v + 1) ^ 2 * (s + v + 1 - 3)) with (s * s * s + v * v * v + 3 * (s * v) * (s + v) - 3 * (s + v) - 2) by ring.
  rewrite E, S3, V4. ring.
Qed.
Let P := F / (3 * t ^ 2 * G * G).
Lemma h_den : 0 < 3 * t ^ 2 * G * G.
Proof. destruct h_t as [T _]. assert (0 < t ^ 2) by nra. assert (0 < 3 * t ^ 2 * G) by nra. nra. Qed.
Lemma h_P : 0 <= P /\ 27 * P * (G + 2 * e2 * e2 * P * r ^ 2) ^ 2 = F.
Proof.
  pose proof h_den as D. pose proof h_F as HF. destruct h_t as [T Tc].
  split. { unfold P, Rdiv. apply Rmult_le_pos; [assumption|]. left. apply Rinv_0_lt_compat. assumption. }
  assert (X : G + 2 * e2 * e2 * P * r ^ 2 = G * t / 3).
  { assert (2 * e2 * e2 * P * r ^ 2 = G * (2 * c) / (3 * t ^ 2)).
    { unfold P, c. field. lra. }
    rewrite H, <- Tc. field. lra. }
  rewrite X. unfold P. field. lra.
Qed.
Let Q := sqrt (1 + 2 * e2 * e2 * P).
Lemma h_Q : 1 <= Q /\ Q ^ 2 = 1 + 2 * e2 * e2 * P.
Proof.
  destruct h_P as [P0 _]. assert (0 <= 2 * e2 * e2 * P) by (assert (0 <= e2 * e2) by nra; nra).
  assert (Q2 : Q ^ 2 = 1 + 2 * e2 * e2 * P) by (unfold Q; apply sqrt_pow2'; lra).
  split; [|assumption]. assert (0 <= Q) by (unfold Q; apply sqrt_pos). nra.
Qed.
Let S := a * a / 2 * (1 + 1 / Q) - (1 - e2) * P * z ^ 2 / (Q * (1 + Q)) - P * r ^ 2 / 2.
Let ro := - (e2 * P * r) / (1 + Q) + sqrt S.
Lemma h_ro : 0 <= S /\ 0 < ro /\ e2 * ro < r /\ (a ^ 2 - ro ^ 2) * (r - e2 * ro) ^ 2 = (1 - e2) * ro ^ 2 * z ^ 2.
Proof.
  destruct h_P as [P0 P1]. destruct h_Q as [Q1 Q2].
  assert (Pe : P = (Q ^ 2 - 1) / (2 * e2 * e2)) by (rewrite Q2; field; lra).
  set (p := (Q - 1) * r / e2). assert (p0 : 0 <= p).
  { unfold p, Rdiv. apply Rmult_le_pos; [nra|]. left. apply Rinv_0_lt_compat. lra. }
  set (sg := (G + (Q ^ 2 - 1) * r ^ 2) / (e2 * e2)).
  assert (e0 : 0 < / (e2 * e2)) by (apply Rinv_0_lt_compat; nra).
  assert (sg0 : 0 < sg). { unfold sg, Rdiv. apply Rmult_lt_0_compat; [|assumption]. pose proof (pow_lt r 2 Hr). assert (0 <= Q ^ 2 - 1) by nra. nra. }
  set (q := ((Q - 1) * sg - 2 * a ^ 2) / (2 * Q)).
  set (q' := ((Q + 1) * sg + 2 * a ^ 2) / (2 * Q)).
  assert (a0 : 0 < a ^ 2) by nra.
  assert (q0 : 0 < q'). { unfold q', Rdiv. apply Rmult_lt_0_compat; [nra|]. apply Rinv_0_lt_compat. lra. }
  assert (qq : q * q' = - (a ^ 2 * r ^ 2) / (e2 * e2)).
  { assert (K : (Q ^ 2 - 1) * sg ^ 2 - 4 * a ^ 2 * sg - 4 * a ^ 2 * a ^ 2 + 4 * Q ^ 2 * (a ^ 2 * r ^ 2) / (e2 * e2) = 0).
    { unfold sg. rewrite Q2.
      replace (1 + 2 * e2 * e2 * P - 1) with (2 * e2 * e2 * P) by ring.
      assert (Y : 2 * e2 * e2 * P * ((G + 2 * e2 * e2 * P * r ^ 2) / (e2 * e2)) ^ 2 = 4 * b2 * z ^ 2 / (e2 * e2)).
      { transitivity (2 / 27 * (27 * P * (G + 2 * e2 * e2 * P * r ^ 2) ^ 2) / (e2 * e2)); [field; lra|].
        rewrite P1. unfold F. field. lra. }
      rewrite Y. unfold G, b2. field. lra. }
    unfold q, q'. apply (Rmult_eq_reg_r (4 * Q ^ 2)); [|nra].
    transitivity ((Q ^ 2 - 1) * sg ^ 2 - 4 * a ^ 2 * sg - 4 * a ^ 2 * a ^ 2); [field; lra|].
    transitivity (- (4 * Q ^ 2 * (a ^ 2 * r ^ 2) / (e2 * e2))); [lra|field; lra]. }
  assert (rr : 0 < r ^ 2) by nra.
  assert (qn : q < 0).
  { assert (0 < a ^ 2 * r ^ 2 / (e2 * e2)). { unfold Rdiv. apply Rmult_lt_0_compat; [nra|assumption]. }
    assert (q * q' < 0). { rewrite qq. unfold Rdiv in *. lra. }
    destruct (Rlt_dec q 0) as [?|N]; [assumption|]. exfalso. apply Rnot_lt_le in N. nra. }
  assert (Sq : S = (p / 2) ^ 2 - q).
  { unfold S, q, p, sg. rewrite Pe. unfold G, b2. field. lra. }
  assert (S0 : 0 < S) by (rewrite Sq; nra).
  assert (Rp : - (e2 * P * r) / (1 + Q) = - (p / 2)). { unfold p. rewrite Pe. field. lra. }
  assert (sq : sqrt S * sqrt S = S) by (apply sqrt_sqrt; lra).
  assert (s0 : 0 < sqrt S) by (apply sqrt_lt_R0; assumption).
  assert (quad : ro ^ 2 + p * ro + q = 0).
  { unfold ro. rewrite Rp. replace ((- (p / 2) + sqrt S) ^ 2 + p * (- (p / 2) + sqrt S) + q) with (sqrt S * sqrt S - ((p / 2) ^ 2 - q)) by field.
    rewrite sq, Sq. ring. }
  assert (ro0 : 0 < ro).
  { unfold ro. rewrite Rp. assert (p / 2 < sqrt S); [|lra]. apply Rsqr_incrst_0; [unfold Rsqr; rewrite sq, Sq; nra|lra|lra]. }
  assert (big : 0 < (r / e2) ^ 2 + p * (r / e2) + q).
  { apply (Rmult_lt_reg_r (q' * (e2 * e2))); [assert (0 < e2 * e2) by nra; nra|]. rewrite Rmult_0_l.
    replace (((r / e2) ^ 2 + p * (r / e2) + q) * (q' * (e2 * e2))) with ((r ^ 2 + p * r * e2) * q' + q * q' * (e2 * e2)) by (field; lra).
    rewrite qq. unfold p. replace ((r ^ 2 + (Q - 1) * r / e2 * r * e2) * q' + - (a ^ 2 * r ^ 2) / (e2 * e2) * (e2 * e2)) with (r ^ 2 * (Q * q' - a ^ 2)) by (field; lra).
    apply Rmult_lt_0_compat; [assumption|]. unfold q'. replace (Q * (((Q + 1) * sg + 2 * a ^ 2) / (2 * Q)) - a ^ 2) with ((Q + 1) * sg / 2) by (field; lra). nra. }
  assert (small : ro < r / e2).
  { destruct (Rlt_dec ro (r / e2)) as [?|N]; [assumption|]. exfalso. apply Rnot_lt_le in N.
    assert (0 < r / e2) by (unfold Rdiv; apply Rmult_lt_0_compat; [lra|apply Rinv_0_lt_compat; lra]). nra. }
  split; [lra|]. split; [assumption|]. split.
  { apply (Rmult_lt_compat_l e2) in small; [|lra]. replace (e2 * (r / e2)) with r in small by (field; lra). assumption. }
  assert (fact : (ro ^ 2 + p * ro + q) * (ro ^ 2 - (Q + 1) * r / e2 * ro + q') * (e2 * e2) = (1 - e2) * ro ^ 2 * z ^ 2 - (a ^ 2 - ro ^ 2) * (r - e2 * ro) ^ 2).
  { replace ((ro ^ 2 + p * ro + q) * (ro ^ 2 - (Q + 1) * r / e2 * ro + q') * (e2 * e2)) with
      (e2 * e2 * ro ^ 4 + e2 * e2 * (p - (Q + 1) * r / e2) * ro ^ 3 + (e2 * e2) * (q + q' - p * (Q + 1) * r / e2) * ro ^ 2 + (e2 * e2) * (p * q' - (Q + 1) * r / e2 * q) * ro + q * q' * (e2 * e2)) by (field; lra).
    rewrite qq.
    replace (e2 * e2 * (q + q' - p * (Q + 1) * r / e2)) with G.
    2:{ unfold q, q', p, sg. field. lra. }
    replace (p * q' - (Q + 1) * r / e2 * q) with (2 * r * a ^ 2 / e2).
    2:{ unfold q, q', p. field. lra. }
    replace (p - (Q + 1) * r / e2) with (- 2 * r / e2). 2:{ unfold p. field. lra. }
    unfold G, b2. field. lra. }
  rewrite quad in fact. lra.
Qed.
End Heikkinen.

(** ** Constants *)
Lemma F_flat : WGS84_F = FLAT.
Proof. unfold WGS84_F, FLAT. lra. Qed.
Lemma F_bound : 0.0033528 < WGS84_F < 0.0033529.
Proof. rewrite F_flat. unfold FLAT. lra. Qed.
Lemma A_major : WGS84_A = MAJOR. Proof. reflexivity. Qed.
Lemma B_minor : WGS84_B = MINOR.
Proof. unfold WGS84_B, MINOR. rewrite F_flat, A_major. ring. Qed.
Lemma e2_flat : 1 - we_2 = (1 - WGS84_F) ^ 2.
Proof. unfold we_2. ring. Qed.
Lemma e2_bound : 0.00669 < we_2 < 0.0067.
Proof. unfold we_2. pose proof F_bound. nra. Qed.
Lemma B2_e2 : WGS84_B ^ 2 = WGS84_A ^ 2 * (1 - we_2).
Proof. rewrite e2_flat. unfold WGS84_B. ring. Qed.
Lemma ep_2 : wep_2 = we_2 / (1 - we_2).
Proof. unfold wep_2. rewrite e2_flat. reflexivity. Qed.
Lemma A_pos : 0 < WGS84_A. Proof. unfold WGS84_A. lra. Qed.
Lemma B_pos : 0 < WGS84_B.
Proof. unfold WGS84_B. pose proof A_pos. pose proof F_bound. nra. Qed.

(** ** Conversions *)
Definition NN (t : R) : R := WGS84_A / sqrt (1 - we_2 * sin t ^ 2).
Lemma root_pos : forall t, 0 < 1 - we_2 * sin t ^ 2.
Proof. intro t. pose proof (cs1 t). pose proof (pow2_ge_0 (sin t)). pose proof (pow2_ge_0 (cos t)). pose proof e2_bound. nra. Qed.
Lemma NN_pos : forall t, 0 < NN t.
Proof. intro t. unfold NN, Rdiv. apply Rmult_lt_0_compat; [exact A_pos|]. apply Rinv_0_lt_compat. apply sqrt_lt_R0. apply root_pos. Qed.
Lemma NN_sq : forall t, NN t ^ 2 * (1 - we_2 * sin t ^ 2) = WGS84_A ^ 2.
Proof.
  intro t. pose proof (root_pos t) as H. unfold NN. assert (E : sqrt (1 - we_2 * sin t ^ 2) ^ 2 = 1 - we_2 * sin t ^ 2) by (apply sqrt_pow2'; lra).
  assert (0 < sqrt (1 - we_2 * sin t ^ 2)) by (apply sqrt_lt_R0; assumption).
  transitivity (WGS84_A ^ 2 * (1 - we_2 * sin t ^ 2) / sqrt (1 - we_2 * sin t ^ 2) ^ 2); [field; lra|]. rewrite E. field. lra.
Qed.
Lemma NN_low : forall t, WGS84_A <= NN t.
Proof.
  intro t. pose proof (NN_pos t). pose proof (NN_sq t). pose proof A_pos. pose proof e2_bound. pose proof (pow2_ge_0 (sin t)).
  assert (WGS84_A ^ 2 <= NN t ^ 2). { rewrite <- H0. assert (0 < NN t ^ 2) by nra. assert (0 <= we_2 * sin t ^ 2) by (apply Rmult_le_pos; lra). nra. } nra.
Qed.
Lemma to_ecef : forall b lat lon h, let t := if b : bool then lat else radians lat in let l := if b then lon else radians lon in
  w_lla2ecef b (lat, lon, h) = Ok ((NN t + h) * cos t * cos l, (NN t + h) * cos t * sin l, (NN t * (1 - we_2) + h) * sin t).
Proof.
  intros b lat lon h t l. unfold w_lla2ecef. fold t. fold l. rewrite rsqrt_ok by (pose proof (root_pos t); lra). cbv beta iota delta [bind].
  rewrite rdiv_ok by (pose proof (sqrt_lt_R0 _ (root_pos t)); lra). fold (NN t). rewrite e2_flat. reflexivity.
Qed.
Lemma quartic_unique : forall r z x y, 0 < x -> 0 < y -> we_2 * x < r -> we_2 * y < r ->
  (WGS84_A ^ 2 - x ^ 2) * (r - we_2 * x) ^ 2 = (1 - we_2) * x ^ 2 * z ^ 2 ->
  (WGS84_A ^ 2 - y ^ 2) * (r - we_2 * y) ^ 2 = (1 - we_2) * y ^ 2 * z ^ 2 -> x = y.
Proof.
  intros r z. assert (W : forall x y, 0 < x -> x < y -> we_2 * y < r ->
  (WGS84_A ^ 2 - x ^ 2) * (r - we_2 * x) ^ 2 = (1 - we_2) * x ^ 2 * z ^ 2 ->
  (WGS84_A ^ 2 - y ^ 2) * (r - we_2 * y) ^ 2 = (1 - we_2) * y ^ 2 * z ^ 2 -> False).
  { intros x y X L Y E1 E2. pose proof e2_bound as B.
    assert (D2 : 0 < r - we_2 * y) by lra. assert (D1 : r - we_2 * y < r - we_2 * x) by nra.
    set (d1 := r - we_2 * x) in *. set (d2 := r - we_2 * y) in *.
    assert (Q1 : WGS84_A ^ 2 = x ^ 2 + (1 - we_2) * (x / d1) ^ 2 * z ^ 2).
    { apply (Rmult_eq_reg_r (d1 ^ 2)); [|assert (0 < d1) by lra; nra]. transitivity ((WGS84_A ^ 2 - x ^ 2) * d1 ^ 2 + x ^ 2 * d1 ^ 2); [ring|]. rewrite E1. field. lra. }
    assert (Q2 : WGS84_A ^ 2 = y ^ 2 + (1 - we_2) * (y / d2) ^ 2 * z ^ 2).
    { apply (Rmult_eq_reg_r (d2 ^ 2)); [|nra]. transitivity ((WGS84_A ^ 2 - y ^ 2) * d2 ^ 2 + y ^ 2 * d2 ^ 2); [ring|]. rewrite E2. field. lra. }
    assert (I : / d1 < / d2) by (apply Rinv_lt_contravar; nra). assert (0 < / d1) by (apply Rinv_0_lt_compat; lra).
    assert (K : 0 < x / d1 < y / d2) by (unfold Rdiv; split; nra).
    pose proof (pow2_ge_0 z). assert ((x / d1) ^ 2 < (y / d2) ^ 2) by nra.
    assert ((1 - we_2) * (x / d1) ^ 2 * z ^ 2 <= (1 - we_2) * (y / d2) ^ 2 * z ^ 2). { apply Rmult_le_compat_r; [assumption|]. apply Rmult_le_compat_l; lra. }
    assert (x ^ 2 < y ^ 2) by nra. lra. }
  intros x y X Y RX RY E1 E2. destruct (Rtotal_order x y) as [L|[E|L]]; [exfalso; exact (W x y X L RY E1 E2)|assumption|exfalso; exact (W y x Y L RX E2 E1)].
Qed.
(** The meridian plane: [r] from the axis and [z] above the equator. *)
Definition meridian (t h r z : R) : Prop := - (PI / 2) < t < PI / 2 /\ 0 < NN t * (1 - we_2) + h /\
  r = (NN t + h) * cos t /\ z = (NN t * (1 - we_2) + h) * sin t.
Lemma meridian_quartic : forall t h r z, meridian t h r z -> let x := NN t * cos t in
  0 < x /\ we_2 * x < r /\ (WGS84_A ^ 2 - x ^ 2) * (r - we_2 * x) ^ 2 = (1 - we_2) * x ^ 2 * z ^ 2 /\
  r - we_2 * x = (NN t * (1 - we_2) + h) * cos t.
Proof.
  intros t h r z (T & K & Hr & Hz) x. assert (C : 0 < cos t) by (apply cos_gt_0; lra). pose proof (NN_pos t) as N.
  assert (D : r - we_2 * x = (NN t * (1 - we_2) + h) * cos t) by (unfold x; rewrite Hr; ring).
  split; [unfold x; nra|]. split; [nra|]. split; [|assumption].
  rewrite D, Hz. rewrite <- (NN_sq t). unfold x. pose proof (cs1 t) as E.
  replace (NN t ^ 2 * (1 - we_2 * sin t ^ 2) - (NN t * cos t) ^ 2) with (NN t ^ 2 * (1 - we_2) * sin t ^ 2).
  2:{ transitivity (NN t ^ 2 * (cos t ^ 2 + sin t ^ 2 - we_2 * sin t ^ 2) - (NN t * cos t) ^ 2); [ring|]. rewrite E. reflexivity. }
  ring.
Qed.
Lemma tan_unique : forall x y, - (PI / 2) < x < PI / 2 -> - (PI / 2) < y < PI / 2 -> forall k d z, 0 < k -> 0 < d -> d = k * cos x -> z = k * sin x ->
  forall k', 0 < k' -> d = k' * cos y -> z = k' * sin y -> x = y /\ k = k'.
Proof.
  intros x y X Y k d z K D E1 E2 k' K' E3 E4. pose proof PI_pos.
  assert (E : x = y).
  { pose proof (atan2_polar k x K) as P1. pose proof (atan2_polar k' y K') as P2. rewrite <- E1, <- E2 in P1. rewrite <- E3, <- E4 in P2. rewrite <- P1, <- P2 by lra. reflexivity. }
  split; [assumption|]. subst y. assert (C : 0 < cos x) by (apply cos_gt_0; lra). apply (Rmult_eq_reg_r (cos x)); [|lra]. rewrite <- E1, <- E3. reflexivity.
Qed.
Lemma meridian_unique : forall t h t' h' r z, meridian t h r z -> meridian t' h' r z -> t = t' /\ h = h'.
Proof.
  intros t h t' h' r z M M'. destruct (meridian_quartic _ _ _ _ M) as (X & L & Q & D). destruct (meridian_quartic _ _ _ _ M') as (X' & L' & Q' & D').
  pose proof (quartic_unique r z _ _ X X' L L' Q Q') as E. rewrite <- E in D'.
  destruct M as (T & K & Hr & Hz). destruct M' as (T' & K' & Hr' & Hz').
  assert (0 < cos t) by (apply cos_gt_0; lra). assert (D0 : 0 < r - we_2 * (NN t * cos t)) by lra.
  destruct (tan_unique t t' T T' _ _ z K D0 D Hz _ K' D' Hz') as [-> Ek]. split; [reflexivity|lra].
Qed.
Definition gg (X Y Z : R) : R := X ^ 2 + Y ^ 2 + (1 - we_2) * Z ^ 2 - we_2 * (WGS84_A ^ 2 - WGS84_B ^ 2).
Lemma rcbrt_ok : forall x, 0 < x -> rcbrt x = Ok (Rpower x (1 / 3)).
Proof. intros x H. unfold rcbrt. rewrite Rltb_true by assumption. reflexivity. Qed.
Lemma from_ecef : forall b X Y Z, 0 < X ^ 2 + Y ^ 2 -> 0 < gg X Y Z -> exists t h, meridian t h (sqrt (X ^ 2 + Y ^ 2)) Z /\
  w_ecef2lla b (X, Y, Z) = Ok (if b then (t, atan2 Y X, h) else (degrees t, degrees (atan2 Y X), h)).
Proof.
  intros b X Y Z HR HG. assert (R2 : sqrt (X ^ 2 + Y ^ 2) ^ 2 = X ^ 2 + Y ^ 2) by (apply sqrt_pow2'; lra).
  assert (R0 : 0 < sqrt (X ^ 2 + Y ^ 2)) by (apply sqrt_lt_R0; assumption).
  unfold w_ecef2lla. rewrite rsqrt_ok by lra. cbv beta iota delta [bind].
  set (r := sqrt (X ^ 2 + Y ^ 2)) in *. rewrite <- R2. unfold gg in HG. rewrite <- R2 in HG. rewrite B2_e2 in *.
  clearbody r. clear HR R2. pose proof e2_bound as EB. assert (E1 : 0 < we_2 < 1) by lra.
  pose proof (h_c WGS84_A we_2 r Z A_pos E1 R0 HG) as HC. cbv zeta in HC.
  pose proof (h_G3 WGS84_A we_2 r Z HG) as HG3. cbv zeta in HG3.
  pose proof (h_w WGS84_A we_2 r Z A_pos E1 R0 HG) as HW. cbv zeta in HW.
  pose proof (h_s WGS84_A we_2 r Z A_pos E1 R0 HG) as HS. cbv zeta in HS.
  pose proof (h_t WGS84_A we_2 r Z A_pos E1 R0 HG) as HT. cbv zeta in HT.
  pose proof (h_den WGS84_A we_2 r Z A_pos E1 R0 HG) as HD. cbv zeta in HD.
  pose proof (h_P WGS84_A we_2 r Z A_pos E1 R0 HG) as HP. cbv zeta in HP.
  pose proof (h_Q WGS84_A we_2 r Z A_pos E1 R0 HG) as HQ. cbv zeta in HQ.
  pose proof (h_ro WGS84_A we_2 r Z A_pos E1 R0 HG) as HO. cbv zeta in HO.
  rewrite rdiv_ok by (clear - HG3; lra). cbv beta iota.
  set (c := _ / (_ * _ * _)) in *. rewrite (rsqrt_ok (c * c + 2 * c)) by (clear - HC; nra). cbv beta iota.
  set (w := sqrt (c * c + 2 * c)) in *. rewrite rcbrt_ok by (clear - HC HW; lra). cbv beta iota.
  set (s := Rpower _ _) in *. rewrite (rdiv_ok 1 s) by (clear - HS; lra). cbv beta iota. rewrite (rdiv_ok _ (3 * _ * _ * _)) by (clear - HD; lra). cbv beta iota.
  set (P := _ / (3 * _ * _ * _)) in *. assert (P0 : 0 <= 2 * we_2 * we_2 * P) by (clear - E1 HP; assert (0 <= we_2 * we_2) by nra; nra).
  rewrite (rsqrt_ok (1 + _)) by (clear - P0; lra). cbv beta iota. set (Q := sqrt (1 + _)) in *. rewrite !(rdiv_ok _ (1 + Q)) by (clear - HQ; lra). cbv beta iota.
  rewrite (rdiv_ok 1 Q) by (clear - HQ; lra). cbv beta iota. rewrite (rdiv_ok _ (Q * (1 + Q))) by (clear - HQ; nra). cbv beta iota.
  rewrite (rsqrt_ok (_ - _ - _)) by (apply HO). cbv beta iota.
  set (ro := - _ / (1 + Q) + sqrt _) in HO |- *. destruct HO as (_ & O1 & O2 & O3). clearbody ro. clear - EB R0 O1 O2 O3.
  set (D := r - we_2 * ro) in *. assert (D0 : 0 < D) by (unfold D; lra). pose proof A_pos as A0.
  assert (Z0 : 0 <= Z ^ 2) by apply pow2_ge_0. assert (D2 : 0 < D ^ 2) by nra.
  rewrite (rsqrt_ok (D ^ 2 + Z ^ 2)) by lra. cbv beta iota. rewrite (rsqrt_ok (D ^ 2 + (1 - we_2) * Z ^ 2)) by nra. cbv beta iota.
  assert (V : sqrt (D ^ 2 + (1 - we_2) * Z ^ 2) = WGS84_A * D / ro).
  { apply sqrt_unique'. { unfold Rdiv. left. apply Rmult_lt_0_compat; [nra|apply Rinv_0_lt_compat; assumption]. }
    transitivity ((WGS84_A ^ 2 - ro ^ 2) * D ^ 2 / ro ^ 2 + D ^ 2); [field; lra|]. rewrite O3. field. lra. }
  rewrite V. assert (AV : 0 < WGS84_A * (WGS84_A * D / ro)). { apply Rmult_lt_0_compat; [assumption|]. unfold Rdiv. apply Rmult_lt_0_compat; [nra|apply Rinv_0_lt_compat; assumption]. }
  rewrite !rdiv_ok by lra. cbv beta iota. rewrite ep_2.
  replace (WGS84_A ^ 2 * (1 - we_2) / (WGS84_A * (WGS84_A * D / ro))) with ((1 - we_2) * ro / D) by (field; lra).
  replace (Z + we_2 / (1 - we_2) * (WGS84_A ^ 2 * (1 - we_2) * Z / (WGS84_A * (WGS84_A * D / ro)))) with (Z * (r / D)).
  2:{ unfold D. field. repeat split; lra. }
  set (U := sqrt (D ^ 2 + Z ^ 2)). assert (U0 : 0 < U) by (apply sqrt_lt_R0; lra). assert (U2 : U ^ 2 = D ^ 2 + Z ^ 2) by (apply sqrt_pow2'; lra).
  destruct (atan2_spec Z D) as (S1 & S2 & S3). fold U in S2, S3. set (t := atan2 Z D) in *.
  assert (C0 : 0 < cos t) by nra.
  assert (T : - (PI / 2) < t < PI / 2).
  { pose proof PI_pos. destruct (Rlt_dec (- (PI / 2)) t) as [L|L]; [destruct (Rlt_dec t (PI / 2)) as [M|M]; [lra|]|]; exfalso.
    - assert (cos t <= 0) by (apply cos_le_0; lra). lra.
    - assert (cos (- t) <= 0) by (apply cos_le_0; lra). rewrite cos_neg in H0. lra. }
  assert (L : atan2 (Z * (r / D)) r = t).
  { replace (Z * (r / D)) with (U * (r / D) * sin t). 2:{ rewrite <- S3 at 1. ring. }
    replace r with (U * (r / D) * cos t) at 2. 2:{ transitivity (U * cos t * (r / D)); [ring|]. rewrite S2. field. lra. }
    apply atan2_polar; [|lra]. apply Rmult_lt_0_compat; [assumption|]. unfold Rdiv. apply Rmult_lt_0_compat; [assumption|apply Rinv_0_lt_compat; assumption]. }
  rewrite L. assert (NE : NN t = U * ro / D).
  { assert (0 < U * ro / D). { unfold Rdiv. apply Rmult_lt_0_compat; [nra|apply Rinv_0_lt_compat; assumption]. }
    pose proof (NN_pos t). pose proof (NN_sq t) as N2.
    assert (K : (U * ro / D) ^ 2 * (1 - we_2 * sin t ^ 2) = WGS84_A ^ 2).
    { assert (XX : U ^ 2 * (1 - we_2 * sin t ^ 2) = D ^ 2 + (1 - we_2) * Z ^ 2).
      { transitivity (U ^ 2 - we_2 * (U * sin t) ^ 2); [ring|]. rewrite U2, S3. ring. }
      transitivity (ro ^ 2 / D ^ 2 * (U ^ 2 * (1 - we_2 * sin t ^ 2))); [field; lra|]. rewrite XX.
      transitivity (ro ^ 2 + (1 - we_2) * ro ^ 2 * Z ^ 2 / D ^ 2); [field; lra|]. rewrite <- O3. field. lra. }
    rewrite <- K in N2. apply Rmult_eq_reg_r in N2; [nra|]. pose proof (root_pos t). lra. }
  exists t, (U * (1 - (1 - we_2) * ro / D)). split; [|reflexivity].
  assert (UE : NN t * (1 - we_2) + U * (1 - (1 - we_2) * ro / D) = U) by (rewrite NE; field; lra).
  split; [assumption|]. split; [lra|]. split; [|rewrite UE; lra].
  replace (NN t + U * (1 - (1 - we_2) * ro / D)) with (U + we_2 * NN t) by lra. rewrite NE.
  transitivity ((U * cos t) * (1 + we_2 * ro / D)); [rewrite S2; unfold D; field; fold D; lra|field; lra].
Qed.

Lemma MAJOR_pos : 0 < MAJOR. Proof. unfold MAJOR. lra. Qed.
Lemma MINOR_pos : 0 < MINOR. Proof. rewrite <- B_minor. exact B_pos. Qed.
Lemma position_unique : forall lat lon h v w, position lat lon h v -> position lat lon h w -> v = w.
Proof.
  intros lat lon h v w (f & O & M & ->) (g & O' & M' & ->). f_equal.
  destruct f as [[x y] z]. destruct g as [[x' y'] z']. unfold normal_at, on_ellipsoid in *.
  destruct M as (k & K & N). destruct M' as (k' & K' & N').
  pose proof MAJOR_pos as A0. pose proof MINOR_pos as B0. unfold up in *. rewrite N in N'. injection N' as E1 E2 E3.
  assert (X1 : k * x = k' * x'). { apply (Rmult_eq_reg_r (/ MAJOR ^ 2)); [rewrite !Rmult_assoc; exact E1|apply Rinv_neq_0_compat; nra]. }
  assert (X2 : k * y = k' * y'). { apply (Rmult_eq_reg_r (/ MAJOR ^ 2)); [rewrite !Rmult_assoc; exact E2|apply Rinv_neq_0_compat; nra]. }
  assert (X3 : k * z = k' * z'). { apply (Rmult_eq_reg_r (/ MINOR ^ 2)); [rewrite !Rmult_assoc; exact E3|apply Rinv_neq_0_compat; nra]. }
  assert (E : k = k').
  { assert (Q : k ^ 2 = k' ^ 2).
    { transitivity (k ^ 2 * ((x / MAJOR) ^ 2 + (y / MAJOR) ^ 2 + (z / MINOR) ^ 2)); [rewrite O; ring|].
      transitivity (k' ^ 2 * ((x' / MAJOR) ^ 2 + (y' / MAJOR) ^ 2 + (z' / MINOR) ^ 2)); [|rewrite O'; ring].
      transitivity (((k * x) / MAJOR) ^ 2 + ((k * y) / MAJOR) ^ 2 + ((k * z) / MINOR) ^ 2); [field; lra|]. rewrite X1, X2, X3. field; lra. }
    nra. }
  subst k'. f_equal; [f_equal|]; apply (Rmult_eq_reg_l k); lra.
Qed.
Lemma to_position : forall lat lon h, exists v, w_lla2ecef false (lat, lon, h) = Ok v /\ position lat lon h v.
Proof.
  intros lat lon h. rewrite to_ecef. cbv zeta. set (t := radians lat). set (l := radians lon). eexists. split; [reflexivity|].
  exists (NN t * cos t * cos l, NN t * cos t * sin l, NN t * (1 - we_2) * sin t).
  pose proof A_pos as A0. pose proof B_pos as B0. pose proof (NN_pos t) as N0. pose proof (NN_sq t) as N2. pose proof (cs1 t) as C1. pose proof (cs1 l) as C2. pose proof e2_bound as EB.
  split; [|split].
  - unfold on_ellipsoid. rewrite <- A_major, <- B_minor.
    transitivity ((NN t ^ 2 * (cos t ^ 2 * (cos l ^ 2 + sin l ^ 2)) + NN t ^ 2 * (1 - we_2) * sin t ^ 2 * (WGS84_A ^ 2 * (1 - we_2) / WGS84_B ^ 2)) / WGS84_A ^ 2); [field; lra|].
    rewrite C2, B2_e2. replace (WGS84_A ^ 2 * (1 - we_2) / (WGS84_A ^ 2 * (1 - we_2))) with 1 by (field; lra).
    replace (NN t ^ 2 * (cos t ^ 2 * 1) + NN t ^ 2 * (1 - we_2) * sin t ^ 2 * 1) with (NN t ^ 2 * (cos t ^ 2 + sin t ^ 2 - we_2 * sin t ^ 2)) by ring.
    rewrite C1, N2. field. lra.
  - exists (WGS84_A ^ 2 / NN t). rewrite <- A_major, <- B_minor, B2_e2. split; [unfold Rdiv; apply Rmult_lt_0_compat; [nra|apply Rinv_0_lt_compat; assumption]|].
    unfold up. rewrite <- !radians_deg. fold t l. f_equal; [f_equal|]; field; lra.
  - unfold up, mix. rewrite <- !radians_deg. fold t l. f_equal; [f_equal|]; ring.
Qed.
Lemma lat_open : forall lat, -90 < lat < 90 -> - (PI / 2) < deg lat < PI / 2.
Proof. intros lat H. pose proof PI_pos. unfold deg. split; nra. Qed.
Lemma gg_meridian : forall t h r z, - (PI / 2) < t < PI / 2 -> -6290000 <= h -> r = (NN t + h) * cos t -> z = (NN t * (1 - we_2) + h) * sin t ->
  meridian t h r z /\ 0 < r /\ 0 < r ^ 2 + (1 - we_2) * z ^ 2 - we_2 * (WGS84_A ^ 2 - WGS84_B ^ 2).
Proof.
  intros t h r z T H Hr Hz. pose proof (NN_low t) as N. pose proof e2_bound as EB. unfold WGS84_A in N.
  assert (K : 45000 < NN t * (1 - we_2) + h) by nra. assert (K2 : NN t * (1 - we_2) + h < NN t + h) by nra.
  set (k := NN t * (1 - we_2) + h) in *. set (k' := NN t + h) in *. assert (C : 0 < cos t) by (apply cos_gt_0; lra).
  split; [|split].
  - split; [assumption|]. split; [fold k; lra|]. split; assumption.
  - rewrite Hr. nra.
  - rewrite B2_e2, Hr, Hz. pose proof (cs1 t) as C1. pose proof (pow2_ge_0 (sin t)).
    assert (k ^ 2 * cos t ^ 2 <= k' ^ 2 * cos t ^ 2) by (apply Rmult_le_compat_r; nra).
    assert (X : k ^ 2 * (1 - we_2) <= (k' * cos t) ^ 2 + (1 - we_2) * (k * sin t) ^ 2).
    { replace (k ^ 2 * (1 - we_2)) with (k ^ 2 * (cos t ^ 2 + sin t ^ 2) * (1 - we_2)) by (rewrite C1; ring).
      assert (0 <= k ^ 2 * cos t ^ 2) by nra. nra. }
    assert (Y : we_2 * (WGS84_A ^ 2 - WGS84_A ^ 2 * (1 - we_2)) < 1850000000) by (unfold WGS84_A; nra).
    assert (2000000000 < k ^ 2 * (1 - we_2)); [|lra]. assert (2025000000 < k ^ 2) by nra. nra.
Qed.
Lemma round_trip_w : forall lat lon h v, -90 < lat < 90 -> -180 < lon <= 180 -> -6290000 <= h -> position lat lon h v ->
  w_ecef2lla false v = Ok (lat, lon, h) /\ w_ecef2lla true v = Ok (deg lat, deg lon, h).
Proof.
  intros lat lon h v La Lo Hh P. destruct (to_position lat lon h) as (v' & E & P').
  rewrite (position_unique _ _ _ _ _ P P'). rewrite to_ecef in E. cbv zeta in E. injection E as <-. clear P P' v.
  rewrite !radians_deg. pose proof (lat_open lat La) as T. pose proof (lon_range lon Lo) as L. set (t := deg lat) in *. set (l := deg lon) in *.
  destruct (gg_meridian t h _ _ T Hh eq_refl eq_refl) as (M & R0 & G).
  set (r := (NN t + h) * cos t) in *. set (z := (NN t * (1 - we_2) + h) * sin t) in *.
  assert (R2 : (r * cos l) ^ 2 + (r * sin l) ^ 2 = r ^ 2). { transitivity (r ^ 2 * (cos l ^ 2 + sin l ^ 2)); [ring|]. rewrite cs1. ring. }
  assert (G' : 0 < gg (r * cos l) (r * sin l) z) by (unfold gg; rewrite R2; assumption).
  assert (A2 : atan2 (r * sin l) (r * cos l) = l) by (apply atan2_polar; lra).
  assert (X : forall b, w_ecef2lla b (r * cos l, r * sin l, z) = Ok (if b : bool then (t, l, h) else (degrees t, degrees l, h))).
  { intro b. destruct (from_ecef b (r * cos l) (r * sin l) z ltac:(rewrite R2; nra) G') as (t' & h' & M' & ->).
    rewrite R2 in M'. rewrite (sqrt_unique' r) in M' by (try reflexivity; lra).
    destruct (meridian_unique _ _ _ _ _ _ M M') as [<- <-]. rewrite A2. reflexivity. }
  rewrite !X. unfold t, l. rewrite !degrees_deg. split; reflexivity.
Qed.
Lemma trip_round_w : forall x y z, 0 < x ^ 2 + y ^ 2 -> 43000 <= length3 (x, y, z) -> exists lat lon h,
  w_ecef2lla false (x, y, z) = Ok (lat, lon, h) /\ w_ecef2lla true (x, y, z) = Ok (deg lat, deg lon, h) /\
  -90 < lat < 90 /\ -180 < lon <= 180 /\ position lat lon h (x, y, z).
Proof.
  intros x y z R0 L. pose proof e2_bound as EB. assert (G : 0 < gg x y z).
  { unfold gg. rewrite B2_e2. assert (Y : we_2 * (WGS84_A ^ 2 - WGS84_A ^ 2 * (1 - we_2)) < 1827000000) by (unfold WGS84_A; nra).
    unfold length3 in L. assert (Q : 43000 ^ 2 <= dot (x, y, z) (x, y, z)).
    { assert (D0 : 0 <= dot (x, y, z) (x, y, z)) by (unfold dot; nra). rewrite <- (sqrt_pow2' _ D0). apply pow_incr. lra. }
    unfold dot in Q. pose proof (pow2_ge_0 z). assert (43000 ^ 2 * (1 - we_2) <= (x * x + y * y + z * z) * (1 - we_2)) by (apply Rmult_le_compat_r; lra). nra. }
  destruct (from_ecef false x y z R0 G) as (t & h & M & E). destruct (from_ecef true x y z R0 G) as (t' & h' & M' & E').
  destruct (meridian_unique _ _ _ _ _ _ M M') as [<- <-]. exists (degrees t), (degrees (atan2 y x)), h.
  split; [assumption|]. rewrite !deg_degrees. split; [assumption|].
  destruct (atan2_spec y x) as (S1 & S2 & S3). pose proof PI_pos as PP. destruct M as (T & K & Hr & Hz).
  assert (D : forall u, degrees u * PI = 180 * u) by (intro u; unfold degrees; field; lra).
  split; [pose proof (D t); split; nra|]. split; [pose proof (D (atan2 y x)); split; nra|].
  destruct (to_position (degrees t) (degrees (atan2 y x)) h) as (v & Ev & P). rewrite to_ecef in Ev. cbv zeta in Ev. rewrite !radians_deg, !deg_degrees in Ev.
  injection Ev as Ev. rewrite <- Hr, <- Hz, S2, S3 in Ev. rewrite Ev. assumption.
Qed.

(** ** Series *)
Lemma cos_3 : forall x, cos (3 * x) = cos x * (-3 + 4 * cos x ^ 2).
Proof.
  intro x. replace (3 * x) with (2 * x + x) by ring. rewrite cos_plus, cos_2a_cos, sin_2a. pose proof (cs1 x).
  replace (2 * sin x * cos x * sin x) with (2 * cos x * (sin x ^ 2)) by ring. replace (sin x ^ 2) with (1 - cos x ^ 2) by lra. ring.
Qed.
Lemma sin_3 : forall x, sin (3 * x) = - sin x * (-3 + 4 * sin x ^ 2).
Proof.
  intro x. replace (3 * x) with (2 * x + x) by ring. rewrite sin_plus, cos_2a_sin, sin_2a. pose proof (cs1 x).
  replace (2 * sin x * cos x * cos x) with (2 * sin x * (cos x ^ 2)) by ring. replace (cos x ^ 2) with (1 - sin x ^ 2) by lra. ring.
Qed.
Lemma cos_2' : forall x, cos (2 * x) = -1 + 2 * cos x ^ 2.
Proof. intro x. rewrite cos_2a_cos. ring. Qed.
Lemma delta_series : forall k s1 sg, direct_delta (VB k) (sin sg) (cos sg) (cos (2 * s1 + sg)) = VD k s1 sg.
Proof.
  intros k s1 sg. unfold VD, direct_delta.
  replace (4 * s1 + 2 * sg) with (2 * (2 * s1 + sg)) by ring. replace (6 * s1 + 3 * sg) with (3 * (2 * s1 + sg)) by ring.
  rewrite cos_2', cos_3, sin_3, sin_2a. field.
Qed.
Lemma VA_horner : forall u, 1 + u / 16384 * (4096 + u * (-768 + u * (320 - 175 * u))) = VA u.
Proof. intro u. unfold VA. field. Qed.
Lemma VB_horner : forall u, u / 1024 * (256 + u * (-128 + u * (74 - 47 * u))) = VB u.
Proof. intro u. unfold VB. field. Qed.
Lemma VC_horner : forall sa, WGS84_F / 16 * (1 - sa ^ 2) * (4 + WGS84_F * (4 - 3 * (1 - sa ^ 2))) = VC sa.
Proof. intro sa. unfold VC. rewrite F_flat. field. Qed.
Lemma ksq_code : forall sa, (1 - sa ^ 2) * (WGS84_A ^ 2 - WGS84_B ^ 2) / WGS84_B ^ 2 = ksq sa.
Proof. intro sa. unfold ksq. rewrite A_major, B_minor. pose proof MINOR_pos. field. lra. Qed.
Lemma second_bound : 0 < (MAJOR ^ 2 - MINOR ^ 2) / MINOR ^ 2 < 0.00675.
Proof. unfold MINOR, MAJOR, FLAT. split; lra. Qed.
Lemma ksq_bound : forall sa, -1 <= sa <= 1 -> 0 <= ksq sa <= 0.00675.
Proof. intros sa H. pose proof second_bound. assert (0 <= 1 - sa ^ 2 <= 1) by nra. unfold ksq. nra. Qed.
Lemma VA_bound : forall k, 0 <= k <= 0.00675 -> 1 <= VA k <= 1.002.
Proof.
  intros k H. unfold VA. assert (0 <= k ^ 2 <= 0.00675 * k) by nra. assert (0 <= k ^ 3 <= 0.00675 * k) by nra. assert (0 <= k ^ 4 <= 0.00675 * k) by nra. lra.
Qed.
Lemma VB_bound : forall k, 0 <= k <= 0.00675 -> 0 <= VB k <= 0.0017.
Proof.
  intros k H. unfold VB. assert (0 <= k ^ 2 <= 0.00675 * k) by nra. assert (0 <= k ^ 3 <= 0.00675 * k) by nra. assert (0 <= k ^ 4 <= 0.00675 * k) by nra. lra.
Qed.
Lemma FLAT_bound : 0.0033528 < FLAT < 0.0033529.
Proof. rewrite <- F_flat. exact F_bound. Qed.
Lemma VC_bound : forall sa, -1 <= sa <= 1 -> 0 <= VC sa <= 0.00085.
Proof.
  intros sa H. unfold VC. cbv zeta. assert (C : 0 <= 1 - sa ^ 2 <= 1) by nra. set (c := 1 - sa ^ 2) in *. pose proof FLAT_bound as B.
  assert (F2 : 0 <= FLAT ^ 2 <= 0.0000113) by nra. assert (0 <= FLAT ^ 2 * c <= 0.0000113) by nra. assert (0 <= c ^ 2 <= c) by nra.
  assert (0 <= FLAT ^ 2 * c ^ 2 <= FLAT ^ 2 * c) by nra. assert (0 <= FLAT * c <= 0.0033529) by nra. lra.
Qed.
Lemma sin_lip : forall x y, Rabs (sin x - sin y) <= Rabs (x - y).
Proof.
  assert (W : forall x y, x <= y -> Rabs (sin x - sin y) <= y - x).
  { intros x y L. destruct (Req_dec x y) as [->|N]; [rewrite !Rminus_diag_eq, Rabs_R0 by reflexivity; lra|].
    destruct (MVT_cor2 sin cos x y ltac:(lra) (fun c _ => derivable_pt_lim_sin c)) as (c & E & _).
    rewrite Rabs_minus_sym, E, Rabs_mult, (Rabs_right (y - x)) by lra. pose proof (COS_bound c) as B. assert (Rabs (cos c) <= 1) by (apply Rabs_le; lra). nra. }
  intros x y. destruct (Rle_dec x y) as [L|L].
  - rewrite (Rabs_minus_sym x y), (Rabs_right (y - x)) by lra. apply W. assumption.
  - rewrite (Rabs_minus_sym (sin x)), (Rabs_right (x - y)) by lra. apply W. lra.
Qed.
Lemma cos_lip : forall x y, Rabs (cos x - cos y) <= Rabs (x - y).
Proof. intros x y. rewrite !cos_sin. eapply Rle_trans; [apply sin_lip|]. right. f_equal. ring. Qed.
Lemma prod_sum : forall a s, sin s * cos (2 * a + s) = (sin (2 * a + 2 * s) - sin (2 * a)) / 2.
Proof.
  intros a s. replace (2 * a + 2 * s) with ((2 * a + s) + s) by ring. replace (sin (2 * a)) with (sin ((2 * a + s) - s)) by (f_equal; ring).
  rewrite sin_plus, sin_minus. field.
Qed.
Lemma VD_sum : forall k s1 s, VD k s1 s = VB k / 2 * (sin (2 * s1 + 2 * s) - sin (2 * s1)) +
  VB k ^ 2 / 16 * (sin (4 * s1 + 4 * s) - sin (4 * s1)) + VB k ^ 3 / 48 * (sin (6 * s1 + 6 * s) - sin (6 * s1)).
Proof.
  intros k s1 s. unfold VD. rewrite (Rmult_assoc (VB k)), prod_sum.
  rewrite (Rmult_assoc (VB k ^ 2 / 8)). replace (4 * s1 + 2 * s) with (2 * (2 * s1) + 2 * s) by ring. rewrite prod_sum.
  rewrite (Rmult_assoc (VB k ^ 3 / 24)). replace (6 * s1 + 3 * s) with (2 * (3 * s1) + 3 * s) by ring. rewrite prod_sum.
  replace (2 * (2 * s1) + 2 * (2 * s)) with (4 * s1 + 4 * s) by ring. replace (2 * (2 * s1)) with (4 * s1) by ring.
  replace (2 * (3 * s1) + 2 * (3 * s)) with (6 * s1 + 6 * s) by ring. replace (2 * (3 * s1)) with (6 * s1) by ring. field.
Qed.
Lemma scaled : forall c x y z, 0 <= c -> Rabs (x - y) <= z -> - (c * z) <= c * x - c * y <= c * z.
Proof. intros c x y z C H. assert (- z <= x - y <= z) by (split; [pose proof (Rle_abs (- (x - y))); rewrite Rabs_Ropp in H0; lra|pose proof (Rle_abs (x - y)); lra]). split; nra. Qed.
Lemma VD_lip : forall k s1 x y, 0 <= k <= 0.00675 -> Rabs (VD k s1 x - VD k s1 y) <= 1 / 100 * Rabs (x - y).
Proof.
  intros k s1 x y K. pose proof (VB_bound k K) as B. set (b := VB k) in *. rewrite !VD_sum. fold b.
  assert (M : forall n, 0 <= n -> Rabs (sin (n * s1 + n * x) - sin (n * s1 + n * y)) <= n * Rabs (x - y)).
  { intros n N. eapply Rle_trans; [apply sin_lip|]. replace (n * s1 + n * x - (n * s1 + n * y)) with (n * (x - y)) by ring. rewrite Rabs_mult, (Rabs_right n) by lra. lra. }
  set (d := Rabs (x - y)) in *. assert (D : 0 <= d) by apply Rabs_pos.
  assert (b2 : 0 <= b ^ 2 <= 0.001) by nra. assert (b3 : 0 <= b ^ 3 <= 0.001) by nra.
  pose proof (scaled (b / 2) _ _ _ ltac:(lra) (M 2 ltac:(lra))). pose proof (scaled (b ^ 2 / 16) _ _ _ ltac:(lra) (M 4 ltac:(lra))).
  pose proof (scaled (b ^ 3 / 48) _ _ _ ltac:(lra) (M 6 ltac:(lra))).
  assert (b / 2 * (2 * d) <= 0.0017 * d) by nra. assert (b ^ 2 / 16 * (4 * d) <= 0.001 * d) by nra. assert (b ^ 3 / 48 * (6 * d) <= 0.001 * d) by nra.
  apply Rabs_le. lra.
Qed.
Lemma VD_0 : forall k s1, VD k s1 0 = 0.
Proof. intros k s1. unfold VD. rewrite !Rmult_0_r, sin_0. ring. Qed.

(** ** Point from bearing and distance *)
Lemma loop_ok : forall base k s1, 0 <= k <= 0.00675 -> forall n sg,
  Rabs (sg - (base + VD k s1 sg)) < 100 ^ n * TOL -> forall m, exists sg0,
  direct_loop (S n + m) TOL base (VB k) s1 sg = Ok (base + VD k s1 sg0, sin sg0, cos sg0, cos (2 * s1 + sg0)) /\
  Rabs (sg0 - (base + VD k s1 sg0)) < TOL.
Proof.
  intros base k s1 K. induction n as [|n IH]; intros sg H m.
  - simpl in H. rewrite Rmult_1_l in H. exists sg. split; [|assumption]. cbn [direct_loop plus]. rewrite delta_series, Rltb_true by assumption. reflexivity.
  - change (S (S n) + m)%nat with (S (S n + m)). cbn [direct_loop]. rewrite delta_series.
    destruct (Rltb (Rabs (sg - (base + VD k s1 sg))) TOL) eqn:E.
    + exists sg. split; [reflexivity|]. unfold Rltb in E. destruct (Rlt_dec _ _); [assumption|discriminate].
    + apply IH. replace (base + VD k s1 sg - (base + VD k s1 (base + VD k s1 sg))) with (VD k s1 sg - VD k s1 (base + VD k s1 sg)) by ring.
      eapply Rle_lt_trans; [apply VD_lip; assumption|]. simpl in H. lra.
Qed.
Lemma TOL_val : TOL = 1 / 1000000000000. Proof. unfold TOL. lra. Qed.
Lemma VD_small : forall k s1 x, 0 <= k <= 0.00675 -> Rabs (VD k s1 x) <= 1 / 100 * Rabs x.
Proof. intros k s1 x K. pose proof (VD_lip k s1 x 0 K) as H. rewrite VD_0, !Rminus_0_r in H. assumption. Qed.
Lemma VD_one : forall k s1 x, 0 <= k <= 0.00675 -> Rabs (VD k s1 x) <= 1 / 100.
Proof.
  intros k s1 x K. pose proof (VB_bound k K) as B. unfold VD. set (b := VB k) in *.
  assert (P : forall u v, Rabs (sin u * cos v - 0) <= 1).
  { intros u v. rewrite Rminus_0_r, Rabs_mult. pose proof (SIN_bound u). pose proof (COS_bound v). assert (Rabs (sin u) <= 1) by (apply Rabs_le; lra). assert (Rabs (cos v) <= 1) by (apply Rabs_le; lra). pose proof (Rabs_pos (sin u)). pose proof (Rabs_pos (cos v)). nra. }
  assert (b2 : 0 <= b ^ 2 <= 0.001) by nra. assert (b3 : 0 <= b ^ 3 <= 0.001) by nra.
  pose proof (P x (2 * s1 + x)) as P1. pose proof (P (2 * x) (4 * s1 + 2 * x)) as P2. pose proof (P (3 * x) (6 * s1 + 3 * x)) as P3.
  pose proof (scaled b _ _ _ ltac:(lra) P1). pose proof (scaled (b ^ 2 / 8) _ _ _ ltac:(lra) P2). pose proof (scaled (b ^ 3 / 24) _ _ _ ltac:(lra) P3).
  apply Rabs_le. lra.
Qed.
Lemma loop_default : forall base k s1, 0 <= k <= 0.00675 -> exists sg0,
  direct_loop MAX_ITER TOL base (VB k) s1 base = Ok (base + VD k s1 sg0, sin sg0, cos sg0, cos (2 * s1 + sg0)) /\
  Rabs (sg0 - (base + VD k s1 sg0)) < TOL.
Proof.
  intros base k s1 K. apply (loop_ok base k s1 K 6 base) with (m := 193%nat).
  replace (base - (base + VD k s1 base)) with (- VD k s1 base) by ring. rewrite Rabs_Ropp. pose proof (VD_one k s1 base K). rewrite TOL_val. lra.
Qed.
Lemma param_cos : forall p, cos (parametric p) = 1 / sqrt (1 + ((1 - FLAT) * tan (deg (fst p))) ^ 2).
Proof. intro p. unfold parametric. rewrite cos_atan. unfold Rsqr. do 3 f_equal. ring. Qed.
Lemma param_sin : forall p, sin (parametric p) = (1 - FLAT) * tan (deg (fst p)) * cos (parametric p).
Proof. intro p. rewrite param_cos. unfold parametric. rewrite sin_atan. unfold Rsqr. replace (1 + (1 - FLAT) * tan (deg (fst p)) * ((1 - FLAT) * tan (deg (fst p)))) with (1 + ((1 - FLAT) * tan (deg (fst p))) ^ 2) by ring. unfold Rdiv. ring. Qed.
Lemma param_pos : forall p, 0 < cos (parametric p).
Proof. intro p. unfold parametric. pose proof (atan_bound ((1 - FLAT) * tan (deg (fst p)))). apply cos_gt_0; lra. Qed.
Lemma clairaut_bound : forall p b, -1 <= clairaut p b <= 1.
Proof.
  intros p b. unfold clairaut. pose proof (param_pos p). pose proof (COS_bound (parametric p)). pose proof (SIN_bound (deg b)). nra.
Qed.
Lemma node_of : forall p b, node p b (atan2 ((1 - FLAT) * tan (deg (fst p))) (cos (deg b))).
Proof.
  intros p b. unfold node. cbv zeta. pose proof (param_pos p) as C. pose proof (param_sin p) as S. pose proof (cs1 (parametric p)) as E1. pose proof (cs1 (deg b)) as E2.
  set (T := (1 - FLAT) * tan (deg (fst p))) in *. destruct (atan2_spec T (cos (deg b))) as (_ & A1 & A2). set (s1 := atan2 _ _) in *. set (k := sqrt (cos (deg b) ^ 2 + T ^ 2)) in *.
  assert (K : sqrt (1 - clairaut p b ^ 2) = cos (parametric p) * k).
  { apply sqrt_unique'. { apply Rmult_le_pos; [lra|apply sqrt_pos]. }
    unfold k. rewrite Rpow_mult_distr, sqrt_pow2' by (pose proof (pow2_ge_0 (cos (deg b))); pose proof (pow2_ge_0 T); lra).
    unfold clairaut. transitivity ((cos (parametric p) * cos (deg b)) ^ 2 + (T * cos (parametric p)) ^ 2); [ring|]. rewrite <- S.
    replace ((cos (parametric p) * sin (deg b)) ^ 2) with (cos (parametric p) ^ 2 * sin (deg b) ^ 2) by ring.
    replace (sin (deg b) ^ 2) with (1 - cos (deg b) ^ 2) by lra. replace (sin (parametric p) ^ 2) with (1 - cos (parametric p) ^ 2) by lra. ring. }
  rewrite K. split.
  - rewrite S. rewrite Rmult_assoc, A2. ring.
  - rewrite Rmult_assoc, A1. reflexivity.
Qed.
Lemma surface_of : forall c s, 0 <= c -> c ^ 2 + s ^ 2 = 1 -> forall lon,
  position (degrees (atan2 s ((1 - WGS84_F) * c))) lon 0 (stretch (c * cos (deg lon), c * sin (deg lon), s)).
Proof.
  intros c s C E lon. set (t := atan2 s ((1 - WGS84_F) * c)).
  destruct (to_position (degrees t) lon 0) as (v & Ev & P). rewrite to_ecef in Ev. cbv zeta in Ev. rewrite !radians_deg, deg_degrees in Ev. injection Ev as Ev.
  replace (stretch (c * cos (deg lon), c * sin (deg lon), s)) with v; [assumption|]. rewrite <- Ev. unfold stretch.
  destruct (atan2_spec s ((1 - WGS84_F) * c)) as (_ & A1 & A2). fold t in A1, A2. pose proof F_bound as FB.
  set (k := sqrt (((1 - WGS84_F) * c) ^ 2 + s ^ 2)) in *.
  assert (K2 : k ^ 2 = ((1 - WGS84_F) * c) ^ 2 + s ^ 2) by (apply sqrt_pow2'; pose proof (pow2_ge_0 ((1 - WGS84_F) * c)); pose proof (pow2_ge_0 s); lra).
  assert (K0 : 0 < k). { assert (0 <= k) by apply sqrt_pos. assert (0 < k ^ 2). { rewrite K2. destruct (Req_dec c 0) as [->|N]; [nra|]. assert (0 < c) by lra. assert (0 < (1 - WGS84_F) * c) by nra. pose proof (pow2_ge_0 s). nra. } nra. }
  assert (N : NN t = WGS84_A * k / (1 - WGS84_F)).
  { assert (0 < WGS84_A * k / (1 - WGS84_F)). { pose proof A_pos. unfold Rdiv. apply Rmult_lt_0_compat; [nra|apply Rinv_0_lt_compat; lra]. }
    pose proof (NN_pos t). pose proof (NN_sq t) as N2.
    assert (X : (WGS84_A * k / (1 - WGS84_F)) ^ 2 * (1 - we_2 * sin t ^ 2) = WGS84_A ^ 2).
    { transitivity (WGS84_A ^ 2 * (k ^ 2 - we_2 * (k * sin t) ^ 2) / (1 - WGS84_F) ^ 2); [field; lra|]. rewrite K2, A2.
      replace (((1 - WGS84_F) * c) ^ 2 + s ^ 2 - we_2 * s ^ 2) with ((1 - WGS84_F) ^ 2 * (c ^ 2 + s ^ 2)). 2:{ unfold we_2. ring. } rewrite E. field. lra. }
    rewrite <- X in N2. apply Rmult_eq_reg_r in N2; [nra|]. pose proof (root_pos t). lra. }
  rewrite <- A_major, <- B_minor, N, Rplus_0_r, e2_flat. unfold WGS84_B.
  assert (CT : cos t = (1 - WGS84_F) * c / k) by (rewrite <- A1; field; lra). assert (ST : sin t = s / k) by (rewrite <- A2 at 1; field; lra).
  rewrite CT, ST. f_equal; [f_equal|]; field; lra.
Qed.
Lemma unit_km : forall u m, is_unit u m -> forall x, unit_convert x u "km" = Ok (x * m / 1000).
Proof.
  intros u m H. unfold is_unit in H. unfold unit_convert.
  repeat (destruct H as [H|H]; [injection H as <- <-|]); try contradiction; intro x;
    match goal with |- context [UnitsModel.unit_convert ?a ?b ?c] =>
      let r := eval vm_compute in (UnitsModel.unit_convert a b c) in change (UnitsModel.unit_convert a b c) with r end;
    cbv beta iota; unfold Q2R; simpl; f_equal; lra.
Qed.
Lemma atan2_right : forall y x, 0 <= x -> - (PI / 2) <= atan2 y x <= PI / 2.
Proof.
  intros y x X. pose proof PI_pos. destruct (Req_dec x 0) as [->|N].
  - unfold atan2. rewrite !(Rltb_false 0 0) by lra. destruct (Rltb 0 y); [lra|]. destruct (Rltb y 0); lra.
  - unfold atan2. rewrite Rltb_true by lra. pose proof (atan_bound (y / x)). lra.
Qed.
Definition code_shortfall (sa s1 sg sg' : R) : R :=
  (1 - VC sa) * FLAT * sa * (sg' + VC sa * sa * (cos (2 * s1 + sg) + VC sa * cos sg * (-1 + 2 * cos (2 * s1 + sg) ^ 2))).
Lemma deg_to : forall x, deg (to_degrees x) = x.
Proof. intro x. unfold deg, to_degrees. pose proof PI_pos. field. lra. Qed.
Lemma deg_plus : forall x y, deg (x + y) = deg x + deg y.
Proof. intros x y. unfold deg. field. Qed.
Lemma direct_ok : forall p b d u m, is_unit u m -> let sa := clairaut p b in let k := ksq sa in
  let s1 := atan2 ((1 - FLAT) * tan (deg (fst p))) (cos (deg b)) in let base := d * m / (MINOR * VA k) in
  forall sg, direct_loop MAX_ITER TOL base (VB k) s1 base = Ok (base + VD k s1 sg, sin sg, cos sg, cos (2 * s1 + sg)) ->
  exists lam lat, - PI < lam <= PI /\ -90 <= lat <= 90 /\
  position lat (snd p + to_degrees lam) 0 (stretch (travel (on_sphere p) b sg)) /\
  cos (parametric p) * cos sg - sin (parametric p) * sin sg * cos (deg b) = sqrt (1 - (sin (parametric p) * cos sg + cos (parametric p) * sin sg * cos (deg b)) ^ 2) * cos lam /\
  lam = atan2 (sin sg * sin (deg b)) (cos (parametric p) * cos sg - sin (parametric p) * sin sg * cos (deg b)) /\
  w_point_from_bearing_dist p b d u TOL MAX_ITER = Ok (lat, degrees (deg (snd p) + (lam - code_shortfall sa s1 sg (base + VD k s1 sg)))).
Proof.
  intros p b d u m HU sa k s1 base sg EL. pose proof (clairaut_bound p b) as SB. fold sa in SB. pose proof (ksq_bound sa SB) as KB. fold k in KB.
  unfold w_point_from_bearing_dist. rewrite (unit_km u m HU). cbv beta iota delta [bind]. rewrite !radians_deg, F_flat, <- param_cos, <- param_sin.
  fold (clairaut p b). fold sa. rewrite ksq_code. fold k. rewrite VA_horner, VB_horner, B_minor. fold s1.
  assert (0 < MINOR * VA k). { pose proof MINOR_pos. pose proof (VA_bound k KB). nra. }
  rewrite rdiv_ok by lra. replace (d * m / 1000 * 1000 / (MINOR * VA k)) with base by (unfold base; field; pose proof MINOR_pos; pose proof (VA_bound k KB); lra).
  rewrite EL. set (cu := cos (parametric p)). set (su := sin (parametric p)).
  assert (E1 : cu ^ 2 + su ^ 2 = 1) by apply cs1. pose proof (cs1 sg) as E2. pose proof (cs1 (deg b)) as E3.
  set (sz := su * cos sg + cu * sin sg * cos (deg b)). set (x := su * sin sg - cu * cos sg * cos (deg b)).
  assert (RE : sa ^ 2 + x ^ 2 = 1 - sz ^ 2).
  { unfold sa, clairaut, x, sz. fold cu. replace (cos (deg b) * cos (deg b)) with (cos (deg b) ^ 2) by ring.
    assert (X : sin (deg b) ^ 2 = 1 - cos (deg b) ^ 2) by lra. assert (Y : sin sg ^ 2 = 1 - cos sg ^ 2) by lra. assert (W : su ^ 2 = 1 - cu ^ 2) by lra.
    replace ((cu * sin (deg b)) ^ 2) with (cu ^ 2 * sin (deg b) ^ 2) by ring. rewrite X.
    replace ((su * sin sg - cu * cos sg * cos (deg b)) ^ 2) with (su ^ 2 * sin sg ^ 2 - 2 * su * cu * sin sg * cos sg * cos (deg b) + cu ^ 2 * cos sg ^ 2 * cos (deg b) ^ 2) by ring.
    replace ((su * cos sg + cu * sin sg * cos (deg b)) ^ 2) with (su ^ 2 * cos sg ^ 2 + 2 * su * cu * sin sg * cos sg * cos (deg b) + cu ^ 2 * sin sg ^ 2 * cos (deg b) ^ 2) by ring.
    rewrite Y, W. ring. }
  assert (R0 : 0 <= sa ^ 2 + x ^ 2) by (pose proof (pow2_ge_0 sa); pose proof (pow2_ge_0 x); lra).
  rewrite rsqrt_ok by assumption. rewrite RE in *. set (c := sqrt (1 - sz ^ 2)). assert (C0 : 0 <= c) by apply sqrt_pos. assert (C2 : c ^ 2 = 1 - sz ^ 2) by (apply sqrt_pow2'; assumption).
  set (hx := cu * cos sg - su * sin sg * cos (deg b)). set (hy := sin sg * sin (deg b)).
  assert (HE : hx ^ 2 + hy ^ 2 = c ^ 2).
  { rewrite C2. unfold hx, hy, sz. assert (X : sin (deg b) ^ 2 = 1 - cos (deg b) ^ 2) by lra. assert (Y : sin sg ^ 2 = 1 - cos sg ^ 2) by lra. assert (W : su ^ 2 = 1 - cu ^ 2) by lra.
    replace ((sin sg * sin (deg b)) ^ 2) with (sin sg ^ 2 * sin (deg b) ^ 2) by ring. rewrite X.
    replace ((cu * cos sg - su * sin sg * cos (deg b)) ^ 2) with (cu ^ 2 * cos sg ^ 2 - 2 * su * cu * sin sg * cos sg * cos (deg b) + su ^ 2 * sin sg ^ 2 * cos (deg b) ^ 2) by ring.
    replace ((su * cos sg + cu * sin sg * cos (deg b)) ^ 2) with (su ^ 2 * cos sg ^ 2 + 2 * su * cu * sin sg * cos sg * cos (deg b) + cu ^ 2 * sin sg ^ 2 * cos (deg b) ^ 2) by ring.
    rewrite Y, W. ring. }
  destruct (atan2_spec hy hx) as (L1 & L2 & L3). rewrite HE, (sqrt_unique' c _ C0 eq_refl) in L2, L3. set (lam := atan2 hy hx) in *.
  exists lam, (degrees (atan2 sz ((1 - FLAT) * c))). split; [assumption|]. pose proof FLAT_bound as FB.
  split. { apply deg_bound. apply atan2_right. nra. }
  split.
  { rewrite <- F_flat. pose proof (surface_of c sz C0 ltac:(lra) (snd p + to_degrees lam)) as SO. rewrite deg_plus, deg_to in SO.
    replace (travel (on_sphere p) b sg) with (c * cos (deg (snd p) + lam), c * sin (deg (snd p) + lam), sz); [assumption|].
    unfold travel, heading, mix, up, north, east, on_sphere. rewrite deg_to. fold cu su. rewrite cos_plus, sin_plus.
    f_equal; [f_equal|].
    - transitivity (cos (deg (snd p)) * (c * cos lam) - sin (deg (snd p)) * (c * sin lam)); [ring|]. rewrite L2, L3. unfold hx, hy. ring.
    - transitivity (sin (deg (snd p)) * (c * cos lam) + cos (deg (snd p)) * (c * sin lam)); [ring|]. rewrite L2, L3. unfold hx, hy. ring.
    - unfold sz. ring. }
  split; [fold sz; fold c; rewrite L2; reflexivity|]. split; [reflexivity|].
  replace (FLAT / 16 * (1 - sa ^ 2) * (4 + FLAT * (4 - 3 * (1 - sa ^ 2)))) with (VC sa) by (rewrite <- VC_horner, F_flat; reflexivity).
  unfold code_shortfall. reflexivity.
Qed.
Lemma shortfall_diff : forall sa s1 sg sg', -1 <= sa <= 1 -> Rabs (sg - sg') < TOL ->
  Rabs (shortfall sa s1 sg - code_shortfall sa s1 sg sg') <= 6 / 1000000.
Proof.
  intros sa s1 sg sg' SA T. pose proof (VC_bound sa SA) as CB. set (C := VC sa) in *. pose proof FLAT_bound as FB.
  pose proof (SIN_bound sg) as S. pose proof (COS_bound sg) as K. pose proof (COS_bound (2 * s1 + sg)) as M. unfold shortfall, code_shortfall. fold C.
  replace (4 * s1 + 2 * sg) with (2 * (2 * s1 + sg)) by ring. rewrite cos_2', sin_2a. set (m := cos (2 * s1 + sg)) in *. set (c := cos sg) in *. set (s := sin sg) in *.
  replace ((1 - C) * FLAT * sa * (sg + C * s * m + C ^ 2 / 2 * (2 * s * c) * (-1 + 2 * m ^ 2)) - (1 - C) * FLAT * sa * (sg' + C * sa * (m + C * c * (-1 + 2 * m ^ 2))))
    with ((1 - C) * (FLAT * (sa * ((sg - sg') + C * ((s - sa) * (m + C * (c * (-1 + 2 * m ^ 2)))))))) by field.
  rewrite TOL_val in T. assert (B : forall a x y, Rabs a <= y -> Rabs x <= 1 -> 0 <= y -> Rabs (a * x) <= y).
  { intros a x y A X Y. rewrite Rabs_mult. pose proof (Rabs_pos a). pose proof (Rabs_pos x). nra. }
  assert (H1 : Rabs (c * (-1 + 2 * m ^ 2)) <= 1). { apply B; [apply Rabs_le; lra|apply Rabs_le; nra|lra]. }
  assert (H2 : Rabs (C * (c * (-1 + 2 * m ^ 2))) <= 0.00085). { rewrite Rabs_mult, (Rabs_right C) by lra. pose proof (Rabs_pos (c * (-1 + 2 * m ^ 2))). nra. }
  assert (H3 : Rabs (m + C * (c * (-1 + 2 * m ^ 2))) <= 1.00085). { eapply Rle_trans; [apply Rabs_triang|]. assert (Rabs m <= 1) by (apply Rabs_le; lra). lra. }
  assert (H4 : Rabs ((s - sa) * (m + C * (c * (-1 + 2 * m ^ 2)))) <= 2.0017). { rewrite Rabs_mult. assert (Rabs (s - sa) <= 2) by (apply Rabs_le; lra). pose proof (Rabs_pos (s - sa)). pose proof (Rabs_pos (m + C * (c * (-1 + 2 * m ^ 2)))). nra. }
  set (w := (s - sa) * (m + C * (c * (-1 + 2 * m ^ 2)))) in *.
  assert (H5 : Rabs (C * w) <= 0.001702). { rewrite Rabs_mult, (Rabs_right C) by lra. pose proof (Rabs_pos w). nra. }
  assert (H6 : Rabs ((sg - sg') + C * w) <= 0.00171). { eapply Rle_trans; [apply Rabs_triang|]. lra. }
  set (v := (sg - sg') + C * w) in *.
  assert (H7 : Rabs (sa * v) <= 0.00171). { rewrite Rmult_comm. apply B; [assumption|apply Rabs_le; lra|lra]. }
  assert (H8 : Rabs (FLAT * (sa * v)) <= 6 / 1000000). { rewrite Rabs_mult, (Rabs_right FLAT) by lra. pose proof (Rabs_pos (sa * v)). nra. }
  rewrite Rmult_comm. apply B; [assumption|apply Rabs_le; lra|lra].
Qed.
Lemma direct_spec : forall p b d u m, is_unit u m -> exists q s1 sg lam, w_point_from_bearing_dist p b d u TOL MAX_ITER = Ok q /\ on_earth q /\
  latitude_by p b (d * m) (1 / 100000) q s1 sg lam /\ longitude_by p b (6 / 1000000) q s1 sg lam /\ - PI < lam <= PI.
Proof.
  intros p b d u m HU. pose proof (clairaut_bound p b) as SB. pose proof (ksq_bound _ SB) as KB.
  set (sa := clairaut p b) in *. set (k := ksq sa) in *. set (s1 := atan2 ((1 - FLAT) * tan (deg (fst p))) (cos (deg b))). set (base := d * m / (MINOR * VA k)).
  destruct (loop_default base k s1 KB) as (sg & EL & TS).
  destruct (direct_ok p b d u m HU sg EL) as (lam & lat & L & La & P & _ & _ & E). fold sa k s1 base in E.
  eexists. exists s1, sg, lam. split; [exact E|]. split; [exact La|]. split; [|split; [|assumption]].
  - split; [apply node_of|]. split; [|exact P]. fold sa. unfold arc_length. fold k.
    pose proof MINOR_pos as M0. pose proof (VA_bound k KB) as VAB.
    replace (MINOR * VA k * (sg - VD k s1 sg) - d * m) with (MINOR * VA k * (sg - (base + VD k s1 sg))) by (unfold base; field; lra).
    rewrite Rabs_mult, (Rabs_right (MINOR * VA k)) by nra. rewrite TOL_val in TS. assert (M1 : MINOR <= 6356753) by (unfold MINOR, MAJOR, FLAT; lra).
    assert (MINOR * VA k <= 7000000) by nra. pose proof (Rabs_pos (sg - (base + VD k s1 sg))). nra.
  - unfold longitude_by. fold sa. cbn [snd]. replace (deg (degrees (deg (snd p) + (lam - code_shortfall sa s1 sg (base + VD k s1 sg))) - snd p)) with (lam - code_shortfall sa s1 sg (base + VD k s1 sg)).
    2:{ unfold Rminus at 2. rewrite deg_plus, deg_degrees. replace (deg (- snd p)) with (- deg (snd p)) by (unfold deg; field). ring. }
    replace (lam - code_shortfall sa s1 sg (base + VD k s1 sg) - (lam - shortfall sa s1 sg)) with (shortfall sa s1 sg - code_shortfall sa s1 sg (base + VD k s1 sg)) by ring.
    apply shortfall_diff; assumption.
Qed.
Lemma loop_first : forall n base k s1, VD k s1 base = 0 ->
  direct_loop (S n) TOL base (VB k) s1 base = Ok (base + VD k s1 base, sin base, cos base, cos (2 * s1 + base)).
Proof.
  intros n base k s1 V. cbn [direct_loop]. rewrite delta_series, V, Rplus_0_r.
  rewrite Rltb_true; [reflexivity|]. rewrite Rminus_diag_eq, Rabs_R0 by reflexivity. rewrite TOL_val. lra.
Qed.
Lemma loop_exact : forall base k s1, VD k s1 base = 0 ->
  direct_loop MAX_ITER TOL base (VB k) s1 base = Ok (base + VD k s1 base, sin base, cos base, cos (2 * s1 + base)).
Proof. intros base k s1 V. exact (loop_first 199 base k s1 V). Qed.
Lemma deg_0 : deg 0 = 0. Proof. unfold deg. field. Qed.
Lemma deg_90 : deg 90 = PI / 2. Proof. unfold deg. field. Qed.
Lemma degrees_plus : forall x y, degrees (x + y) = degrees x + degrees y.
Proof. intros x y. unfold degrees. ring. Qed.
Lemma degrees_to : forall x, degrees x = to_degrees x.
Proof. intro x. unfold degrees, to_degrees. field. pose proof PI_pos. lra. Qed.
(** The latitude of a surface point is unique between the poles. *)
Lemma travel_0 : forall p b, travel p b 0 = up p.
Proof. intros p b. unfold travel. rewrite cos_0, sin_0. destruct (up p) as [[x y] z]. destruct (heading p b) as [[a c] d]. unfold mix. f_equal; [f_equal|]; ring. Qed.
Lemma surface_sphere : forall p, between_poles p -> forall lon, position (fst p) lon 0 (stretch (up (to_degrees (parametric p), lon))).
Proof.
  intros p B lon. pose proof (param_pos p) as C. pose proof (cs1 (parametric p)) as E. pose proof (surface_of (cos (parametric p)) (sin (parametric p)) ltac:(lra) E lon) as S.
  unfold up. rewrite deg_to. assert (T : atan2 (sin (parametric p)) ((1 - WGS84_F) * cos (parametric p)) = deg (fst p)).
  { pose proof (cos_lat p B) as CL. pose proof F_bound as FB. pose proof (lat_open (fst p) B) as L.
    rewrite param_sin, <- F_flat. set (c := cos (parametric p)) in *. unfold tan.
    replace ((1 - WGS84_F) * (sin (deg (fst p)) / cos (deg (fst p))) * c) with ((1 - WGS84_F) * c / cos (deg (fst p)) * sin (deg (fst p))) by (field; lra).
    replace ((1 - WGS84_F) * c) with ((1 - WGS84_F) * c / cos (deg (fst p)) * cos (deg (fst p))) at 2 by (field; lra).
    apply atan2_polar; [|pose proof PI_pos; lra]. unfold Rdiv. apply Rmult_lt_0_compat; [nra|apply Rinv_0_lt_compat; assumption]. }
  rewrite T, degrees_deg in S. assumption.
Qed.
Lemma lat_of_surface : forall lat lat' lon v, -90 < lat < 90 -> -90 <= lat' <= 90 -> position lat lon 0 v -> position lat' lon 0 v -> lat = lat'.
Proof.
  intros lat lat' lon v L L' P P'.
  destruct (to_position lat lon 0) as (w & E & W). rewrite (position_unique _ _ _ _ _ P W) in P'. clear P W v.
  destruct (to_position lat' lon 0) as (w' & E' & W'). rewrite (position_unique _ _ _ _ _ P' W') in E. clear P' W' w.
  rewrite to_ecef in E, E'. cbv zeta in E, E'. rewrite <- E' in E. symmetry in E. injection E as E1 E2 E3. rewrite !radians_deg in *. rewrite !Rplus_0_r in *.
  pose proof (lat_open lat L) as T. pose proof (lat_range lat' L') as T'. pose proof (NN_pos (deg lat)) as N. pose proof (NN_pos (deg lat')) as N'.
  set (t := deg lat) in *. set (t' := deg lat') in *. pose proof (cs1 (deg lon)) as CL.
  assert (X : NN t' * cos t' = NN t * cos t).
  { transitivity ((NN t' * cos t') * (cos (deg lon) ^ 2 + sin (deg lon) ^ 2)); [rewrite CL; ring|].
    transitivity ((NN t' * cos t' * cos (deg lon)) * cos (deg lon) + (NN t' * cos t' * sin (deg lon)) * sin (deg lon)); [ring|]. rewrite E1, E2.
    transitivity ((NN t * cos t) * (cos (deg lon) ^ 2 + sin (deg lon) ^ 2)); [ring|]. rewrite CL. ring. }
  pose proof e2_bound as EB. assert (Y : NN t' * sin t' = NN t * sin t) by (apply (Rmult_eq_reg_r (1 - we_2)); lra). pose proof PI_pos.
  assert (t = t').
  { pose proof (atan2_polar (NN t) t N ltac:(lra)) as A. pose proof (atan2_polar (NN t') t' N' ltac:(lra)) as A'. rewrite X, Y in A'. rewrite <- A, <- A'. reflexivity. }
  rewrite <- (degrees_deg lat), <- (degrees_deg lat'). fold t t'. rewrite H0. reflexivity.
Qed.
(** Nowhere. *)
Lemma direct_zero : forall p b u m, between_poles p -> is_unit u m -> let sa := clairaut p b in exists s1, node p b s1 /\
  w_point_from_bearing_dist p b 0 u TOL MAX_ITER = Ok (fst p, snd p - to_degrees ((1 - VC sa) * FLAT * VC sa * sa ^ 2 * (cos (2 * s1) + VC sa * cos (4 * s1)))).
Proof.
  intros p b u m B HU sa. set (s1 := atan2 ((1 - FLAT) * tan (deg (fst p))) (cos (deg b))). exists s1. split; [apply node_of|].
  assert (B0 : 0 * m / (MINOR * VA (ksq sa)) = 0) by (unfold Rdiv; rewrite !Rmult_0_l; reflexivity).
  pose proof (direct_ok p b 0 u m HU 0) as D. cbv zeta in D. fold sa s1 in D. rewrite B0 in D.
  pose proof (loop_exact 0 (ksq sa) s1 (VD_0 _ _)) as EL. destruct (D EL) as (lam & lat & L & La & P & C & EA & E). clear D.
  rewrite cos_0, sin_0 in EA. rewrite !Rmult_0_l, !Rmult_0_r, Rmult_0_l, Rminus_0_r, Rmult_1_r in EA.
  assert (L0 : lam = 0).
  { rewrite EA. unfold atan2. rewrite Rltb_true by apply param_pos. unfold Rdiv. rewrite Rmult_0_l, atan_0. reflexivity. }
  subst lam. rewrite L0 in *. rewrite travel_0 in P. replace (snd p + to_degrees 0) with (snd p) in P by (unfold to_degrees; field; pose proof PI_pos; lra).
  pose proof (lat_of_surface _ _ _ _ B La (surface_sphere p B (snd p)) P) as EL2. rewrite <- EL2 in E. rewrite E. f_equal. f_equal.
  rewrite VD_0. unfold code_shortfall. rewrite !Rplus_0_r, cos_0, Rplus_0_l, degrees_plus, degrees_deg, degrees_to.
  replace (4 * s1) with (2 * (2 * s1)) by ring. rewrite (cos_2' (2 * s1)). unfold to_degrees. field. pose proof PI_pos. lra.
Qed.
Lemma atan2_zero : forall x, atan2 0 x = 0 \/ atan2 0 x = PI.
Proof.
  intro x. unfold atan2. replace (0 / x) with 0 by (unfold Rdiv; ring). rewrite atan_0, !(Rltb_false 0 0), (Rleb_true 0 0) by lra.
  destruct (Rltb 0 x); [left; reflexivity|]. destruct (Rltb x 0); [right; ring|left; reflexivity].
Qed.
Lemma direct_meridian : forall p b d u m, is_unit u m -> sin (deg b) = 0 -> exists lat lon, w_point_from_bearing_dist p b d u TOL MAX_ITER = Ok (lat, lon) /\
  (lon = snd p \/ lon = snd p + 180).
Proof.
  intros p b d u m HU SB0. pose proof (clairaut_bound p b) as SB. pose proof (ksq_bound _ SB) as KB.
  set (sa := clairaut p b) in *. set (k := ksq sa) in *. set (s1 := atan2 ((1 - FLAT) * tan (deg (fst p))) (cos (deg b))). set (base := d * m / (MINOR * VA k)).
  destruct (loop_default base k s1 KB) as (sg & EL & TS).
  destruct (direct_ok p b d u m HU sg EL) as (lam & lat & L & La & P & _ & EA & E). fold sa k s1 base in E.
  assert (S0 : sa = 0) by (unfold sa, clairaut; rewrite SB0; ring). rewrite E. eexists. eexists. split; [reflexivity|].
  unfold code_shortfall. rewrite S0, !Rmult_0_r, Rmult_0_l, Rminus_0_r, degrees_plus, degrees_deg. rewrite SB0, Rmult_0_r in EA.
  pose proof PI_pos. destruct (atan2_zero (cos (parametric p) * cos sg - sin (parametric p) * sin sg * cos (deg b))) as [Z|Z]; rewrite Z in EA; rewrite EA; [left|right]; unfold degrees; field; lra.
Qed.
Lemma VB_0 : VB 0 = 0. Proof. unfold VB. field. Qed.
Lemma direct_equator : forall lon b d u m, is_unit u m -> b = 90 \/ b = -90 -> 0 <= d * m < PI * MINOR ->
  w_point_from_bearing_dist (0, lon) b d u TOL MAX_ITER = Ok (0, lon + to_degrees (b / 90 * (d * m / MAJOR))).
Proof.
  intros lon b d u m HU Hb HD. set (p := (0, lon) : place).
  assert (Sb : sin (deg b) = b / 90 /\ cos (deg b) = 0).
  { destruct Hb as [-> | ->]; [rewrite deg_90, sin_PI2, cos_PI2; split; lra|]. replace (deg (-90)) with (- (PI / 2)) by (unfold deg; field). rewrite sin_neg, cos_neg, sin_PI2, cos_PI2. split; lra. }
  destruct Sb as [Sb Cb]. assert (P0 : parametric p = 0) by (unfold parametric, p; cbn [fst]; rewrite deg_0, tan_0, Rmult_0_r; apply atan_0).
  assert (SA : clairaut p b = b / 90) by (unfold clairaut; rewrite P0, cos_0, Sb; ring).
  assert (S2 : clairaut p b ^ 2 = 1) by (rewrite SA; destruct Hb as [-> | ->]; lra).
  assert (K0 : ksq (clairaut p b) = 0) by (unfold ksq; rewrite S2; ring).
  assert (A1 : VA 0 = 1) by (unfold VA; field). assert (V0 : forall s1 s, VD 0 s1 s = 0) by (intros; unfold VD; rewrite VB_0; field).
  pose proof MINOR_pos as M0. pose proof PI_pos as PP. pose proof MAJOR_pos as MM.
  set (sg := d * m / MINOR). assert (SG : 0 <= sg < PI).
  { unfold sg, Rdiv. assert (0 < / MINOR) by (apply Rinv_0_lt_compat; assumption). split; [nra|]. apply (Rmult_lt_reg_r MINOR); [assumption|]. rewrite Rmult_assoc, Rinv_l by lra. lra. }
  pose proof (direct_ok p b d u m HU sg) as D. cbv zeta in D. rewrite K0, A1, Rmult_1_r in D. fold sg in D.
  specialize (D (loop_exact sg 0 _ (V0 _ _))). destruct D as (lam & lat & L & La & P & _ & EA & E).
  rewrite P0, Cb, cos_0, sin_0 in EA. replace (1 * cos sg - 0 * sin sg * 0) with (cos sg) in EA by ring.
  assert (LE : lam = b / 90 * sg).
  { rewrite EA, Sb. destruct (Req_dec sg 0) as [Z|Z].
    - rewrite Z, sin_0, cos_0, Rmult_0_l, Rmult_0_r. unfold atan2. rewrite Rltb_true by lra. unfold Rdiv. rewrite Rmult_0_l. apply atan_0.
    - replace (sin sg * (b / 90)) with (1 * sin (b / 90 * sg)). 2:{ destruct Hb as [-> | ->]; [replace (90 / 90 * sg) with sg by field; field|]. replace (-90 / 90 * sg) with (- sg) by field. rewrite sin_neg. field. }
      replace (cos sg) with (1 * cos (b / 90 * sg)). 2:{ destruct Hb as [-> | ->]; [replace (90 / 90 * sg) with sg by field; ring|]. replace (-90 / 90 * sg) with (- sg) by field. rewrite cos_neg. ring. }
      apply atan2_polar; [lra|]. destruct Hb as [-> | ->]; lra. }
  assert (BP : between_poles p) by (unfold between_poles, p; cbn [fst]; lra).
  assert (TU : travel (on_sphere p) b sg = up (to_degrees (parametric p), snd p + to_degrees lam)).
  { unfold on_sphere, travel, heading, mix, up, north, east. rewrite !deg_plus, !deg_to, P0, Cb, Sb, sin_0, cos_0, LE, cos_plus, sin_plus.
    assert (CC : cos (b / 90 * sg) = cos sg) by (destruct Hb as [-> | ->]; [f_equal; field|replace (-90 / 90 * sg) with (- sg) by field; apply cos_neg]).
    assert (SS : sin (b / 90 * sg) = b / 90 * sin sg) by (destruct Hb as [-> | ->]; [replace (90 / 90 * sg) with sg by field; field|replace (-90 / 90 * sg) with (- sg) by field; rewrite sin_neg; field]).
    rewrite CC, SS. f_equal; [f_equal|]; ring. }
  rewrite TU in P. pose proof (lat_of_surface _ _ _ _ BP La (surface_sphere p BP _) P) as LL. cbn [fst p] in LL. rewrite <- LL in E.
  fold p. rewrite E. f_equal. f_equal. rewrite degrees_plus, degrees_deg, degrees_to. cbn [snd p]. f_equal. f_equal.
  unfold code_shortfall. rewrite V0. assert (C0 : VC (clairaut p b) = 0) by (unfold VC; cbv zeta; rewrite S2; field). rewrite C0, SA, LE, Rplus_0_r.
  unfold sg, MINOR. field. unfold MAJOR, FLAT. lra.
Qed.

(** ** Distance and bearing *)
Lemma round_int_close : forall y, Rabs (IZR (round_int y) - y) <= 1 / 2.
Proof.
  intro y. unfold round_int. cbv zeta. destruct (base_Int_part y) as [B1 B2]. set (n := Int_part y) in *.
  unfold Rltb. destruct (Rlt_dec (y - IZR n) (1 / 2)); [apply Rabs_le; lra|]. destruct (Rlt_dec (1 / 2) (y - IZR n)); [rewrite plus_IZR; apply Rabs_le; lra|].
  destruct (Z.even n); [apply Rabs_le; lra|rewrite plus_IZR; apply Rabs_le; lra].
Qed.
Lemma round_int_nonneg : forall y, 0 <= y -> (0 <= round_int y)%Z.
Proof.
  intros y H. pose proof (round_int_close y) as C.
  assert (L : - (1 / 2) <= IZR (round_int y) - y) by (pose proof (Rle_abs (- (IZR (round_int y) - y))); rewrite Rabs_Ropp in H0; lra).
  apply le_IZR. assert (X : -1 < IZR (round_int y)) by lra. apply lt_IZR in X. apply IZR_le. lia.
Qed.
Lemma round6_close : forall x, Rabs (round6 x - x) <= 1 / 2000000.
Proof.
  intro x. unfold round6. pose proof (round_int_close (x * 1000000)) as H. set (z := IZR (round_int (x * 1000000))) in *.
  replace (z / 1000000 - x) with ((z - x * 1000000) * (1 / 1000000)) by field. rewrite Rabs_mult, (Rabs_right (1 / 1000000)) by lra. lra.
Qed.
Lemma round6_nonneg : forall x, 0 <= x -> 0 <= round6 x.
Proof. intros x H. unfold round6. pose proof (round_int_nonneg (x * 1000000) ltac:(lra)) as Z. apply IZR_le in Z. lra. Qed.

Definition sphere_q (q : place) (lon : R) : place := (to_degrees (parametric q), lon).
Lemma radians_to : forall x, radians (to_degrees x) = x.
Proof. intro x. rewrite radians_deg. apply deg_to. Qed.
Lemma param_code : forall p, atan ((1 - WGS84_F) * tan (radians (fst p))) = parametric p.
Proof. intro p. rewrite F_flat, radians_deg. reflexivity. Qed.
Section Round.
Variables p q : place.
Variables delta lam : R.
Let u1 := parametric p.
Let u2 := parametric q.
Let q' := sphere_q q (snd p + to_degrees lam).
Let sg := angle (on_sphere p) q'.
Let b := GeoModel.bearing (on_sphere p) q'.
Lemma r_dlon : radians (snd q') - radians (snd (on_sphere p)) = lam.
Proof. unfold q', sphere_q, on_sphere. cbn [snd]. rewrite !radians_deg, deg_plus, deg_to. ring. Qed.
Lemma r_bearing : rmod (degrees (atan2 (cos u2 * sin lam) (cos u1 * sin u2 - sin u1 * cos u2 * cos lam))) 360 = b.
Proof.
  unfold b, GeoModel.bearing. rewrite r_dlon. unfold q', sphere_q, on_sphere. cbn [fst]. rewrite !radians_to. fold u1 u2.
  rewrite (Rmult_comm (sin lam)). reflexivity.
Qed.
Lemma r_travel : up q' = travel (on_sphere p) b sg.
Proof. apply bearing_ok. Qed.
Lemma r_cos : cos sg = sin u1 * sin u2 + cos u1 * cos u2 * cos lam.
Proof.
  destruct (sin_angle (on_sphere p) q') as [_ C]. fold sg in C. rewrite C. unfold q', sphere_q, on_sphere, up, dot. rewrite deg_plus, !deg_to. fold u1 u2. rewrite cos_plus, sin_plus.
  pose proof (cs1 (deg (snd p))) as E. transitivity (sin u1 * sin u2 + cos u1 * cos u2 * cos lam * (cos (deg (snd p)) ^ 2 + sin (deg (snd p)) ^ 2)); [ring|rewrite E; ring].
Qed.
Lemma r_sin_sq : (cos u2 * sin lam) ^ 2 + (cos u1 * sin u2 - sin u1 * cos u2 * cos lam) ^ 2 = sin sg ^ 2.
Proof.
  pose proof (cs1 sg) as E. replace (sin sg ^ 2) with (1 - cos sg ^ 2) by lra. rewrite r_cos. pose proof (cs1 u1). pose proof (cs1 u2). pose proof (cs1 lam).
  replace ((cos u2 * sin lam) ^ 2) with (cos u2 ^ 2 * (1 - cos lam ^ 2)) by (replace (1 - cos lam ^ 2) with (sin lam ^ 2) by lra; ring).
  transitivity (cos u2 ^ 2 - cos u2 ^ 2 * cos lam ^ 2 + ((cos u1 ^ 2 + sin u1 ^ 2) * sin u2 ^ 2 + (cos u1 ^ 2 + sin u1 ^ 2) * cos u2 ^ 2 * cos lam ^ 2) - (sin u1 * sin u2 + cos u1 * cos u2 * cos lam) ^ 2); [ring|].
  rewrite H. replace (sin u2 ^ 2) with (1 - cos u2 ^ 2) by lra. ring.
Qed.
Lemma r_bound : 0 <= sg <= PI. Proof. apply angle_bound. Qed.
Lemma r_sin_pos : 0 <= sin sg. Proof. apply sin_ge_0; apply r_bound. Qed.
Lemma r_sinb : sin sg * sin (deg b) = cos u2 * sin lam /\ sin sg * cos (deg b) = cos u1 * sin u2 - sin u1 * cos u2 * cos lam.
Proof.
  pose proof r_travel as T. destruct (coords (on_sphere p) q') as [C1 C2].
  rewrite r_dlon in C1, C2. assert (F1 : radians (fst (on_sphere p)) = u1) by apply radians_to. assert (F2 : radians (fst q') = u2) by apply radians_to.
  rewrite F1, F2 in C1. rewrite F2 in C2.
  rewrite T in C1, C2. unfold travel, heading in C1, C2. rewrite !dot_mix_r in C1, C2.
  rewrite (dot_comm (north _) (up _)), up_north, north_unit, north_east in C1. rewrite (dot_comm (east _) (up _)), up_east, (dot_comm (east _) (north _)), north_east, east_unit in C2.
  split; lra.
Qed.
Let sa := clairaut p b.
Let s1 := atan2 ((1 - FLAT) * tan (deg (fst p))) (cos (deg b)).
Lemma r_node : node p b s1. Proof. apply node_of. Qed.
Lemma r_sa : 0 < sin sg -> cos u1 * cos u2 * sin lam / sin sg = sa.
Proof. intro S. destruct r_sinb as [E _]. unfold sa, clairaut. fold u1. rewrite (Rmult_assoc (cos u1)), <- E. field. lra. Qed.
Lemma r_mid : 1 - sa ^ 2 <> 0 -> cos sg - 2 * sin u1 * sin u2 / (1 - sa ^ 2) = cos (2 * s1 + sg).
Proof.
  intro N. destruct r_node as [N1 N2]. fold sa u1 in N1, N2. pose proof (clairaut_bound p b) as SB. fold sa in SB.
  assert (P : 0 <= 1 - sa ^ 2) by nra. set (ca := sqrt (1 - sa ^ 2)) in *. assert (C2 : ca ^ 2 = 1 - sa ^ 2) by (apply sqrt_pow2'; assumption).
  assert (S2 : sin u2 = ca * sin (s1 + sg)).
  { destruct r_sinb as [_ E2]. rewrite sin_plus. transitivity (sin u1 * cos sg + sin sg * (cos u1 * cos (deg b))); [|rewrite N1, N2; ring].
    replace (sin sg * (cos u1 * cos (deg b))) with (cos u1 * (sin sg * cos (deg b))) by ring. rewrite E2, r_cos.
    pose proof (cs1 u1) as E. transitivity ((cos u1 ^ 2 + sin u1 ^ 2) * sin u2); [rewrite E; ring|ring]. }
  rewrite S2. replace (2 * sin u1 * (ca * sin (s1 + sg)) / (1 - sa ^ 2)) with (2 * sin s1 * sin (s1 + sg)) by (rewrite N1, <- C2; field; intro Z; apply N; rewrite <- C2, Z; ring).
  replace (2 * s1 + sg) with (s1 + (s1 + sg)) by ring. rewrite (cos_plus s1 (s1 + sg)). replace (cos sg) with (cos ((s1 + sg) - s1)) by (f_equal; ring). rewrite cos_minus. ring.
Qed.
Lemma round_ok : 0 < sin sg -> exists m, (1 - sa ^ 2 <> 0 -> m = cos (2 * s1 + sg)) /\
  inverse_round (sin u1) (cos u1) (sin u2) (cos u2) delta lam = Ok
   {| r_sin_lambda := sin lam; r_cos_lambda := cos lam; r_sin_sigma := sin sg; r_cos_sigma := cos sg; r_sigma := sg;
      r_cos_sq_alpha := 1 - sa ^ 2; r_cos2_sigma_m := m; r_next := delta + shortfall sa s1 sg |}.
Proof.
  intro S. unfold inverse_round. rewrite rsqrt_ok by (rewrite r_sin_sq; nra). cbv beta iota delta [bind]. rewrite r_sin_sq, (sqrt_unique' (sin sg)) by (try reflexivity; lra).
  rewrite rdiv_ok by lra. rewrite r_sa by assumption. rewrite <- r_cos. replace (atan2 (sin sg) (cos sg)) with sg.
  2:{ symmetry. pose proof (atan2_polar 1 sg ltac:(lra)) as A. rewrite !Rmult_1_l in A. apply A. pose proof r_bound. pose proof PI_pos. lra. }
  rewrite VC_horner. pose proof (clairaut_bound p b) as SB. fold sa in SB. eexists. split; [|f_equal; f_equal].
  - intro N. rewrite rdiv_ok by assumption. apply r_mid. assumption.
  - f_equal. unfold shortfall. rewrite F_flat.
    replace (4 * s1 + 2 * sg) with (2 * (2 * s1 + sg)) by ring. rewrite cos_2', sin_2a. destruct (Req_dec (1 - sa ^ 2) 0) as [Z|Z].
    + assert (C0 : VC sa = 0) by (unfold VC; cbv zeta; rewrite Z; field). rewrite C0. field.
    + rewrite rdiv_ok by assumption. rewrite r_mid by assumption. field.
Qed.
Lemma round_err : sin sg = 0 -> inverse_round (sin u1) (cos u1) (sin u2) (cos u2) delta lam = Err DivisionErr.
Proof.
  intro S. unfold inverse_round. rewrite rsqrt_ok by (rewrite r_sin_sq; nra). cbv beta iota delta [bind]. rewrite r_sin_sq, (sqrt_unique' 0) by (try lra; rewrite S; ring).
  rewrite rdiv_zero. reflexivity.
Qed.
Lemma round_metres : forall m r, (1 - sa ^ 2 <> 0 -> m = cos (2 * s1 + sg)) -> r_sin_sigma r = sin sg -> r_cos_sigma r = cos sg -> r_sigma r = sg ->
  r_cos_sq_alpha r = 1 - sa ^ 2 -> r_cos2_sigma_m r = m -> inverse_metres r = round6 (arc_length sa s1 sg).
Proof.
  intros m r HM E1 E2 E3 E4 E5. unfold inverse_metres. rewrite E1, E2, E3, E4, E5, ksq_code, VA_horner, VB_horner, B_minor. unfold arc_length. f_equal. f_equal. f_equal.
  destruct (Req_dec (1 - sa ^ 2) 0) as [Z|Z].
  - assert (K0 : ksq sa = 0) by (unfold ksq; rewrite Z; ring). rewrite K0. unfold VD. rewrite VB_0. field.
  - rewrite (HM Z), <- delta_series. reflexivity.
Qed.
End Round.
Lemma sin_sg_cases : forall p q lam, let sg := angle (on_sphere p) (sphere_q q (snd p + to_degrees lam)) in sin sg = 0 \/ 0 < sin sg.
Proof. intros p q lam sg. pose proof (r_sin_pos p q lam). fold sg in H. lra. Qed.
Lemma inverse_loop_last : forall p q delta n tol lam r, inverse_loop n tol (sin (parametric p)) (cos (parametric p)) (sin (parametric q)) (cos (parametric q)) delta lam = Ok r ->
  exists l, inverse_round (sin (parametric p)) (cos (parametric p)) (sin (parametric q)) (cos (parametric q)) delta l = Ok r /\ Rabs (r_next r - l) < tol.
Proof.
  intros p q delta. induction n as [|n IH]; intros tol lam r H; [discriminate|]. cbn [inverse_loop] in H.
  destruct (inverse_round _ _ _ _ delta lam) as [r0|] eqn:E; [|discriminate]. cbv beta iota delta [bind] in H.
  unfold Rltb in H. destruct (Rlt_dec (Rabs (r_next r0 - lam)) tol) as [L|L]; [injection H as <-; exists lam; split; assumption|]. apply (IH _ _ _ H).
Qed.
Lemma same_point : forall p q : place, (Rzero (fst p - fst q) && Rzero (snd p - snd q))%bool = true <-> p = q.
Proof.
  intros [a b] [c d]. cbn [fst snd]. rewrite andb_true_iff. unfold Rzero. destruct (Req_EM_T (a - c) 0), (Req_EM_T (b - d) 0); split; intro H; try (destruct H; discriminate); try (split; reflexivity); try (injection H; intros; exfalso; lra).
  f_equal; lra.
Qed.
Definition s1_of (p : place) (b : R) : R := atan2 ((1 - FLAT) * tan (deg (fst p))) (cos (deg b)).
Lemma inverse_spec' : forall p q u m tol n d b, is_unit u m -> between_poles q -> p <> q -> w_distance_and_bearing p q u tol n = Ok (d, b) ->
  exists sg lam, 0 < sg < PI /\ 0 <= b < 360 /\ Rabs (arc_length (clairaut p b) (s1_of p b) sg - d * m) <= 1 / 2000000 /\
    up (to_degrees (parametric q), snd p + to_degrees lam) = travel (on_sphere p) b sg /\
    Rabs (deg (snd q - snd p) - (lam - shortfall (clairaut p b) (s1_of p b) sg)) < tol /\
    d = round6 (arc_length (clairaut p b) (s1_of p b) sg) / m.
Proof.
  intros p q u m tol n d b HU BQ NE H. unfold w_distance_and_bearing in H.
  destruct (Rzero (fst p - fst q) && Rzero (snd p - snd q))%bool eqn:E; [apply same_point in E; contradiction|]. rewrite !param_code in H.
  destruct (inverse_loop _ _ _ _ _ _ _ _) as [r|] eqn:EL in H; [|discriminate]. cbv beta iota delta [bind] in H.
  destruct (inverse_loop_last _ _ _ _ _ _ _ EL) as (lam & ER & T). destruct (unit_of u m HU) as (M0 & MU & _). rewrite MU in H.
  destruct (sin_sg_cases p q lam) as [Z|Z]; [rewrite (round_err p q _ lam Z) in ER; discriminate|].
  destruct (round_ok p q (radians (snd q - snd p)) lam Z) as (mm & HM & ER'). rewrite ER in ER'. injection ER' as ER'.
  set (sg := angle (on_sphere p) (sphere_q q (snd p + to_degrees lam))) in *. set (bb := GeoModel.bearing (on_sphere p) (sphere_q q (snd p + to_degrees lam))) in *.
  rewrite (round_metres p q lam mm r HM) in H by (rewrite ER'; reflexivity).
  assert (EB : r_sin_lambda r = sin lam /\ r_cos_lambda r = cos lam) by (rewrite ER'; split; reflexivity). destruct EB as [-> ->] in H.
  rewrite r_bearing in H. fold bb sg in H. injection H as Hd <-.
  fold (s1_of p bb) in *. exists sg, lam. pose proof (r_bound p q lam) as SB. fold sg in SB. pose proof PI_pos as PP.
  split. { split; [destruct (Req_dec sg 0) as [Y|Y]; [rewrite Y, sin_0 in Z; lra|lra]|destruct (Req_dec sg PI) as [Y|Y]; [rewrite Y, sin_PI in Z; lra|lra]]. }
  split; [apply bearing_ok|]. assert (DM : d * m = round6 (arc_length (clairaut p bb) (s1_of p bb) sg)) by (rewrite <- Hd; field; lra).
  split; [rewrite DM, Rabs_minus_sym; apply round6_close|]. split; [apply (r_travel p q lam)|]. split; [|rewrite <- DM; field; lra].
  rewrite ER' in T. cbn [r_next] in T. rewrite radians_deg in T.
  replace (deg (snd q - snd p) - (lam - shortfall (clairaut p bb) (s1_of p bb) sg)) with (deg (snd q - snd p) + shortfall (clairaut p bb) (s1_of p bb) sg - lam) by ring. assumption.
Qed.
Lemma arc_nonneg : forall sa s1 sg, -1 <= sa <= 1 -> 0 <= sg -> 0 <= arc_length sa s1 sg.
Proof.
  intros sa s1 sg SA S. unfold arc_length. pose proof (ksq_bound sa SA) as K. pose proof (VA_bound _ K). pose proof MINOR_pos.
  pose proof (VD_small (ksq sa) s1 sg K) as V. rewrite (Rabs_right sg) in V by lra. pose proof (Rle_abs (VD (ksq sa) s1 sg)). apply Rmult_le_pos; [nra|lra].
Qed.
Lemma rmod_small : forall a, 0 <= a < 360 -> rmod a 360 = a.
Proof.
  intros a H. unfold rmod. destruct (base_Int_part (a / 360)) as [B1 B2]. set (n := Int_part (a / 360)) in *.
  assert (N : n = 0%Z). { assert (X : -1 < IZR n) by lra. assert (Y : IZR n < 1) by lra. apply lt_IZR in X. apply lt_IZR in Y. lia. }
  rewrite N. ring.
Qed.

(** ** Symmetry *)
Definition alike (r r' : round_) : Prop := r_sin_sigma r = r_sin_sigma r' /\ r_cos_sigma r = r_cos_sigma r' /\ r_sigma r = r_sigma r' /\
  r_cos_sq_alpha r = r_cos_sq_alpha r' /\ r_cos2_sigma_m r = r_cos2_sigma_m r' /\ r_next r = - r_next r'.
Definition both (x y : res round_) : Prop := match x, y with Ok r, Ok r' => alike r r' | Err e, Err e' => e = e' | _, _ => False end.
Lemma both_rounds : forall p q delta lam,
  both (inverse_round (sin (parametric p)) (cos (parametric p)) (sin (parametric q)) (cos (parametric q)) delta lam)
       (inverse_round (sin (parametric q)) (cos (parametric q)) (sin (parametric p)) (cos (parametric p)) (- delta) (- lam)).
Proof.
  intros p q delta lam. unfold inverse_round. rewrite sin_neg, cos_neg.
  set (a := sin (parametric p)). set (b := cos (parametric p)). set (c := sin (parametric q)). set (d := cos (parametric q)).
  pose proof (r_sin_sq p q lam) as Q. fold a b c d in Q.
  assert (Q' : (b * - sin lam) ^ 2 + (d * a - c * b * cos lam) ^ 2 = (d * sin lam) ^ 2 + (b * c - a * d * cos lam) ^ 2).
  { pose proof (cs1 (parametric p)) as E1. pose proof (cs1 (parametric q)) as E2. fold a b in E1. fold c d in E2. pose proof (cs1 lam) as E3.
    replace ((b * - sin lam) ^ 2) with (b ^ 2 * sin lam ^ 2) by ring. replace ((d * sin lam) ^ 2) with (d ^ 2 * sin lam ^ 2) by ring. replace (sin lam ^ 2) with (1 - cos lam ^ 2) by lra.
    assert (A2 : a ^ 2 = 1 - b ^ 2) by lra. assert (C2 : c ^ 2 = 1 - d ^ 2) by lra.
    transitivity (b ^ 2 - b ^ 2 * cos lam ^ 2 + (d ^ 2 * a ^ 2 - 2 * a * b * c * d * cos lam + c ^ 2 * b ^ 2 * cos lam ^ 2)); [ring|].
    transitivity (d ^ 2 - d ^ 2 * cos lam ^ 2 + (b ^ 2 * c ^ 2 - 2 * a * b * c * d * cos lam + a ^ 2 * d ^ 2 * cos lam ^ 2)); [|ring]. rewrite A2, C2. ring. }
  rewrite Q'. rewrite rsqrt_ok by (rewrite Q; nra). cbv beta iota delta [bind]. set (ss := sqrt ((d * sin lam) ^ 2 + (b * c - a * d * cos lam) ^ 2)).
  destruct (Req_dec ss 0) as [Z|Z]; [rewrite Z, !rdiv_zero; reflexivity|]. rewrite !(rdiv_ok _ ss) by assumption.
  replace (c * a + d * b * cos lam) with (a * c + b * d * cos lam) by ring. replace (d * b * - sin lam / ss) with (- (b * d * sin lam / ss)) by (field; assumption).
  set (sa := b * d * sin lam / ss). replace ((- sa) ^ 2) with (sa ^ 2) by ring. replace (2 * c * a) with (2 * a * c) by ring.
  cbv [both alike r_sin_sigma r_cos_sigma r_sigma r_cos_sq_alpha r_cos2_sigma_m r_next]. do 5 (split; [reflexivity|]). ring.
Qed.
Lemma both_loops : forall p q n tol delta lam,
  both (inverse_loop n tol (sin (parametric p)) (cos (parametric p)) (sin (parametric q)) (cos (parametric q)) delta lam)
       (inverse_loop n tol (sin (parametric q)) (cos (parametric q)) (sin (parametric p)) (cos (parametric p)) (- delta) (- lam)).
Proof.
  intros p q. induction n as [|n IH]; intros tol delta lam; [reflexivity|]. cbn [inverse_loop]. pose proof (both_rounds p q delta lam) as B.
  destruct (inverse_round (sin (parametric p)) _ _ _ _ _) as [r|e]; destruct (inverse_round (sin (parametric q)) _ _ _ _ _) as [r'|e']; cbn in B; try contradiction; [|exact B].
  cbv beta iota delta [bind]. destruct B as (B1 & B2 & B3 & B4 & B5 & B6).
  assert (D : Rabs (r_next r' - - lam) = Rabs (r_next r - lam)). { rewrite B6. replace (r_next r' - - lam) with (- (- r_next r' - lam)) by ring. apply Rabs_Ropp. }
  rewrite D. destruct (Rltb (Rabs (r_next r - lam)) tol); [repeat split; assumption|].
  replace (r_next r') with (- r_next r) by (rewrite B6; ring). apply IH.
Qed.
Lemma distance_sym : forall p q u tol n, w_distance p q u tol n = w_distance q p u tol n.
Proof.
  intros p q u tol n. unfold w_distance, w_distance_and_bearing. rewrite !param_code.
  destruct (Rzero (fst p - fst q) && Rzero (snd p - snd q))%bool eqn:E.
  - apply same_point in E. subst q. destruct (Rzero (fst p - fst p) && Rzero (snd p - snd p))%bool eqn:E2; [reflexivity|]. exfalso. assert (p = p) as X by reflexivity. apply same_point in X. congruence.
  - destruct (Rzero (fst q - fst p) && Rzero (snd q - snd p))%bool eqn:E2; [apply same_point in E2; subst q; assert (p = p) as X by reflexivity; apply same_point in X; congruence|].
    pose proof (both_loops p q n tol (radians (snd q - snd p)) (radians (snd q - snd p))) as B.
    replace (- radians (snd q - snd p)) with (radians (snd p - snd q)) in B by (unfold radians; ring).
    destruct (inverse_loop _ _ (sin (parametric p)) _ _ _ _ _) as [r|e]; destruct (inverse_loop _ _ (sin (parametric q)) _ _ _ _ _) as [r'|e']; cbn in B; try contradiction; cbv beta iota delta [bind]; [|rewrite B; reflexivity].
    destruct B as (B1 & B2 & B3 & B4 & B5 & B6). replace (inverse_metres r') with (inverse_metres r) by (unfold inverse_metres; rewrite B1, B2, B3, B4, B5; reflexivity).
    destruct (unit_convert (inverse_metres r) "m" u); reflexivity.
Qed.

(** ** Where it ends, where it does not *)
Lemma inverse_meridian : forall p q u m n, is_unit u m -> between_poles p -> between_poles q -> snd p = snd q -> fst p <> fst q ->
  exists d, w_distance_and_bearing p q u TOL (S n) = Ok (d, if Rlt_dec (fst p) (fst q) then 0 else 180).
Proof.
  intros p q u m n HU BP BQ SL NL. unfold w_distance_and_bearing. rewrite !param_code.
  destruct (Rzero (fst p - fst q) && Rzero (snd p - snd q))%bool eqn:E; [apply same_point in E; subst q; contradiction|]. clear E.
  rewrite <- SL, Rminus_diag_eq by reflexivity. replace (radians 0) with 0 by (unfold radians; ring).
  set (u1 := parametric p). set (u2 := parametric q).
  assert (MON : forall a b, -90 < fst a < 90 -> -90 < fst b < 90 -> fst a < fst b -> - (PI / 2) < parametric a /\ parametric a < parametric b /\ parametric b < PI / 2).
  { intros a b BA BB L. pose proof (lat_open _ BA) as TA. pose proof (lat_open _ BB) as TB. pose proof PI_pos. pose proof FLAT_bound. unfold parametric.
    pose proof (atan_bound ((1 - FLAT) * tan (deg (fst a)))). pose proof (atan_bound ((1 - FLAT) * tan (deg (fst b)))). split; [lra|]. split; [|lra].
    apply atan_increasing. apply Rmult_lt_compat_l; [lra|]. apply tan_increasing; [lra|unfold deg; nra|lra]. }
  assert (DS : cos u1 * sin u2 - sin u1 * cos u2 = sin (u2 - u1)) by (rewrite sin_minus; ring).
  assert (SN : 0 < Rabs (sin (u2 - u1)) /\ (fst p < fst q -> 0 < sin (u2 - u1)) /\ (fst q < fst p -> sin (u2 - u1) < 0)).
  { pose proof PI_pos. destruct (Rtotal_order (fst p) (fst q)) as [L|[L|L]]; [|contradiction|].
    - destruct (MON p q BP BQ L) as (X & Y & W). fold u1 in X, Y. fold u2 in Y, W. assert (0 < sin (u2 - u1)) by (apply sin_gt_0; lra). rewrite Rabs_right by lra. split; [assumption|]. split; intro; lra.
    - destruct (MON q p BQ BP L) as (X & Y & W). fold u1 in W, Y. fold u2 in Y, X. assert (0 < sin (u1 - u2)) by (apply sin_gt_0; lra).
      replace (u2 - u1) with (- (u1 - u2)) by ring. rewrite sin_neg, Rabs_Ropp, Rabs_right by lra. split; [assumption|]. split; intro; lra. }
  destruct SN as (S0 & SP & SM). cbn [inverse_loop]. unfold inverse_round. rewrite sin_0, cos_0.
  replace ((cos u2 * 0) ^ 2 + (cos u1 * sin u2 - sin u1 * cos u2 * 1) ^ 2) with (Rabs (sin (u2 - u1)) ^ 2) by (rewrite pow2_abs, <- DS; ring).
  rewrite rsqrt_ok by (apply pow2_ge_0). rewrite (sqrt_unique' (Rabs (sin (u2 - u1)))) by (try reflexivity; lra). cbv beta iota delta [bind].
  rewrite rdiv_ok by lra. replace (cos u1 * cos u2 * 0 / Rabs (sin (u2 - u1))) with 0 by (field; lra). cbn [r_next].
  rewrite Rmult_0_r, Rmult_0_l, Rplus_0_r, Rminus_0_r, Rabs_R0, Rltb_true by (rewrite TOL_val; lra).
  cbn [r_sin_lambda r_cos_lambda]. destruct (unit_of u m HU) as (_ & MU & _). rewrite MU. eexists. f_equal. f_equal.
  rewrite Rmult_0_r, Rmult_1_r, DS. pose proof PI_pos. destruct (Rlt_dec (fst p) (fst q)) as [L|L].
  - specialize (SP L). unfold atan2. rewrite Rltb_true by assumption. replace (0 / sin (u2 - u1)) with 0 by (field; lra). rewrite atan_0. unfold degrees. rewrite Rmult_0_l. apply rmod_small. lra.
  - assert (L' : fst q < fst p) by lra. specialize (SM L'). unfold atan2. rewrite Rltb_false, Rltb_true, Rleb_true by lra. replace (0 / sin (u2 - u1)) with 0 by (field; lra). rewrite atan_0, Rplus_0_l.
    unfold degrees. replace (PI * (180 / PI)) with 180 by (field; lra). apply rmod_small. lra.
Qed.
Lemma eq_round : forall delta lam k sg, k = 1 \/ k = -1 -> 0 < sg < PI -> sin lam = k * sin sg -> cos lam = cos sg ->
  inverse_round 0 1 0 1 delta lam = Ok {| r_sin_lambda := sin lam; r_cos_lambda := cos lam; r_sin_sigma := sin sg; r_cos_sigma := cos sg;
    r_sigma := sg; r_cos_sq_alpha := 0; r_cos2_sigma_m := 0; r_next := delta + WGS84_F * k * sg |}.
Proof.
  intros delta lam k sg K SG ES EC. assert (S0 : 0 < sin sg) by (apply sin_gt_0; lra). assert (K2 : k ^ 2 = 1) by (destruct K as [-> | ->]; lra).
  unfold inverse_round. rewrite ES, EC. replace ((1 * (k * sin sg)) ^ 2 + (1 * 0 - 0 * 1 * cos sg) ^ 2) with (sin sg ^ 2) by (transitivity (k ^ 2 * sin sg ^ 2); [rewrite K2; ring|ring]).
  rewrite rsqrt_ok by apply pow2_ge_0. rewrite (sqrt_unique' (sin sg)) by (try reflexivity; lra). cbv beta iota delta [bind].
  rewrite rdiv_ok by lra. replace (1 * 1 * (k * sin sg) / sin sg) with k by (field; lra). rewrite K2. replace (1 - 1) with 0 by ring. rewrite rdiv_zero.
  replace (0 * 0 + 1 * 1 * cos sg) with (cos sg) by ring. replace (atan2 (sin sg) (cos sg)) with sg.
  2:{ symmetry. pose proof (atan2_polar 1 sg ltac:(lra)) as A. rewrite !Rmult_1_l in A. apply A. pose proof PI_pos. lra. }
  f_equal. f_equal. ring.
Qed.
Lemma param_equator : forall l, parametric (0, l) = 0.
Proof. intro l. unfold parametric. cbn [fst]. rewrite deg_0, tan_0, Rmult_0_r. apply atan_0. Qed.
Lemma eq_loop : forall delta, 0 < delta <= deg 179 -> forall n lam, delta <= lam <= delta / (1 - WGS84_F) -> Rabs (lam - (delta + WGS84_F * lam)) < 100 ^ n * TOL -> forall m,
  exists lam', delta <= lam' <= delta / (1 - WGS84_F) /\ Rabs (lam' - (delta + WGS84_F * lam')) < TOL /\
  inverse_loop (S n + m) TOL 0 1 0 1 delta lam = Ok {| r_sin_lambda := sin lam'; r_cos_lambda := cos lam'; r_sin_sigma := sin lam'; r_cos_sigma := cos lam';
    r_sigma := lam'; r_cos_sq_alpha := 0; r_cos2_sigma_m := 0; r_next := delta + WGS84_F * lam' |}.
Proof.
  intros delta D. pose proof F_bound as FB. pose proof PI_pos as PP.
  assert (LIM : delta / (1 - WGS84_F) < PI).
  { apply (Rmult_lt_reg_r (1 - WGS84_F)); [lra|]. unfold Rdiv. rewrite Rmult_assoc, Rinv_l, Rmult_1_r by lra. unfold deg in D. nra. }
  induction n as [|n IH]; intros lam L H m.
  - simpl in H. rewrite Rmult_1_l in H. exists lam. split; [assumption|]. split; [assumption|]. cbn [inverse_loop plus].
    rewrite (eq_round delta lam 1 lam) by (try lra; left; reflexivity). cbv beta iota delta [bind]. cbn [r_next].
    rewrite Rmult_1_r, Rltb_true; [reflexivity|]. rewrite Rabs_minus_sym. assumption.
  - change (S (S n) + m)%nat with (S (S n + m)). cbn [inverse_loop]. rewrite (eq_round delta lam 1 lam) by (try lra; left; reflexivity). cbv beta iota delta [bind]. cbn [r_next].
    rewrite Rmult_1_r. destruct (Rltb (Rabs (delta + WGS84_F * lam - lam)) TOL) eqn:E.
    + exists lam. split; [assumption|]. split; [|reflexivity]. unfold Rltb in E. destruct (Rlt_dec _ _) as [T|]; [rewrite Rabs_minus_sym; assumption|discriminate].
    + apply IH.
      * split; [nra|]. apply (Rmult_le_reg_r (1 - WGS84_F)); [lra|]. unfold Rdiv. rewrite (Rmult_assoc delta), Rinv_l, Rmult_1_r by lra.
        destruct L as [L1 L2]. apply (Rmult_le_compat_r (1 - WGS84_F)) in L2; [|lra]. unfold Rdiv in L2. rewrite (Rmult_assoc delta), Rinv_l, Rmult_1_r in L2 by lra. nra.
      * replace (delta + WGS84_F * lam - (delta + WGS84_F * (delta + WGS84_F * lam))) with (WGS84_F * (lam - (delta + WGS84_F * lam))) by ring.
        rewrite Rabs_mult, (Rabs_right WGS84_F) by lra. simpl in H. pose proof (Rabs_pos (lam - (delta + WGS84_F * lam))). nra.
Qed.
Lemma eq_metres : forall lam, 0 <= lam -> inverse_metres {| r_sin_lambda := sin lam; r_cos_lambda := cos lam; r_sin_sigma := sin lam; r_cos_sigma := cos lam;
    r_sigma := lam; r_cos_sq_alpha := 0; r_cos2_sigma_m := 0; r_next := 0 |} = round6 (MINOR * lam).
Proof. intros lam _. unfold inverse_metres. cbn [r_sin_sigma r_cos_sigma r_sigma r_cos_sq_alpha r_cos2_sigma_m]. rewrite B_minor. f_equal. pose proof MINOR_pos. field. lra. Qed.
Lemma inverse_equator_east : forall l1 l2 u m, is_unit u m -> 0 < l2 - l1 <= 179 ->
  exists d, w_distance_and_bearing (0, l1) (0, l2) u TOL MAX_ITER = Ok (d, 90) /\ Rabs (d * m - MAJOR * deg (l2 - l1)) <= 1 / 100000.
Proof.
  intros l1 l2 u m HU D. unfold w_distance_and_bearing. rewrite !param_code, !param_equator, sin_0, cos_0.
  destruct (Rzero _ && Rzero _)%bool eqn:E; [apply same_point in E; injection E as E; lra|]. clear E. cbn [snd]. rewrite radians_deg.
  pose proof PI_pos as PP. pose proof F_bound as FB. set (delta := deg (l2 - l1)).
  assert (D' : 0 < delta <= deg 179) by (unfold delta, deg; split; nra).
  destruct (eq_loop delta D' 6 delta) with (m := 193%nat) as (lam & L & T & E).
  { split; [lra|]. apply (Rmult_le_reg_r (1 - WGS84_F)); [lra|]. unfold Rdiv. rewrite Rmult_assoc, Rinv_l by lra. nra. }
  { replace (delta - (delta + WGS84_F * delta)) with (- (WGS84_F * delta)) by ring. rewrite Rabs_Ropp, Rabs_right by nra. rewrite TOL_val. unfold deg in D'. pose proof PI_4. nra. }
  change (7 + 193)%nat with MAX_ITER in E. rewrite E. cbv beta iota delta [bind]. cbn [r_sin_lambda r_cos_lambda]. destruct (unit_of u m HU) as (M0 & MU & _). rewrite MU.
  unfold inverse_metres. cbn [r_sin_sigma r_cos_sigma r_sigma r_cos_sq_alpha r_cos2_sigma_m]. pose proof MINOR_pos as MI.
  match goal with |- context [round6 ?x] => replace x with (MINOR * lam) by (rewrite B_minor; field; lra) end.
  exists (round6 (MINOR * lam) / m). split.
  - f_equal. f_equal. replace (1 * 0 - 0 * 1 * cos lam) with 0 by ring. rewrite Rmult_1_l.
    assert (LIM : delta / (1 - WGS84_F) < PI).
    { apply (Rmult_lt_reg_r (1 - WGS84_F)); [lra|]. unfold Rdiv. rewrite Rmult_assoc, Rinv_l, Rmult_1_r by lra. unfold deg in D'. nra. }
    assert (0 < sin lam) by (apply sin_gt_0; lra). unfold atan2. rewrite !(Rltb_false 0 0), (Rltb_true 0 (sin lam)) by lra. unfold degrees. replace (PI / 2 * (180 / PI)) with 90 by (field; lra). apply rmod_small. lra.
  - replace (round6 (MINOR * lam) / m * m) with (round6 (MINOR * lam)) by (field; lra). pose proof (round6_close (MINOR * lam)) as RC.
    assert (X : Rabs (MINOR * lam - MAJOR * delta) <= 7 / 1000000).
    { rewrite <- B_minor, <- A_major. unfold WGS84_B. replace (WGS84_A * (1 - WGS84_F) * lam - WGS84_A * delta) with (WGS84_A * (lam - (delta + WGS84_F * lam))) by ring.
      rewrite Rabs_mult, (Rabs_right WGS84_A) by (pose proof A_pos; lra). rewrite TOL_val in T. unfold WGS84_A. lra. }
    replace (round6 (MINOR * lam) - MAJOR * delta) with ((round6 (MINOR * lam) - MINOR * lam) + (MINOR * lam - MAJOR * delta)) by ring.
    eapply Rle_trans; [apply Rabs_triang|]. lra.
Qed.
Lemma inverse_equator : forall l1 l2 u m, is_unit u m -> Rabs (l2 - l1) <= 179 ->
  exists d, w_distance (0, l1) (0, l2) u TOL MAX_ITER = Ok d /\ Rabs (d * m - MAJOR * deg (Rabs (l2 - l1))) <= 1 / 100000.
Proof.
  intros l1 l2 u m HU H. destruct (Rtotal_order l1 l2) as [L|[L|L]].
  - rewrite (Rabs_right (l2 - l1)) in * by lra. destruct (inverse_equator_east l1 l2 u m HU ltac:(lra)) as (d & E & C). exists d. split; [|assumption]. unfold w_distance. rewrite E. reflexivity.
  - subst l2. exists 0. split.
    + unfold w_distance, w_distance_and_bearing. destruct (Rzero _ && Rzero _)%bool eqn:E; [reflexivity|]. exfalso. assert (X : ((0, l1) : place) = (0, l1)) by reflexivity. apply same_point in X. congruence.
    + replace (l1 - l1) with 0 by ring. rewrite Rabs_R0, deg_0, Rmult_0_r, Rmult_0_l, Rminus_0_r, Rabs_R0. lra.
  - rewrite Rabs_minus_sym, (Rabs_right (l1 - l2)) in * by lra. destruct (inverse_equator_east l2 l1 u m HU ltac:(lra)) as (d & E & C). exists d. split; [|assumption]. rewrite distance_sym. unfold w_distance. rewrite E. reflexivity.
Qed.
(** Nearly opposite on the equator: the rounds alternate. *)
Lemma opposite_loop : forall n lam, 0.99 * PI <= lam <= 0.99945 * PI \/ 1.002 * PI <= lam <= 1.003 * PI ->
  inverse_loop n TOL 0 1 0 1 (deg 179.9) lam = Err ValueErr.
Proof.
  pose proof PI_pos as PP. pose proof F_bound as FB. assert (P3 : 3 < PI) by (pose proof PI2_3_2; lra).
  assert (DD : 0.99944 * PI <= deg 179.9 <= 0.99945 * PI) by (unfold deg; lra). set (D := deg 179.9) in *.
  induction n as [|n IH]; intros lam [L|L]; [reflexivity|reflexivity| |]; cbn [inverse_loop].
  - rewrite (eq_round D lam 1 lam) by (try lra; left; reflexivity). cbv beta iota delta [bind]. cbn [r_next].
    assert (X : 1.002 * PI <= D + WGS84_F * 1 * lam <= 1.003 * PI) by (split; nra).
    rewrite Rltb_false; [apply IH; right; assumption|]. rewrite Rabs_right by lra. rewrite TOL_val. lra.
  - rewrite (eq_round D lam (-1) (2 * PI - lam)).
    + cbv beta iota delta [bind]. cbn [r_next].
      assert (X : 0.99 * PI <= D + WGS84_F * -1 * (2 * PI - lam) <= 0.99945 * PI) by (split; nra).
      rewrite Rltb_false; [apply IH; left; assumption|]. rewrite Rabs_minus_sym, Rabs_right by lra. rewrite TOL_val. lra.
    + right. reflexivity.
    + lra.
    + rewrite sin_minus, sin_2PI, cos_2PI. ring.
    + rewrite cos_minus, sin_2PI, cos_2PI. ring.
Qed.
Lemma opposite_err : forall u n, w_distance_and_bearing (0, 0) (0, 179.9) u TOL n = Err ValueErr.
Proof.
  intros u n. unfold w_distance_and_bearing. rewrite !param_code, !param_equator, sin_0, cos_0.
  destruct (Rzero _ && Rzero _)%bool eqn:E; [apply same_point in E; injection E as E; lra|]. cbn [snd]. rewrite radians_deg, Rminus_0_r, opposite_loop; [reflexivity|].
  left. pose proof PI_pos. unfold deg. lra.
Qed.
Lemma s1_node : forall p b, node p b (s1_of p b). Proof. intros. apply node_of. Qed.
Lemma inverse_spec : forall p q u m tol n d b, is_unit u m -> between_poles q -> p <> q -> w_distance_and_bearing p q u tol n = Ok (d, b) ->
  0 <= d /\ 0 <= b < 360 /\ exists s1 sg lam, 0 < sg < PI /\ latitude_by p b (d * m) (1 / 1000000) q s1 sg lam /\ longitude_by p b tol q s1 sg lam.
Proof.
  intros p q u m tol n d b HU BQ NE H. destruct (inverse_spec' p q u m tol n d b HU BQ NE H) as (sg & lam & SG & B & DM & T & L & DE).
  destruct (unit_of u m HU) as (M0 & _ & _).
  split. { rewrite DE. unfold Rdiv. apply Rmult_le_pos; [|left; apply Rinv_0_lt_compat; assumption]. apply round6_nonneg. apply arc_nonneg; [apply clairaut_bound|lra]. }
  split; [assumption|]. exists (s1_of p b), sg, lam. split; [assumption|]. split.
  - split; [apply s1_node|]. split; [lra|]. rewrite <- T. apply surface_sphere. assumption.
  - unfold longitude_by. lra.
Qed.
Lemma same_inverse : forall p u tol n, w_distance_and_bearing p p u tol n = Ok (0, 0).
Proof. intros p u tol n. unfold w_distance_and_bearing. assert (X : p = p) by reflexivity. apply same_point in X. rewrite X. reflexivity. Qed.

(** ** There and back *)
Lemma shortfall_lip : forall sa s1 x y, -1 <= sa <= 1 -> Rabs (shortfall sa s1 x - shortfall sa s1 y) <= 1 / 100 * Rabs (x - y).
Proof.
  intros sa s1 x y SA. pose proof (VC_bound sa SA) as CB. pose proof FLAT_bound as FB. unfold shortfall. set (C := VC sa) in *.
  assert (F : forall z, z + C * sin z * cos (2 * s1 + z) + C ^ 2 / 2 * sin (2 * z) * cos (4 * s1 + 2 * z) =
    z + C / 2 * (sin (2 * s1 + 2 * z) - sin (2 * s1)) + C ^ 2 / 4 * (sin (4 * s1 + 4 * z) - sin (4 * s1))).
  { intro z. rewrite (Rmult_assoc C), prod_sum. rewrite (Rmult_assoc (C ^ 2 / 2)). replace (4 * s1 + 2 * z) with (2 * (2 * s1) + 2 * z) by ring. rewrite prod_sum.
    replace (2 * (2 * s1) + 2 * (2 * z)) with (4 * s1 + 4 * z) by ring. replace (2 * (2 * s1)) with (4 * s1) by ring. field. }
  rewrite !F. clear F. assert (M : forall n, 0 <= n -> Rabs (sin (n * s1 + n * x) - sin (n * s1 + n * y)) <= n * Rabs (x - y)).
  { intros n N. eapply Rle_trans; [apply sin_lip|]. replace (n * s1 + n * x - (n * s1 + n * y)) with (n * (x - y)) by ring. rewrite Rabs_mult, (Rabs_right n) by lra. lra. }
  set (d := Rabs (x - y)) in *. assert (D : 0 <= d) by apply Rabs_pos. assert (C2 : 0 <= C ^ 2 <= 0.001) by nra.
  pose proof (scaled (C / 2) _ _ _ ltac:(lra) (M 2 ltac:(lra))) as H1. pose proof (scaled (C ^ 2 / 4) _ _ _ ltac:(lra) (M 4 ltac:(lra))) as H2.
  assert (DX : - d <= x - y <= d). { unfold d. pose proof (Rle_abs (x - y)). pose proof (Rle_abs (- (x - y))). rewrite Rabs_Ropp in *. lra. }
  assert (A1 : C / 2 * (2 * d) <= 0.001 * d) by nra. assert (A2 : C ^ 2 / 4 * (4 * d) <= 0.001 * d) by nra.
  set (X := x + C / 2 * (sin (2 * s1 + 2 * x) - sin (2 * s1)) + C ^ 2 / 4 * (sin (4 * s1 + 4 * x) - sin (4 * s1))) in *.
  set (Y := y + C / 2 * (sin (2 * s1 + 2 * y) - sin (2 * s1)) + C ^ 2 / 4 * (sin (4 * s1 + 4 * y) - sin (4 * s1))) in *.
  assert (XY : Rabs (X - Y) <= 1.002 * d) by (apply Rabs_le; unfold X, Y; lra).
  replace ((1 - C) * FLAT * sa * X - (1 - C) * FLAT * sa * Y) with (((1 - C) * FLAT * sa) * (X - Y)) by ring. rewrite Rabs_mult.
  assert (K : Rabs ((1 - C) * FLAT * sa) <= 0.0034). { assert (0 <= (1 - C) * FLAT <= 0.0034) by (split; nra). apply Rabs_le. split; nra. }
  pose proof (Rabs_pos (X - Y)). pose proof (Rabs_pos ((1 - C) * FLAT * sa)). nra.
Qed.
(** Turning about the axis. *)
Definition turn (th : R) (v : space) : space := let '(x, y, z) := v in (cos th * x - sin th * y, sin th * x + cos th * y, z).
Lemma turn_position : forall lat lon th v, position lat lon 0 (stretch v) -> position lat (lon + to_degrees th) 0 (stretch (turn th v)).
Proof.
  intros lat lon th [[x y] z] P. destruct (to_position lat lon 0) as (w & E & W). pose proof (position_unique _ _ _ _ _ P W) as EQ. clear P W.
  destruct (to_position lat (lon + to_degrees th) 0) as (w' & E' & W'). rewrite to_ecef in E, E'. cbv zeta in E, E'. rewrite !radians_deg in *. rewrite deg_plus, deg_to in E'.
  injection E as E. injection E' as E'. rewrite <- E in EQ. unfold stretch in EQ. injection EQ as E1 E2 E3.
  replace (stretch (turn th (x, y, z))) with w'; [assumption|]. rewrite <- E'. unfold turn, stretch. rewrite cos_plus, sin_plus. pose proof MAJOR_pos as MP.
  f_equal; [f_equal|].
  - transitivity (cos th * (MAJOR * x) - sin th * (MAJOR * y)); [rewrite E1, E2; ring|ring].
  - transitivity (sin th * (MAJOR * x) + cos th * (MAJOR * y)); [rewrite E1, E2; ring|ring].
  - symmetry. assumption.
Qed.
Lemma one_minus_cos : forall x, 2 - 2 * cos x <= x ^ 2.
Proof.
  intro x. replace (cos x) with (cos (2 * (x / 2))) by (f_equal; field). rewrite cos_2a_sin.
  pose proof (sin_lip (x / 2) 0) as H. rewrite sin_0, !Rminus_0_r in H. assert (sin (x / 2) ^ 2 <= (x / 2) ^ 2). { rewrite <- (pow2_abs (sin (x / 2))), <- (pow2_abs (x / 2)). pose proof (Rabs_pos (sin (x / 2))). nra. } nra.
Qed.
Lemma minus_dot : forall v w, dot v v = 1 -> dot w w = 1 -> dot (minus v w) (minus v w) = 2 - 2 * dot v w.
Proof. intros v w V W. unfold minus. rewrite dot_mix, !dot_mix_r, (dot_comm w v), V, W. ring. Qed.
Lemma travel_minus : forall p b s t, dot (minus (travel p b s) (travel p b t)) (minus (travel p b s) (travel p b t)) <= (s - t) ^ 2.
Proof.
  intros p b s t. rewrite minus_dot by apply travel_unit.
  replace (dot (travel p b s) (travel p b t)) with (cos (s - t)); [apply one_minus_cos|]. rewrite cos_minus. unfold travel. rewrite dot_mix, !dot_mix_r, (dot_comm (heading p b) (up p)), up_unit, up_heading, heading_unit. ring.
Qed.
Lemma turned_apart : forall v w a b, dot w w = 1 -> dot (minus v w) (minus v w) <= 1 / 10 ^ 22 -> (a - b) ^ 2 <= 37 / 10 ^ 12 ->
  dot (minus (stretch (turn a v)) (stretch (turn b w))) (minus (stretch (turn a v)) (stretch (turn b w))) <= 40 ^ 2.
Proof.
  intros [[x y] z] [[x' y'] z'] a b W D A. unfold dot, minus, mix, stretch, turn in *.
  set (dx := x - x'). set (dy := y - y'). set (dz := z - z').
  assert (D' : dx ^ 2 + dy ^ 2 + dz ^ 2 <= 1 / 10 ^ 22) by (unfold dx, dy, dz; lra). clear D.
  assert (W' : x' ^ 2 + y' ^ 2 <= 1) by (pose proof (pow2_ge_0 z'); lra). clear W.
  pose proof (one_minus_cos (a - b)) as OC. rewrite cos_minus in OC. pose proof (cs1 a) as CA. pose proof (cs1 b) as CB.
  set (ea := (cos a - cos b)). set (eb := (sin a - sin b)).
  assert (EE : ea ^ 2 + eb ^ 2 <= 37 / 10 ^ 12) by (unfold ea, eb; lra).
  set (p1 := cos a * dx - sin a * dy). set (p2 := sin a * dx + cos a * dy). set (q1 := ea * x' - eb * y'). set (q2 := eb * x' + ea * y').
  assert (PN : p1 ^ 2 + p2 ^ 2 = dx ^ 2 + dy ^ 2). { transitivity ((cos a ^ 2 + sin a ^ 2) * (dx ^ 2 + dy ^ 2)); [unfold p1, p2; ring|rewrite CA; ring]. }
  assert (QN : q1 ^ 2 + q2 ^ 2 <= 37 / 10 ^ 12). { replace (q1 ^ 2 + q2 ^ 2) with ((ea ^ 2 + eb ^ 2) * (x' ^ 2 + y' ^ 2)) by (unfold q1, q2; ring). pose proof (pow2_ge_0 ea). pose proof (pow2_ge_0 eb). pose proof (pow2_ge_0 x'). pose proof (pow2_ge_0 y'). nra. }
  match goal with |- ?g <= _ => replace g with (MAJOR ^ 2 * ((p1 + q1) ^ 2 + (p2 + q2) ^ 2) + MINOR ^ 2 * dz ^ 2) by (unfold p1, p2, q1, q2, ea, eb, dx, dy, dz; ring) end.
  assert (S1 : forall s t, (s + t) ^ 2 <= 1000001 * s ^ 2 + (1 + 1 / 1000000) * t ^ 2). { intros s t. pose proof (pow2_ge_0 (1000 * s - t / 1000)). nra. }
  pose proof (S1 p1 q1). pose proof (S1 p2 q2). pose proof (pow2_ge_0 dz). pose proof (pow2_ge_0 dx). pose proof (pow2_ge_0 dy).
  assert (T : (p1 + q1) ^ 2 + (p2 + q2) ^ 2 <= 37.1 / 10 ^ 12) by lra.
  assert (M1 : MAJOR ^ 2 = 40680631590769) by (unfold MAJOR; lra). assert (M2 : 0 <= MINOR ^ 2 <= 40680631590769) by (unfold MINOR, MAJOR, FLAT; lra).
  assert (MINOR ^ 2 * dz ^ 2 <= 1) by nra. rewrite M1. lra.
Qed.
Lemma near_arcs : forall sa s1 s base sg sg', -1 <= sa <= 1 -> base = s / (MINOR * VA (ksq sa)) -> Rabs (arc_length sa s1 sg - s) <= 1 / 2000000 ->
  Rabs (sg' - (base + VD (ksq sa) s1 sg')) < TOL -> Rabs (sg - sg') <= 2 / 1000000000000.
Proof.
  intros sa s1 s base sg sg' SA -> A B. pose proof (ksq_bound sa SA) as KB. pose proof (VA_bound _ KB) as VB. pose proof (VD_lip (ksq sa) s1 sg sg' KB) as V.
  unfold arc_length in A. set (k := MINOR * VA (ksq sa)) in *. assert (K : 6000000 <= k). { unfold k. assert (6300000 <= MINOR) by (unfold MINOR, MAJOR, FLAT; lra). nra. }
  set (D := VD (ksq sa) s1 sg) in *. set (D' := VD (ksq sa) s1 sg') in *. rewrite TOL_val in B.
  assert (A' : Rabs (sg - D - s / k) <= 1 / 10000000000000).
  { replace (k * (sg - D) - s) with (k * (sg - D - s / k)) in A by (field; lra). rewrite Rabs_mult, (Rabs_right k) in A by lra. pose proof (Rabs_pos (sg - D - s / k)). nra. }
  assert (T : Rabs (sg - sg') <= Rabs (D - D') + Rabs (sg - D - s / k) + Rabs (sg' - (s / k + D'))).
  { replace (sg - sg') with ((D - D') + (sg - D - s / k) + - (sg' - (s / k + D'))) by ring. eapply Rle_trans; [apply Rabs_triang|]. rewrite Rabs_Ropp.
    pose proof (Rabs_triang (D - D') (sg - D - s / k)). lra. }
  lra.
Qed.
Lemma trip_w : forall p q u m n d b, is_unit u m -> between_poles p -> between_poles q -> w_distance_and_bearing p q u TOL n = Ok (d, b) ->
  exists q' v v', w_point_from_bearing_dist p b d u TOL MAX_ITER = Ok q' /\ position (fst q) (snd q) 0 v /\ position (fst q') (snd q') 0 v' /\ length3 (minus v v') <= 40.
Proof.
  intros p q u m n d b HU BP BQ H. destruct (Req_dec (fst p) (fst q)) as [E1|E1]; [destruct (Req_dec (snd p) (snd q)) as [E2|E2]|].
  1:{ assert (E : p = q) by (destruct p, q; cbn in *; subst; reflexivity). subst q. rewrite same_inverse in H. injection H as <- <-.
    destruct (direct_zero p 0 u m BP HU) as (s1 & _ & E). assert (S0 : clairaut p 0 = 0) by (unfold clairaut; rewrite deg_0, sin_0; ring). rewrite S0 in E.
    destruct (to_position (fst p) (snd p) 0) as (v & _ & P). eexists. exists v, v. split; [exact E|]. split; [assumption|]. cbn [fst snd].
    replace (snd p - to_degrees ((1 - VC 0) * FLAT * VC 0 * 0 ^ 2 * (cos (2 * s1) + VC 0 * cos (4 * s1)))) with (snd p) by (unfold to_degrees; field; pose proof PI_pos; lra).
    split; [assumption|]. unfold length3, minus. destruct v as [[x y] z]. unfold mix, dot. match goal with |- sqrt ?g <= _ => replace g with 0 by ring end. rewrite sqrt_0. lra. }
  all: assert (NE : p <> q) by (intro X; subst q; contradiction).
  all: destruct (inverse_spec' p q u m TOL n d b HU BQ NE H) as (sg & lam & SG & B & DM & T & L & _).
  all: pose proof (clairaut_bound p b) as SB; pose proof (ksq_bound _ SB) as KB.
  all: set (sa := clairaut p b) in *; set (k := ksq sa) in *; set (s1 := s1_of p b) in *; set (base := d * m / (MINOR * VA k)).
  all: destruct (loop_default base k s1 KB) as (sg' & EL & TS).
  all: destruct (direct_ok p b d u m HU sg' EL) as (lam' & lat' & L' & La & P & _ & _ & E); fold sa k in E; fold (s1_of p b) in E; fold s1 in E; fold base in E.
  all: set (cs := code_shortfall sa s1 sg' (base + VD k s1 sg')) in *.
  all: pose proof (near_arcs sa s1 (d * m) base sg sg' SB eq_refl DM TS) as NS.
  all: pose proof (turn_position _ _ (- cs) _ P) as P'; pose proof (surface_sphere q BQ (snd p + to_degrees lam)) as PQ; rewrite T in PQ.
  all: set (th := deg (snd q - snd p) - lam) in *; pose proof (turn_position _ _ th _ PQ) as PQ'; pose proof PI_pos as PP.
  all: replace (snd p + to_degrees lam + to_degrees th) with (snd q) in PQ' by (unfold th, to_degrees, deg; field; lra).
  all: eexists; exists (stretch (turn th (travel (on_sphere p) b sg))), (stretch (turn (- cs) (travel (on_sphere p) b sg'))).
  all: split; [exact E|]; split; [exact PQ'|]; split;
    [cbn [fst snd]; replace (degrees (deg (snd p) + (lam' - cs))) with (snd p + to_degrees lam' + to_degrees (- cs)) by (unfold degrees, deg, to_degrees; field; lra); exact P'|].
  all: unfold length3; rewrite <- (sqrt_pow2 40) by lra; apply sqrt_le_1_alt; apply turned_apart; [apply travel_unit| |].
  1,3: eapply Rle_trans; [apply travel_minus|]; rewrite <- (pow2_abs (sg - sg')); pose proof (Rabs_pos (sg - sg')); nra.
  all: pose proof (shortfall_diff sa s1 sg' _ SB TS) as SD; fold cs in SD; pose proof (shortfall_lip sa s1 sg sg' SB) as SL.
  all: assert (X : Rabs (th - - cs) <= 6.01 / 1000000) by
    (replace (th - - cs) with ((deg (snd q - snd p) - (lam - shortfall sa s1 sg)) + - (shortfall sa s1 sg - shortfall sa s1 sg') + - (shortfall sa s1 sg' - cs)) by (unfold th; ring);
     eapply Rle_trans; [apply Rabs_triang|]; rewrite Rabs_Ropp;
     pose proof (Rabs_triang (deg (snd q - snd p) - (lam - shortfall sa s1 sg)) (- (shortfall sa s1 sg - shortfall sa s1 sg'))) as X; rewrite Rabs_Ropp in X; rewrite TOL_val in L; lra).
  all: rewrite <- (pow2_abs (th - - cs)); pose proof (Rabs_pos (th - - cs)); nra.
Qed.

(** ** Paths *)
Lemma all_ok_in : forall {A B} (f : A -> res B) l l', all_ok f l = Ok l' -> List.length l' = List.length l /\ forall i x, nth_error l i = Some x -> exists y, nth_error l' i = Some y /\ f x = Ok y.
Proof.
  intros A B f. induction l as [|x l IH]; intros l' H; cbn in H.
  - injection H as <-. split; [reflexivity|]. intros [|i] x E; discriminate.
  - destruct (f x) as [y|] eqn:E; [|discriminate]. cbn in H. destruct (all_ok f l) as [r|]; [|discriminate]. injection H as <-. destruct (IH r eq_refl) as [L N].
    split; [cbn; rewrite L; reflexivity|]. intros [|i] z Z; cbn in *; [injection Z as <-; exists y; split; [reflexivity|assumption]|]. apply N. assumption.
Qed.
Lemma all_ok_ok : forall {A B} (f : A -> res B) l, (forall x, In x l -> exists y, f x = Ok y) -> exists l', all_ok f l = Ok l'.
Proof.
  intros A B f. induction l as [|x l IH]; intro H; [exists []; reflexivity|]. destruct (H x (or_introl eq_refl)) as [y E]. destruct (IH (fun z Z => H z (or_intror Z))) as [r R].
  exists (y :: r). cbn. rewrite E. cbn. rewrite R. reflexivity.
Qed.
Lemma seq_nth_error : forall n i, (i <= n)%nat -> nth_error (seq 0 (S n)) i = Some i.
Proof.
  intros n i L. pose proof (nth_seq_map (fun x => x) n i L) as H. rewrite map_id in H. assumption.
Qed.
Lemma km_unit : is_unit "km" 1000. Proof. unfold is_unit. right. left. reflexivity. Qed.
Lemma linspace_ok : forall p q n d b, (2 <= n)%nat -> w_distance_and_bearing p q "km" TOL MAX_ITER = Ok (d, b) -> exists l, w_geo_linspace p q n = Ok l /\
  List.length l = S n /\ nth_error l 0 = Some p /\ nth_error l n = Some q /\
  forall i, (0 < i < n)%nat -> exists x, nth_error l i = Some x /\ w_point_from_bearing_dist p b (d * (INR i / INR n)) "km" TOL MAX_ITER = Ok x.
Proof.
  intros p q n d b N H. unfold w_geo_linspace. destruct (n <? 2)%nat eqn:E; [apply Nat.ltb_lt in E; lia|]. rewrite H. cbv beta iota delta [bind]. cbn [fst snd].
  match goal with |- exists l, all_ok ?f ?s = _ /\ _ => destruct (all_ok_ok f s) as [l A] end.
  { intros x _. destruct (x =? 0)%nat; [eexists; reflexivity|]. destruct (x =? n)%nat; [eexists; reflexivity|].
    destruct (direct_spec p b (d * (INR x / INR n)) "km" 1000 km_unit) as (y & _ & _ & _ & Y & _). exists y. exact Y. }
  exists l. split; [exact A|]. destruct (all_ok_in _ _ _ A) as [L NT]. rewrite seq_length in L. split; [assumption|].
  split. { destruct (NT 0%nat 0%nat (seq_nth_error n 0 ltac:(lia))) as (y & Y1 & Y2). cbn in Y2. injection Y2 as ->. assumption. }
  split. { destruct (NT n n (seq_nth_error n n ltac:(lia))) as (y & Y1 & Y2). cbv beta in Y2. rewrite Nat.eqb_refl in Y2. destruct (n =? 0)%nat eqn:Z; [apply Nat.eqb_eq in Z; lia|]. injection Y2 as ->. assumption. }
  intros i I. destruct (NT i i (seq_nth_error n i ltac:(lia))) as (y & Y1 & Y2). cbv beta in Y2. destruct (i =? 0)%nat eqn:Z; [apply Nat.eqb_eq in Z; lia|]. destruct (i =? n)%nat eqn:Z2; [apply Nat.eqb_eq in Z2; lia|].
  exists y. split; assumption.
Qed.
Lemma linspace_err : forall p q n, (n < 2)%nat -> w_geo_linspace p q n = Err ValueErr.
Proof. intros p q n N. unfold w_geo_linspace. apply Nat.ltb_lt in N. rewrite N. reflexivity. Qed.
Lemma linspace_err' : forall p q n e, (2 <= n)%nat -> w_distance_and_bearing p q "km" TOL MAX_ITER = Err e -> w_geo_linspace p q n = Err e.
Proof. intros p q n e N H. unfold w_geo_linspace. destruct (n <? 2)%nat eqn:E; [apply Nat.ltb_lt in E; lia|]. rewrite H. reflexivity. Qed.
Lemma circle_w : forall c r u m n, is_unit u m -> (1 <= n)%nat -> exists l, w_geo_circle c r u n = Ok l /\ List.length l = S n /\
  (forall i, (i <= n)%nat -> exists x, nth_error l i = Some x /\ w_point_from_bearing_dist c (360 * INR i / INR n) r u TOL MAX_ITER = Ok x) /\
  nth_error l 0 = nth_error l n.
Proof.
  intros c r u m n HU N. unfold w_geo_circle. assert (IN : INR n <> 0) by (apply not_0_INR; lia).
  assert (F : forall i, (do f <- rdiv (INR i) (INR n); w_point_from_bearing_dist c (f * 360) r u TOL MAX_ITER) = w_point_from_bearing_dist c (360 * INR i / INR n) r u TOL MAX_ITER).
  { intro i. rewrite rdiv_ok by assumption. cbv beta iota delta [bind]. f_equal. field. assumption. }
  match goal with |- exists l, all_ok ?f ?s = _ /\ _ => destruct (all_ok_ok f s) as [l A] end.
  { intros x _. rewrite F. destruct (direct_spec c (360 * INR x / INR n) r u m HU) as (y & _ & _ & _ & Y & _). exists y. exact Y. }
  exists l. split; [exact A|]. destruct (all_ok_in _ _ _ A) as [L NT]. rewrite seq_length in L. split; [assumption|].
  assert (PT : forall i, (i <= n)%nat -> exists x, nth_error l i = Some x /\ w_point_from_bearing_dist c (360 * INR i / INR n) r u TOL MAX_ITER = Ok x).
  { intros i I. destruct (NT i i (seq_nth_error n i ltac:(lia))) as (y & Y1 & Y2). rewrite F in Y2. exists y. split; assumption. }
  split; [exact PT|]. destruct (PT 0%nat ltac:(lia)) as (x & X1 & X2). destruct (PT n ltac:(lia)) as (y & Y1 & Y2). rewrite X1, Y1. f_equal.
  replace (360 * INR 0 / INR n) with 0 in X2 by (cbn [INR]; field; assumption). replace (360 * INR n / INR n) with 360 in Y2 by (field; assumption).
  unfold w_point_from_bearing_dist in X2, Y2. replace (radians 360) with (2 * PI) in Y2 by (unfold radians; field). replace (radians 0) with 0 in X2 by (unfold radians; ring).
  rewrite sin_2PI, cos_2PI in Y2. rewrite sin_0, cos_0 in X2. rewrite X2 in Y2. injection Y2 as ->. reflexivity.
Qed.
Lemma circle_zero : forall c r u, w_geo_circle c r u 0 = Err DivisionErr.
Proof. intros c r u. unfold w_geo_circle. cbn [seq all_ok INR]. rewrite rdiv_zero. reflexivity. Qed.
Lemma combine_nth : forall {A B} (l : list A) (l' : list B) i x y, nth_error l i = Some x -> nth_error l' i = Some y -> nth_error (List.combine l l') i = Some (x, y).
Proof.
  intros A B. induction l as [|a l IH]; intros [|b l'] [|i] x y X Y; try discriminate; cbn in *; [injection X as ->; injection Y as ->; reflexivity|]. apply IH; assumption.
Qed.
Lemma and_geo_w : forall p q a b n d be, (2 <= n)%nat -> w_distance_and_bearing p q "km" TOL MAX_ITER = Ok (d, be) -> exists l ecef lla,
  w_geo_linspace p q n = Ok l /\ w_ecef_and_geo_linspace p q a b n = Ok (ecef, lla) /\ List.length ecef = S n /\ List.length lla = S n /\
  forall i, (i <= n)%nat -> exists x v, nth_error l i = Some x /\ nth_error lla i = Some (fst x, snd x, a + (b - a) * INR i / INR n) /\
    nth_error ecef i = Some v /\ position (fst x) (snd x) (a + (b - a) * INR i / INR n) v.
Proof.
  intros p q a b n d be N H. destruct (linspace_ok p q n d be N H) as (l & E & L & _). unfold w_ecef_and_geo_linspace. rewrite E. cbv beta iota delta [bind].
  set (lla := map _ _). destruct (all_ok_ok (w_lla2ecef false) lla) as [ecef A].
  { intros [[lat lon] h] _. destruct (to_position lat lon h) as (v & V & _). exists v. exact V. }
  unfold w_lla2ecef_list. rewrite A. exists l, ecef, lla. split; [reflexivity|]. split; [reflexivity|]. destruct (all_ok_in _ _ _ A) as [LE NT].
  assert (LL : List.length lla = S n). { unfold lla, w_alts. rewrite map_length, combine_length, map_length, seq_length, L. apply Nat.min_id. }
  split; [rewrite LE; exact LL|]. split; [exact LL|]. intros i I.
  destruct (nth_error l i) as [x|] eqn:X; [|apply nth_error_None in X; lia].
  assert (Y : nth_error lla i = Some (fst x, snd x, a + (b - a) * INR i / INR n)).
  { unfold lla. rewrite nth_error_map. unfold w_alts. rewrite (combine_nth _ _ i x (a + (b - a) * INR i / INR n) X (nth_seq_map _ n i I)). reflexivity. }
  destruct (NT i _ Y) as (v & V1 & V2). destruct (to_position (fst x) (snd x) (a + (b - a) * INR i / INR n)) as (w & W1 & W2). rewrite W1 in V2. injection V2 as ->.
  exists x, v. split; [reflexivity|]. split; [exact Y|]. split; assumption.
Qed.
Lemma ecef_linspace_w : forall p q a b n, exists e, w_ecef_linspace p q a b n = Err e.
Proof.
  intros p q a b n. unfold w_ecef_linspace. destruct (le_lt_dec 2 n) as [N|N]; [|rewrite linspace_err by assumption; exists ValueErr; reflexivity].
  destruct (w_distance_and_bearing p q "km" TOL MAX_ITER) as [[d be]|e] eqn:E; [|rewrite (linspace_err' p q n e N E); exists e; reflexivity].
  destruct (linspace_ok p q n d be N E) as (l & EL & L & _). rewrite EL. cbv beta iota delta [bind].
  destruct l as [|x [|y [|z l]]]; cbn in L; try lia; exists ValueErr; reflexivity.
Qed.
(** Staying put in the wrong place. *)
Lemma stay_moves : exists lon, w_point_from_bearing_dist (0, 0) 45 0 "m" TOL MAX_ITER = Ok (0, lon) /\ MAJOR * Rabs (deg lon) > 4.
Proof.
  assert (B : between_poles (0, 0)) by (unfold between_poles; cbn; lra).
  assert (D : deg 45 = PI / 4) by (unfold deg; field).
  pose proof PI_pos as PP. assert (S2 : sin (PI / 4) ^ 2 = 1 / 2). { rewrite sin_PI4. assert (0 < sqrt 2) by (apply sqrt_lt_R0; lra). assert (sqrt 2 * sqrt 2 = 2) by (apply sqrt_sqrt; lra). transitivity (1 / (sqrt 2 * sqrt 2)); [field; lra|]. rewrite H0. lra. }
  assert (C0 : 0 < cos (PI / 4)) by (apply cos_gt_0; lra).
  assert (SA : clairaut (0, 0) 45 = sin (PI / 4)) by (unfold clairaut; rewrite param_equator, cos_0, D; ring).
  pose proof (direct_ok (0, 0) 45 0 "m" 1 metres 0) as X. cbv zeta in X.
  pose proof (direct_zero (0, 0) 45 "m" 1 B metres) as Z. cbv zeta in Z. destruct Z as (s1 & ND & Z). rewrite SA in Z. cbn [fst snd] in Z. exists (0 - to_degrees ((1 - VC (sin (PI / 4))) * FLAT * VC (sin (PI / 4)) * sin (PI / 4) ^ 2 * (cos (2 * s1) + VC (sin (PI / 4)) * cos (4 * s1)))).
  split; [exact Z|]. destruct ND as [N1 N2]. rewrite SA, param_equator, sin_0 in N1. rewrite SA, param_equator, cos_0, D, Rmult_1_l in N2. rewrite S2 in N1, N2.
  assert (Q0 : 0 < sqrt (1 - 1 / 2)) by (apply sqrt_lt_R0; lra).
  assert (Ss : sin s1 = 0) by (apply (Rmult_eq_reg_l (sqrt (1 - 1 / 2))); lra).
  assert (C2 : cos (2 * s1) = 1) by (rewrite cos_2a_sin, Ss; ring). assert (C4 : cos (4 * s1) = 1) by (replace (4 * s1) with (2 * (2 * s1)) by ring; rewrite cos_2', C2; ring).
  rewrite C2, C4, S2. assert (VV : VC (sin (PI / 4)) = FLAT / 8 + FLAT ^ 2 / 8 - 3 * FLAT ^ 2 / 64) by (unfold VC; cbv zeta; rewrite S2; field). rewrite VV.
  unfold Rminus at 1. rewrite Rplus_0_l. match goal with |- context [to_degrees ?t] => replace (deg (- to_degrees t)) with (- t) by (unfold deg, to_degrees; field; lra) end.
  rewrite Rabs_Ropp, Rabs_right; unfold FLAT, MAJOR; lra.
Qed.
