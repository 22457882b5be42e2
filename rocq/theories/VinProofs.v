(** Convergence of the inverse iteration of WGS84. *)
From Coq Require Import Reals List Bool String Lra Psatz Lia Ratan Machin.
From Verif Require Import GeoModel GeoSpec GeoProofs WgsModel WgsSpec WgsProofs.
Import ListNotations.
Open Scope R_scope.

(** ** Derivatives *)
Notation D := derivable_pt_lim.
Lemma D_eq f t l m : D f t l -> l = m -> D f t m. Proof. intros H <-. exact H. Qed.
Lemma D_plus f g t l m : D f t l -> D g t m -> D (fun t => f t + g t) t (l + m). Proof. exact (derivable_pt_lim_plus f g t l m). Qed.
Lemma D_minus f g t l m : D f t l -> D g t m -> D (fun t => f t - g t) t (l - m). Proof. exact (derivable_pt_lim_minus f g t l m). Qed.
Lemma D_mult f g t l m : D f t l -> D g t m -> D (fun t => f t * g t) t (l * g t + f t * m). Proof. exact (derivable_pt_lim_mult f g t l m). Qed.
Lemma D_sq f t l : D f t l -> D (fun t => f t ^ 2) t (2 * f t * l).
Proof.
  intro H. eapply D_eq; [apply (D_mult f (fun t => f t * 1)); [exact H|apply (D_mult f (fun _ => 1)); [exact H|apply derivable_pt_lim_const]]|]. ring.
Qed.
Lemma Rabs_le_inv : forall x y, Rabs x <= y -> - y <= x <= y.
Proof. intros x y H. unfold Rabs in H. destruct (Rcase_abs x); lra. Qed.
Lemma box : forall x y X Y, - X <= x <= X -> - Y <= y <= Y -> - (X * Y) <= x * y <= X * Y.
Proof. intros. nra. Qed.
Lemma box0 : forall x y X Y, 0 <= x <= X -> 0 <= y <= Y -> 0 <= x * y <= X * Y.
Proof. intros. nra. Qed.
Ltac bx x X y Y := let H := fresh in assert (H : - (X * Y) <= x * y <= X * Y) by (apply box; lra); lra.
Ltac bp x X y Y := let H := fresh in assert (H : 0 <= x * y <= X * Y) by (apply box0; lra); lra.
Lemma PI_bounds : 3.141 < PI < 3.1421.
Proof. pose proof (PI_2_3_7_ineq 1) as [L H]. unfold tg_alt, PI_2_3_7_tg, Ratan_seq in L, H. simpl in L, H. field_simplify in L. field_simplify in H. lra. Qed.

(** ** The step as a function of lambda *)
Section Step.
Variables x y a b : R.
Hypothesis Ha : 0 < a.
Hypothesis Hb : 0 < b.
Hypothesis Hxa : x ^ 2 + a ^ 2 = 1.
Hypothesis Hyb : y ^ 2 + b ^ 2 = 1.
Let f := WGS84_F.
Let B := x * y.
Let A := a * b.
Definition vC t := B + A * cos t.
Definition vS t := sqrt (1 - vC t ^ 2).
Definition vq t := A * sin t / vS t.
Definition vp t := 1 - vq t ^ 2.
Definition vn t := vp t * vC t - 2 * B.
Definition vr t := vp t * vC t - B.
Definition vk t := f / 16 * (4 + f * (4 - 3 * vp t)).
Definition vE t := vk t * vn t + vC t * (2 * vk t ^ 2 * vn t ^ 2 - vk t ^ 2 * vp t ^ 2).
Definition vh t := (1 - vk t * vp t) * (vq t * acos (vC t) + A * sin t * vE t).
Definition vg t := f * vh t.
Lemma fb : 0.0033528 < f < 0.0033529. Proof. exact F_bound. Qed.
Lemma A_pos' : 0 < A. Proof. unfold A. nra. Qed.
Lemma vC_range t : -1 <= vC t <= 1.
Proof.
  assert (E : vC t ^ 2 <= 1).
  { unfold vC, B, A. pose proof (COS_bound t) as CB.
    assert (I : (x ^ 2 + a ^ 2) * (y ^ 2 + (b * cos t) ^ 2) - (x * y + a * b * cos t) ^ 2 = (x * (b * cos t) - a * y) ^ 2) by ring.
    rewrite Hxa in I. assert (J : (b * cos t) ^ 2 <= b ^ 2).
    { replace ((b * cos t) ^ 2) with (b ^ 2 * cos t ^ 2) by ring. assert (cos t ^ 2 <= 1) by nra. assert (0 <= b ^ 2) by nra. nra. }
    pose proof (pow2_ge_0 (x * (b * cos t) - a * y)). lra. }
  split; nra.
Qed.
(** What holds where the places are neither the same nor opposite. *)
Section At.
Variable t : R.
Hypothesis Hlo : -1 < vC t.
Hypothesis Hhi : vC t < 1.
Lemma S_pos : 0 < vS t.
Proof. unfold vS. apply sqrt_lt_R0. nra. Qed.
Lemma S_sq : vS t ^ 2 = 1 - vC t ^ 2.
Proof. unfold vS. apply sqrt_pow2'. nra. Qed.
Lemma S_one : vS t <= 1.
Proof. pose proof S_sq. pose proof S_pos. pose proof (pow2_ge_0 (vC t)). nra. Qed.
Lemma qS : vq t * vS t = A * sin t.
Proof. unfold vq. field. pose proof S_pos. lra. Qed.
Lemma pS : vp t * vS t ^ 2 = x ^ 2 + y ^ 2 - 2 * B * vC t.
Proof.
  unfold vp. replace ((1 - vq t ^ 2) * vS t ^ 2) with (vS t ^ 2 - (vq t * vS t) ^ 2) by ring. rewrite qS, S_sq.
  replace ((A * sin t) ^ 2) with (A ^ 2 * (1 - cos t ^ 2)) by (pose proof (cs1 t) as E; replace (1 - cos t ^ 2) with (sin t ^ 2) by lra; ring).
  unfold vC. replace (A ^ 2) with ((1 - x ^ 2) * (1 - y ^ 2)) by (unfold A; replace (1 - x ^ 2) with (a ^ 2) by lra; replace (1 - y ^ 2) with (b ^ 2) by lra; ring).
  replace ((1 - x ^ 2) * (1 - y ^ 2) * (1 - cos t ^ 2)) with ((1 - x ^ 2) * (1 - y ^ 2) - (A * cos t) ^ 2).
  2:{ replace ((A * cos t) ^ 2) with (a ^ 2 * b ^ 2 * cos t ^ 2) by (unfold A; ring). replace (a ^ 2) with (1 - x ^ 2) by lra. replace (b ^ 2) with (1 - y ^ 2) by lra. ring. }
  unfold B. ring.
Qed.
Lemma p_nonneg : 0 <= vp t.
Proof.
  pose proof pS as E. pose proof S_pos as S. assert (G : 0 <= x ^ 2 + y ^ 2 - 2 * B * vC t).
  { unfold B. pose proof (vC_range t). assert (0 <= (x - y) ^ 2) by apply pow2_ge_0. assert (0 <= (x + y) ^ 2) by apply pow2_ge_0.
    replace (x ^ 2 + y ^ 2 - 2 * (x * y) * vC t) with ((1 + vC t) / 2 * (x - y) ^ 2 + (1 - vC t) / 2 * (x + y) ^ 2) by field.
    apply Rplus_le_le_0_compat; apply Rmult_le_pos; lra. }
  rewrite <- E in G. assert (0 < vS t ^ 2) by nra. destruct (Rle_dec 0 (vp t)) as [H0|H0]; [exact H0|]. exfalso. assert (vp t * vS t ^ 2 < 0) by nra. lra.
Qed.
Lemma p_one : vp t <= 1.
Proof. unfold vp. pose proof (pow2_ge_0 (vq t)). lra. Qed.
Lemma q_range : -1 <= vq t <= 1.
Proof. pose proof p_nonneg as P. unfold vp in P. nra. Qed.
Lemma n_range : - vp t <= vn t <= vp t.
Proof.
  pose proof pS as E. pose proof S_pos as S. pose proof S_sq as S2. pose proof p_nonneg as P.
  assert (Q : vn t ^ 2 <= vp t ^ 2).
  { assert (I : (vp t ^ 2 - vn t ^ 2) * vS t ^ 2 = (x ^ 2 + y ^ 2) ^ 2 - (2 * B) ^ 2).
    { unfold vn. replace ((vp t ^ 2 - (vp t * vC t - 2 * B) ^ 2) * vS t ^ 2) with (vp t * vS t ^ 2 * (vp t * (1 - vC t ^ 2)) + 4 * B * vC t * (vp t * vS t ^ 2) - 4 * B ^ 2 * vS t ^ 2) by ring.
      rewrite <- S2, E, S2. ring. }
    assert (J : 0 <= (x ^ 2 + y ^ 2) ^ 2 - (2 * B) ^ 2).
    { unfold B. replace ((x ^ 2 + y ^ 2) ^ 2 - (2 * (x * y)) ^ 2) with ((x ^ 2 - y ^ 2) ^ 2) by ring. apply pow2_ge_0. }
    rewrite <- I in J. assert (0 < vS t ^ 2) by nra. destruct (Rle_dec 0 (vp t ^ 2 - vn t ^ 2)) as [H0|H0]; [lra|]. exfalso. assert ((vp t ^ 2 - vn t ^ 2) * vS t ^ 2 < 0) by nra. lra. }
  apply square_bound; assumption.
Qed.
Lemma r_range : - vp t <= vr t <= vp t.
Proof.
  pose proof n_range as N. pose proof p_nonneg as P. pose proof (vC_range t) as C.
  replace (vr t) with ((vn t + vp t * vC t) / 2) by (unfold vn, vr; field). assert (- vp t <= vp t * vC t <= vp t) by nra. lra.
Qed.
Lemma B_range : -1 <= B <= 1.
Proof. unfold B. pose proof (pow2_ge_0 (x - y)). pose proof (pow2_ge_0 (x + y)). pose proof (pow2_ge_0 a). pose proof (pow2_ge_0 b). nra. Qed.
Lemma k_range : 0 <= vk t <= 0.00085.
Proof. unfold vk. pose proof fb. pose proof p_nonneg. pose proof p_one. assert (1 <= 4 - 3 * vp t <= 4) by lra. nra. Qed.
Lemma E_range : Rabs (vE t) <= 0.00086.
Proof.
  pose proof k_range as K. pose proof n_range as N. pose proof p_nonneg as P. pose proof p_one as P1. pose proof (vC_range t) as C.
  assert (N2 : 0 <= vn t ^ 2 <= 1) by nra. assert (P2 : 0 <= vp t ^ 2 <= 1) by nra. assert (K2 : 0 <= vk t ^ 2 <= 0.00000073) by nra.
  unfold vE. assert (T1 : -0.00085 <= vk t * vn t <= 0.00085) by nra.
  assert (T2 : -0.00000146 <= 2 * vk t ^ 2 * vn t ^ 2 - vk t ^ 2 * vp t ^ 2 <= 0.00000146).
  { assert (0 <= vk t ^ 2 * vn t ^ 2 <= 0.00000073) by nra. assert (0 <= vk t ^ 2 * vp t ^ 2 <= 0.00000073) by nra. lra. }
  set (T := 2 * vk t ^ 2 * vn t ^ 2 - vk t ^ 2 * vp t ^ 2) in *. assert (-0.00000146 <= vC t * T <= 0.00000146) by nra. apply Rabs_le. lra.
Qed.
(** *** Derivatives *)
Lemma d_C : D vC t (- (A * sin t)).
Proof.
  eapply D_eq; [apply (D_plus (fun _ => B) (fun t => A * cos t)); [apply derivable_pt_lim_const|apply (D_mult (fun _ => A) cos); [apply derivable_pt_lim_const|apply derivable_pt_lim_cos]]|].
  cbv beta. ring.
Qed.
Lemma d_S : D vS t (vC t * vq t).
Proof.
  pose proof S_pos as S. pose proof S_sq as S2.
  eapply D_eq; [apply (derivable_pt_lim_comp (fun t => 1 - vC t ^ 2) sqrt)|].
  - apply (D_minus (fun _ => 1) (fun t => vC t ^ 2)); [apply derivable_pt_lim_const|apply D_sq; exact d_C].
  - apply derivable_pt_lim_sqrt. rewrite <- S2. nra.
  - cbv beta. change (sqrt (1 - vC t ^ 2)) with (vS t). unfold vq. field. lra.
Qed.
Lemma d_sigma : D (fun t => acos (vC t)) t (vq t).
Proof.
  eapply D_eq; [apply (derivable_pt_lim_comp vC acos); [exact d_C|]|].
  - eapply derive_pt_eq_1. apply (derive_pt_acos _ (conj Hlo Hhi)).
  - unfold vq. replace (sqrt (1 - (vC t)²)) with (vS t) by (unfold vS, Rsqr; f_equal; ring). field. pose proof S_pos. lra.
Qed.
Lemma d_q : D vq t (vr t / vS t).
Proof.
  pose proof S_pos as S. eapply D_eq; [apply (derivable_pt_lim_div (fun t => A * sin t) vS)|].
  - apply (D_mult (fun _ => A) sin); [apply derivable_pt_lim_const|apply derivable_pt_lim_sin].
  - exact d_S.
  - lra.
  - cbv beta. unfold Rsqr. rewrite <- qS. replace (A * cos t) with (vC t - B) by (unfold vC; ring).
    replace ((0 * sin t + (vC t - B)) * vS t) with ((vC t - B) * vS t) by ring. unfold vr, vp. field. lra.
Qed.
Definition Dp := - 2 * vq t * (vr t / vS t).
Definition Dk := - 3 * f ^ 2 / 16 * Dp.
Definition Dn := Dp * vC t - vp t * (A * sin t).
Definition DE := Dk * vn t + vk t * Dn - A * sin t * (2 * vk t ^ 2 * vn t ^ 2 - vk t ^ 2 * vp t ^ 2) +
  vC t * (4 * vk t * Dk * vn t ^ 2 + 4 * vk t ^ 2 * vn t * Dn - 2 * vk t * Dk * vp t ^ 2 - 2 * vk t ^ 2 * vp t * Dp).
Definition Dh := - (Dk * vp t + vk t * Dp) * (vq t * acos (vC t) + A * sin t * vE t) +
  (1 - vk t * vp t) * (vr t / vS t * acos (vC t) + vq t ^ 2 + A * cos t * vE t + A * sin t * DE).
Lemma d_p : D vp t Dp.
Proof.
  eapply D_eq; [apply (D_minus (fun _ => 1) (fun t => vq t ^ 2)); [apply derivable_pt_lim_const|apply D_sq; exact d_q]|]. unfold Dp. ring.
Qed.
Lemma d_k : D vk t Dk.
Proof.
  eapply D_eq; [apply (D_mult (fun _ => f / 16) (fun t => 4 + f * (4 - 3 * vp t))); [apply derivable_pt_lim_const|]|].
  - apply (D_plus (fun _ => 4) (fun t => f * (4 - 3 * vp t))); [apply derivable_pt_lim_const|].
    apply (D_mult (fun _ => f) (fun t => 4 - 3 * vp t)); [apply derivable_pt_lim_const|].
    apply (D_minus (fun _ => 4) (fun t => 3 * vp t)); [apply derivable_pt_lim_const|].
    apply (D_mult (fun _ => 3) vp); [apply derivable_pt_lim_const|exact d_p].
  - cbv beta. unfold Dk. field.
Qed.
Lemma d_n : D vn t Dn.
Proof.
  eapply D_eq; [apply (D_minus (fun t => vp t * vC t) (fun _ => 2 * B)); [apply (D_mult vp vC); [exact d_p|exact d_C]|apply derivable_pt_lim_const]|].
  unfold Dn. ring.
Qed.
Lemma d_E : D vE t DE.
Proof.
  eapply D_eq; [apply (D_plus (fun t => vk t * vn t) (fun t => vC t * (2 * vk t ^ 2 * vn t ^ 2 - vk t ^ 2 * vp t ^ 2)))|].
  - apply (D_mult vk vn); [exact d_k|exact d_n].
  - apply (D_mult vC (fun t => 2 * vk t ^ 2 * vn t ^ 2 - vk t ^ 2 * vp t ^ 2)); [exact d_C|].
    apply (D_minus (fun t => 2 * vk t ^ 2 * vn t ^ 2) (fun t => vk t ^ 2 * vp t ^ 2)).
    + apply (D_mult (fun t => 2 * vk t ^ 2) (fun t => vn t ^ 2)); [|apply D_sq; exact d_n].
      apply (D_mult (fun _ => 2) (fun t => vk t ^ 2)); [apply derivable_pt_lim_const|apply D_sq; exact d_k].
    + apply (D_mult (fun t => vk t ^ 2) (fun t => vp t ^ 2)); apply D_sq; [exact d_k|exact d_p].
  - cbv beta. unfold DE. ring.
Qed.
Lemma d_h : D vh t Dh.
Proof.
  eapply D_eq; [apply (D_mult (fun t => 1 - vk t * vp t) (fun t => vq t * acos (vC t) + A * sin t * vE t))|].
  - apply (D_minus (fun _ => 1) (fun t => vk t * vp t)); [apply derivable_pt_lim_const|apply (D_mult vk vp); [exact d_k|exact d_p]].
  - apply (D_plus (fun t => vq t * acos (vC t)) (fun t => A * sin t * vE t)).
    + apply (D_mult vq (fun t => acos (vC t))); [exact d_q|exact d_sigma].
    + apply (D_mult (fun t => A * sin t) vE); [|exact d_E]. apply (D_mult (fun _ => A) sin); [apply derivable_pt_lim_const|apply derivable_pt_lim_sin].
  - cbv beta. unfold Dh. ring.
Qed.
(** *** The bound *)
Lemma sigma_S : vS t = sin (acos (vC t)).
Proof. rewrite sin_acos by (apply vC_range). unfold vS, Rsqr. f_equal. ring. Qed.
Lemma S_sigma : vS t <= acos (vC t).
Proof.
  rewrite sigma_S. pose proof (acos_bound (vC t)) as Bd. pose proof (sin_lip (acos (vC t)) 0) as L. rewrite sin_0, !Rminus_0_r in L.
  rewrite (Rabs_right (acos (vC t))) in L by lra. pose proof (Rle_abs (sin (acos (vC t)))). lra.
Qed.
Lemma Dh_bound : Rabs Dh <= 1.0065 * (acos (vC t) / vS t).
Proof.
  pose proof S_pos as S. pose proof S_one as S1. pose proof p_nonneg as P. pose proof p_one as P1. pose proof q_range as Q. pose proof n_range as N.
  pose proof r_range as Rr. pose proof B_range as Br. pose proof k_range as K. pose proof E_range as E. pose proof (vC_range t) as C. pose proof S_sigma as SS. pose proof fb as F.
  set (z := acos (vC t) / vS t). assert (Z : 1 <= z).
  { unfold z. apply (Rmult_le_reg_r (vS t)); [exact S|]. unfold Rdiv. rewrite Rmult_assoc, Rinv_l by lra. lra. }
  apply Rabs_le_inv in E.
  set (q := vq t) in *. set (r := vr t) in *. set (p := vp t) in *. set (n := vn t) in *. set (k := vk t) in *. set (e := vE t) in *. set (c := vC t) in *. set (s := vS t) in *.
  assert (Qp : q ^ 2 = 1 - p) by (unfold p, vp; fold q; ring).
  set (k3 := k - 3 * f ^ 2 / 16 * p).
  assert (f2 : 0 <= f ^ 2 <= 0.0000113) by bp f 0.0033529 f 0.0033529.
  assert (K3 : 0 <= k3 <= 0.00085).
  { assert (0 <= 3 * f ^ 2 / 16 * p <= 0.0000022) by bp (f ^ 2) 0.0000113 p 1. unfold k3. split; [|lra].
    assert (0.0008 <= k). { unfold k, vk. fold p. fold f. assert (0 <= f * (4 - 3 * p) <= 0.0033529 * 4) by (apply box0; lra). bp f 0.0033529 (f * (4 - 3 * p)) (0.0033529 * 4). } lra. }
  assert (sdE : exists w, A * sin t * DE = q * w /\ Rabs w <= 0.0026).
  { exists (s * DE). split; [rewrite <- qS; fold q s; ring|].
    assert (X : s * DE = 3 * f ^ 2 / 8 * (q * r) * n + k * (- 2 * (q * r) * c - p * (q * s ^ 2)) - q * s ^ 2 * (2 * k ^ 2 * n ^ 2 - k ^ 2 * p ^ 2) +
       c * (4 * k * (3 * f ^ 2 / 8 * (q * r)) * n ^ 2 + 4 * k ^ 2 * n * (- 2 * (q * r) * c - p * (q * s ^ 2)) - 2 * k * (3 * f ^ 2 / 8 * (q * r)) * p ^ 2 - 2 * k ^ 2 * p * (- 2 * (q * r)))).
    { unfold DE, Dn, Dk, Dp. rewrite <- qS. fold q r p n k c s. field. lra. }
    rewrite X. clear X. set (qr := q * r). set (qs := q * s ^ 2).
    assert (QR : -1 <= qr <= 1) by (unfold qr; bx q 1 r 1). assert (QS : -1 <= qs <= 1) by (unfold qs; assert (0 <= s ^ 2 <= 1) by bp s 1 s 1; bx q 1 (s ^ 2) 1).
    assert (N1 : -1 <= n <= 1) by lra. assert (N2 : 0 <= n ^ 2 <= 1) by (pose proof (pow2_ge_0 n); bx n 1 n 1). assert (P2 : 0 <= p ^ 2 <= 1) by bp p 1 p 1. assert (K2 : 0 <= k ^ 2 <= 0.00000073) by bp k 0.00085 k 0.00085.
    set (d := - 2 * qr * c - p * qs). assert (Dd : -3 <= d <= 3). { unfold d. assert (-1 <= qr * c <= 1) by bx qr 1 c 1. assert (-1 <= p * qs <= 1) by bx p 1 qs 1. lra. }
    set (g := 3 * f ^ 2 / 8 * qr). assert (G : -0.0000043 <= g <= 0.0000043) by (unfold g; bx (f ^ 2) 0.0000113 qr 1).
    assert (T1 : -0.0000043 <= g * n <= 0.0000043) by bx g 0.0000043 n 1.
    assert (T2 : -0.00255 <= k * d <= 0.00255) by bx k 0.00085 d 3.
    assert (T3 : -0.00000146 <= 2 * k ^ 2 * n ^ 2 - k ^ 2 * p ^ 2 <= 0.00000146).
    { assert (0 <= k ^ 2 * n ^ 2 <= 0.00000073) by bp (k ^ 2) 0.00000073 (n ^ 2) 1. assert (0 <= k ^ 2 * p ^ 2 <= 0.00000073) by bp (k ^ 2) 0.00000073 (p ^ 2) 1. lra. }
    assert (T4 : -0.00000146 <= qs * (2 * k ^ 2 * n ^ 2 - k ^ 2 * p ^ 2) <= 0.00000146).
    { set (w := 2 * k ^ 2 * n ^ 2 - k ^ 2 * p ^ 2) in *. bx qs 1 w 0.00000146. }
    assert (KG : -0.00000001 <= k * g <= 0.00000001) by bx k 0.00085 g 0.0000043.
    assert (T5 : -0.00000001 <= k * g * n ^ 2 <= 0.00000001) by bx (k * g) 0.00000001 (n ^ 2) 1.
    assert (T6 : -0.00000001 <= k * g * p ^ 2 <= 0.00000001) by bx (k * g) 0.00000001 (p ^ 2) 1.
    assert (ND : -3 <= n * d <= 3) by bx n 1 d 3. assert (T7 : -0.0000022 <= k ^ 2 * (n * d) <= 0.0000022) by bx (k ^ 2) 0.00000073 (n * d) 3.
    assert (PQ : -1 <= p * qr <= 1) by bx p 1 qr 1. assert (T8 : -0.00000073 <= k ^ 2 * (p * qr) <= 0.00000073) by bx (k ^ 2) 0.00000073 (p * qr) 1.
    set (big := 4 * k * g * n ^ 2 + 4 * k ^ 2 * n * d - 2 * k * g * p ^ 2 - 2 * k ^ 2 * p * (- 2 * qr)).
    assert (BG : -0.000013 <= big <= 0.000013).
    { unfold big. replace (4 * k * g * n ^ 2) with (4 * (k * g * n ^ 2)) by ring. replace (4 * k ^ 2 * n * d) with (4 * (k ^ 2 * (n * d))) by ring.
      replace (2 * k * g * p ^ 2) with (2 * (k * g * p ^ 2)) by ring. replace (2 * k ^ 2 * p * (- 2 * qr)) with (- 4 * (k ^ 2 * (p * qr))) by ring. lra. }
    assert (T9 : -0.000013 <= c * big <= 0.000013) by bx c 1 big 0.000013. apply Rabs_le. lra. }
  destruct sdE as (w & W1 & W2). apply Rabs_le_inv in W2.
  assert (X : Dh = 2 * k3 * (q ^ 2 * r * z) + 2 * k3 * (q ^ 2 * r * e) + (1 - k * p) * (r * z + q ^ 2 + (c - B) * e + q * w)).
  { unfold Dh. rewrite W1. replace (A * cos t) with (c - B) by (unfold c, vC; ring). rewrite <- qS. unfold Dk, Dp, z, k3. fold q r p k c s e. field. lra. }
  rewrite X. clear X W1.
  assert (Q2 : 0 <= q ^ 2 <= 1) by lra. assert (Q2r : -1 <= q ^ 2 * r <= 1) by bx (q ^ 2) 1 r 1.
  assert (U1 : - (0.00085 * z) <= k3 * (q ^ 2 * r * z) <= 0.00085 * z).
  { assert (- z <= q ^ 2 * r * z <= z) by bx (q ^ 2 * r) 1 z z. set (v := q ^ 2 * r * z) in *. bx k3 0.00085 v z. }
  assert (U2 : -0.000001 <= k3 * (q ^ 2 * r * e) <= 0.000001).
  { assert (-0.00086 <= q ^ 2 * r * e <= 0.00086) by bx (q ^ 2 * r) 1 e 0.00086. set (v := q ^ 2 * r * e) in *. bx k3 0.00085 v 0.00086. }
  assert (U3 : - z <= r * z + q ^ 2 <= z). { assert (- (p * z) <= r * z <= p * z) by bx r p z z. rewrite Qp. assert ((1 - p) * 1 <= (1 - p) * z) by (apply Rmult_le_compat_l; lra). split; lra. }
  assert (U4 : -0.00172 <= (c - B) * e <= 0.00172). { assert (-2 <= c - B <= 2) by lra. bx (c - B) 2 e 0.00086. }
  assert (U5 : -0.0026 <= q * w <= 0.0026) by bx q 1 w 0.0026.
  set (v := r * z + q ^ 2 + (c - B) * e + q * w). assert (V : - (z + 0.00432) <= v <= z + 0.00432) by (unfold v; lra).
  assert (KP : 0 <= 1 - k * p <= 1) by bp k 0.00085 p 1.
  assert (U6 : - (z + 0.00432) <= (1 - k * p) * v <= z + 0.00432) by bx (1 - k * p) 1 v (z + 0.00432).
  apply Rabs_le. lra.
Qed.
Lemma g_sign : 0 <= sin t * vg t /\ Rabs (vg t) <= 0.0106.
Proof.
  pose proof S_pos as S. pose proof S_one as S1. pose proof p_nonneg as P. pose proof p_one as P1. pose proof q_range as Q. pose proof k_range as K. pose proof E_range as E.
  pose proof S_sigma as SS. pose proof fb as F. pose proof A_pos' as AP. apply Rabs_le_inv in E. pose proof (acos_bound (vC t)) as AB. pose proof PI_4 as P4.
  assert (PI < 3.15) as P5. { pose proof PI_bounds. lra. }
  assert (X : vg t = f * (1 - vk t * vp t) * (vq t * (acos (vC t) + vS t * vE t))).
  { unfold vg, vh. rewrite <- qS. ring. }
  assert (Y : 0 <= acos (vC t) + vS t * vE t <= 3.151).
  { assert (-0.00086 * vS t <= vS t * vE t <= 0.00086 * vS t) by bx (vS t) (vS t) (vE t) 0.00086. lra. }
  assert (KP : 0 <= 1 - vk t * vp t <= 1) by bp (vk t) 0.00085 (vp t) 1.
  set (h := acos (vC t) + vS t * vE t) in *. set (u := f * (1 - vk t * vp t)) in *. assert (U : 0 <= u <= 0.0033529) by (unfold u; bp f 0.0033529 (1 - vk t * vp t) 1).
  rewrite X. split.
  - assert (Z : 0 <= sin t * vq t). { replace (sin t * vq t) with (A * (sin t) ^ 2 * / vS t) by (unfold vq; field; lra). apply Rmult_le_pos; [|left; apply Rinv_0_lt_compat; exact S]. pose proof (pow2_ge_0 (sin t)). nra. }
    replace (sin t * (u * (vq t * h))) with (u * h * (sin t * vq t)) by ring. apply Rmult_le_pos; [apply Rmult_le_pos; lra|exact Z].
  - apply Rabs_le. assert (-3.151 <= vq t * h <= 3.151) by bx (vq t) 1 h 3.151. set (v := vq t * h) in *. bx u 0.0033529 v 3.151.
Qed.
End At.
Lemma vC_low : forall t, acos (vC t) <= PI - 0.0175 -> -1 < vC t.
Proof.
  intros t H. destruct (vC_range t) as [[L|E] _]; [exact L|]. rewrite <- E in H. replace (-1) with (Ropp 1) in H by ring. rewrite acos_opp, acos_1 in H. lra.
Qed.
Lemma sin_low : forall w, 0 <= w <= 2 -> w * (1 - w ^ 2 / 6) <= sin w.
Proof.
  intros w H. pose proof PI_bounds as P. destruct (SIN w) as [S _]; [lra|lra|]. unfold sin_lb, sin_approx, sin_term in S. simpl in S.
  assert (X : w * (1 - w ^ 2 / 6) + w ^ 5 / 120 * (1 - w ^ 2 / 42) <= sin w).
  { eapply Rle_trans; [|exact S]. apply Req_le. field. }
  assert (0 <= w ^ 5) by (apply pow_le; lra). assert (w ^ 2 <= 4) by nra. assert (0 <= w ^ 5 / 120 * (1 - w ^ 2 / 42)) by (apply Rmult_le_pos; lra). lra.
Qed.
Lemma steep : forall s, 0 < s <= PI - 0.0175 -> s <= 190 * sin s.
Proof.
  intros s H. pose proof PI_bounds as P. destruct (Rle_dec s 2) as [L|L].
  - pose proof (sin_low s ltac:(lra)) as S. assert (s ^ 2 <= 4) by nra. assert (s * (1 / 3) <= s * (1 - s ^ 2 / 6)) by (apply Rmult_le_compat_l; lra). lra.
  - rewrite <- sin_PI_x. set (w := PI - s) in *. assert (W : 0.0175 <= w <= 1.15) by (unfold w; lra). pose proof (sin_low w ltac:(lra)) as S.
    destruct (Rle_dec w 0.1) as [W1|W1].
    + assert (w ^ 2 <= 0.01) by nra. assert (0.0175 * 0.998 <= w * (1 - w ^ 2 / 6)) by (apply Rmult_le_compat; lra). lra.
    + assert (w ^ 2 <= 1.3225) by nra. assert (0.1 * 0.5 <= w * (1 - w ^ 2 / 6)) by (apply Rmult_le_compat; lra). lra.
Qed.
Lemma slope : forall t, vC t < 1 -> acos (vC t) <= PI - 0.0175 -> exists l, D vg t l /\ Rabs l <= 2 / 3.
Proof.
  intros t Hhi H. pose proof (vC_low t H) as Hlo. exists (f * Dh t). split.
  - eapply D_eq; [apply (D_mult (fun _ => f) vh); [apply derivable_pt_lim_const|exact (d_h t Hlo Hhi)]|]. ring.
  - pose proof (Dh_bound t Hlo Hhi) as Bd. pose proof (S_pos t Hlo Hhi) as S. pose proof (S_sigma t) as SS. pose proof (steep (acos (vC t)) ltac:(lra)) as St. rewrite <- sigma_S in St.
    pose proof fb as F. assert (Z : acos (vC t) / vS t <= 190).
    { apply (Rmult_le_reg_r (vS t)); [exact S|]. unfold Rdiv. rewrite Rmult_assoc, Rinv_l by lra. lra. }
    rewrite Rabs_mult, (Rabs_right f) by lra. pose proof (Rabs_pos (Dh t)).
    assert (0 <= f * Rabs (Dh t) <= 0.0033529 * (1.0065 * 190)) by (apply box0; lra). lra.
Qed.
Definition tame (s t : R) : Prop := forall c, s <= c <= t -> vC c < 1 /\ acos (vC c) <= PI - 0.0175.
Lemma closer_lt : forall s t, s < t -> tame s t -> Rabs (vg t - vg s) <= 2 / 3 * Rabs (t - s).
Proof.
  intros s t L T.
  destruct (MVT_cor2 vg (fun c => f * Dh c) s t L) as (c & E & Hc).
  - intros c Hc. destruct (T c Hc) as [T1 T2]. eapply D_eq; [apply (D_mult (fun _ => f) vh); [apply derivable_pt_lim_const|exact (d_h c (vC_low c T2) T1)]|]. ring.
  - rewrite E, Rabs_mult. apply Rmult_le_compat_r; [apply Rabs_pos|]. destruct (T c ltac:(lra)) as [T1 T2]. destruct (slope c T1 T2) as (l & Dl & Bl).
    assert (Eq : f * Dh c = l); [|rewrite Eq; exact Bl]. eapply uniqueness_limite; [|exact Dl].
    eapply D_eq; [apply (D_mult (fun _ => f) vh); [apply derivable_pt_lim_const|exact (d_h c (vC_low c T2) T1)]|]. ring.
Qed.
Lemma closer : forall s t, tame (Rmin s t) (Rmax s t) -> Rabs (vg t - vg s) <= 2 / 3 * Rabs (t - s).
Proof.
  intros s t T. destruct (Rtotal_order s t) as [L|[->|L]].
  - rewrite Rmin_left, Rmax_right in T by lra. apply closer_lt; assumption.
  - unfold Rminus. rewrite !Rplus_opp_r, Rabs_R0. lra.
  - rewrite Rmin_right, Rmax_left in T by lra. rewrite Rabs_minus_sym, (Rabs_minus_sym t). apply closer_lt; assumption.
Qed.
(** ** The code's round *)
Lemma code_round : forall delta t, -1 < vC t -> vC t < 1 -> exists r, inverse_round x a y b delta t = Ok r /\ r_next r = delta + vg t.
Proof.
  intros delta t Hlo Hhi. pose proof (S_pos t Hlo Hhi) as S. pose proof (S_sq t Hlo Hhi) as S2. pose proof (cs1 t) as CS. pose proof (acos_bound (vC t)) as AB.
  assert (SQ : (b * sin t) ^ 2 + (a * y - x * b * cos t) ^ 2 = vS t ^ 2).
  { rewrite S2. unfold vC, B, A. replace ((b * sin t) ^ 2) with (b ^ 2 * (1 - cos t ^ 2)) by (replace (1 - cos t ^ 2) with (sin t ^ 2) by lra; ring).
    assert (X : (a * y - x * b * cos t) ^ 2 + (x * y + a * b * cos t) ^ 2 = (x ^ 2 + a ^ 2) * (y ^ 2 + b ^ 2 * cos t ^ 2)) by ring. rewrite Hxa in X.
    assert (Y : y ^ 2 = 1 - b ^ 2) by lra. rewrite Y in X. lra. }
  unfold inverse_round. rewrite SQ, rsqrt_ok by (apply pow2_ge_0). cbv beta iota delta [bind]. rewrite (sqrt_unique' (vS t)) by (try reflexivity; lra). rewrite rdiv_ok by lra.
  fold A. change (x * y) with B. fold (vC t). fold (vq t). change (1 - vq t ^ 2) with (vp t).
  replace (atan2 (vS t) (vC t)) with (acos (vC t)).
  2:{ rewrite (sigma_S t). pose proof (atan2_polar 1 (acos (vC t)) ltac:(lra)) as P. rewrite !Rmult_1_l in P. rewrite cos_acos in P by (apply vC_range). rewrite P; [reflexivity|]. pose proof PI_pos. lra. }
  eexists. split; [reflexivity|]. cbn [r_next]. f_equal. unfold vg, vh, vE. rewrite <- (qS t Hlo Hhi). fold f.
  replace (f / 16 * vp t * (4 + f * (4 - 3 * vp t))) with (vk t * vp t) by (unfold vk; ring). rewrite (Rmult_assoc 2 x y). change (x * y) with B.
  destruct (Req_dec (vp t) 0) as [Z|Z].
  - pose proof (n_range t Hlo Hhi) as N. rewrite Z in *. rewrite rdiv_zero. assert (N0 : vn t = 0) by lra. rewrite N0. ring.
  - rewrite rdiv_ok by exact Z. replace (vn t) with (vp t * (vC t - 2 * B / vp t)) by (unfold vn; field; exact Z). ring.
Qed.
(** ** The loop *)
Section Loop.
Variables L lo hi : R.
Hypothesis HL : lo < L < hi.
Hypothesis Hone : forall t, lo < t < hi -> Rabs (t - L) <= 0.0106 -> vC t < 1.
Hypothesis Hfar : forall t, Rabs (t - L) <= 0.0106 -> acos (vC t) <= PI - 0.0175.
Hypothesis Hstay : forall t, lo < t < hi -> Rabs (t - L) <= 0.0106 -> lo < L + vg t < hi.
Lemma loop_ends : forall tol n k t d, lo < t < hi -> Rabs (t - L) <= 0.0106 -> Rabs (L + vg t - t) <= d -> d * (2 / 3) ^ n < tol ->
  exists r, inverse_loop (S (n + k)) tol x a y b L t = Ok r.
Proof.
  intro tol. induction n as [|n IH]; intros k t d T1 T2 T3 T4.
  - pose proof (Hone t T1 T2) as C1. pose proof (vC_low t (Hfar t T2)) as C2. destruct (code_round L t C2 C1) as (r & E & N). cbn [inverse_loop]. rewrite E. cbv beta iota delta [bind].
    rewrite N, Rltb_true; [eauto|]. simpl in T4. lra.
  - pose proof (Hone t T1 T2) as C1. pose proof (vC_low t (Hfar t T2)) as C2. destruct (code_round L t C2 C1) as (r & E & N). cbn [inverse_loop]. rewrite E. cbv beta iota delta [bind].
    destruct (Rltb (Rabs (r_next r - t)) tol); [eauto|]. rewrite N. pose proof (Hstay t T1 T2) as U1. destruct (g_sign t C2 C1) as [_ G].
    assert (U2 : Rabs (L + vg t - L) <= 0.0106) by (replace (L + vg t - L) with (vg t) by ring; exact G).
    apply (IH k (L + vg t) (2 / 3 * d) U1 U2).
    + replace (L + vg (L + vg t) - (L + vg t)) with (vg (L + vg t) - vg t) by ring. eapply Rle_trans; [apply closer|].
      * intros c Hc. assert (lo < c < hi /\ Rabs (c - L) <= 0.0106) as [D1 D2].
        { apply Rabs_le_inv in T2. apply Rabs_le_inv in U2. unfold Rmin, Rmax in Hc. destruct (Rle_dec t (L + vg t)); (split; [lra|apply Rabs_le; lra]). }
        split; [apply Hone|apply Hfar]; assumption.
      * lra.
    + simpl in T4. lra.
Qed.
Lemma loop_start : forall tol n k, 0.0106 * (2 / 3) ^ n < tol -> exists r, inverse_loop (S (n + k)) tol x a y b L L = Ok r.
Proof.
  intros tol n k T. assert (Z : Rabs (L - L) <= 0.0106) by (unfold Rminus; rewrite Rplus_opp_r, Rabs_R0; lra).
  apply (loop_ends tol n k L 0.0106 HL Z); [|exact T].
  replace (L + vg L - L) with (vg L) by ring. apply g_sign; [apply vC_low, Hfar, Z|apply Hone; assumption].
Qed.
End Loop.
End Step.

(** ** Places *)
Lemma acos_cos_le : forall c d, -1 <= c <= 1 -> 0 <= d <= PI -> cos d <= c -> acos c <= d.
Proof.
  intros c d C Dd H. replace d with (acos (cos d)) by (apply acos_cos; exact Dd). apply acos_decr; [apply COS_bound|exact C|exact H].
Qed.
Lemma param_near : forall p, between_poles p -> angle p (on_sphere p) <= 0.0034.
Proof.
  intros p P. pose proof (cos_lat p P) as C. pose proof (param_pos p) as CU. pose proof (param_sin p) as SU. pose proof FLAT_bound as F. pose proof PI_bounds as PB.
  unfold angle. assert (E : dot (up p) (up (on_sphere p)) = cos (deg (fst p) - parametric p)).
  { unfold on_sphere, up, dot. destruct p as [la lo]. cbn [fst snd]. rewrite deg_to. rewrite cos_minus. pose proof (cs1 (deg lo)) as E.
    transitivity (cos (deg la) * cos (parametric (la, lo)) * (cos (deg lo) ^ 2 + sin (deg lo) ^ 2) + sin (deg la) * sin (parametric (la, lo))); [ring|rewrite E; ring]. }
  rewrite E. apply acos_cos_le; [apply COS_bound|lra|]. set (ph := deg (fst p)) in *. set (u := parametric p) in *.
  assert (T : tan ph = sin ph / cos ph) by reflexivity.
  assert (S : sin (ph - u) = FLAT * (sin ph * cos u)). { rewrite sin_minus, SU, T. field. lra. }
  assert (Cp : 0 <= cos (ph - u)).
  { rewrite cos_minus, SU, T. replace (cos ph * cos u + sin ph * ((1 - FLAT) * (sin ph / cos ph) * cos u)) with (cos u * (cos ph + (1 - FLAT) * (sin ph ^ 2 * / cos ph))) by (field; lra).
    apply Rmult_le_pos; [lra|]. assert (0 < / cos ph) by (apply Rinv_0_lt_compat; exact C). pose proof (pow2_ge_0 (sin ph)).
    assert (0 <= sin ph ^ 2 * / cos ph) by (apply Rmult_le_pos; lra). assert (0 <= (1 - FLAT) * (sin ph ^ 2 * / cos ph)) by (apply Rmult_le_pos; lra). lra. }
  assert (B : -1 <= sin ph * cos u <= 1) by (pose proof (SIN_bound ph); pose proof (COS_bound u); bx (sin ph) 1 (cos u) 1).
  assert (S1 : sin (ph - u) ^ 2 <= 0.0033529 ^ 2). { rewrite S. assert (-0.0033529 <= FLAT * (sin ph * cos u) <= 0.0033529) by bx FLAT 0.0033529 (sin ph * cos u) 1. nra. }
  pose proof (sin_low 0.0034 ltac:(lra)) as L. pose proof (cs1 0.0034) as X. pose proof (cs1 (ph - u)) as Y. assert (Z : 0.0033529 ^ 2 <= sin 0.0034 ^ 2) by nra.
  destruct (Rle_dec (cos 0.0034) (cos (ph - u))) as [K|K]; [exact K|]. exfalso. nra.
Qed.
Lemma turn_near : forall la l t, angle (la, l) (la, l + to_degrees t) <= Rabs t.
Proof.
  intros la l t. destruct (Rle_dec (Rabs t) PI) as [L|L]; [|pose proof (angle_bound (la, l) (la, l + to_degrees t)); lra].
  unfold angle. apply acos_cos_le; [apply dot_bound|split; [apply Rabs_pos|exact L]|].
  replace (cos (Rabs t)) with (cos t) by (unfold Rabs; destruct (Rcase_abs t); [rewrite cos_neg|]; reflexivity).
  unfold up, dot. rewrite deg_plus, deg_to, cos_plus, sin_plus. pose proof (cs1 (deg l)) as E. pose proof (cs1 (deg la)) as E2. pose proof (COS_bound t).
  apply (Rle_trans _ (cos (deg la) ^ 2 * cos t + sin (deg la) ^ 2)); [|apply Req_le].
  - replace (sin (deg la) ^ 2) with (1 - cos (deg la) ^ 2) by lra. pose proof (pow2_ge_0 (sin (deg la))). nra.
  - transitivity (cos (deg la) ^ 2 * cos t * (cos (deg l) ^ 2 + sin (deg l) ^ 2) + sin (deg la) ^ 2); [rewrite E; ring|ring].
Qed.
Lemma to_deg : forall z, to_degrees (deg z) = z.
Proof. intro z. unfold to_degrees, deg. field. pose proof PI_pos. lra. Qed.
Lemma to_plus : forall z w, to_degrees (z + w) = to_degrees z + to_degrees w.
Proof. intros z w. unfold to_degrees. field. pose proof PI_pos. lra. Qed.
Section Places.
Variables p q : place.
Hypothesis Hp : between_poles p.
Hypothesis Hq : between_poles q.
Hypothesis Hs : ~ same_place p q.
Hypothesis Ho : angle p q <= deg 178.
Let L := deg (snd q - snd p).
Let x := sin (parametric p).
Let y := sin (parametric q).
Let a := cos (parametric p).
Let b := cos (parametric q).
Lemma vC_dot : forall t, vC x y a b t = dot (up (on_sphere p)) (up (to_degrees (parametric q), snd p + to_degrees t)).
Proof.
  intro t. unfold vC, on_sphere, up, dot. rewrite deg_plus, !deg_to, cos_plus, sin_plus. fold x y a b. pose proof (cs1 (deg (snd p))) as E.
  transitivity (x * y + a * b * cos t * (cos (deg (snd p)) ^ 2 + sin (deg (snd p)) ^ 2)); [rewrite E; ring|ring].
Qed.
Lemma far_ok : forall t, Rabs (t - L) <= 0.0106 -> acos (vC x y a b t) <= PI - 0.0175.
Proof.
  intros t H. rewrite vC_dot. fold (angle (on_sphere p) (to_degrees (parametric q), snd p + to_degrees t)).
  pose proof (angle_triangle (on_sphere p) (on_sphere q) (to_degrees (parametric q), snd p + to_degrees t)) as T1.
  pose proof (angle_triangle (on_sphere p) p (on_sphere q)) as T2. pose proof (angle_triangle p q (on_sphere q)) as T3.
  pose proof (param_near p Hp) as N1. pose proof (param_near q Hq) as N2. rewrite angle_sym in N1.
  pose proof (turn_near (to_degrees (parametric q)) (snd q) (t - L)) as T4.
  replace (snd q + to_degrees (t - L)) with (snd p + to_degrees t) in T4.
  2:{ replace (to_degrees t) with (to_degrees ((t - L) + L)) by (f_equal; ring). rewrite to_plus. unfold L. rewrite to_deg. ring. }
  change (to_degrees (parametric q), snd q) with (on_sphere q) in T4. pose proof PI_bounds as P.
  assert (E : deg 178 = PI - PI / 90) by (unfold deg; field). lra.
Qed.
Lemma xa : x ^ 2 + a ^ 2 = 1. Proof. unfold x, a. pose proof (cs1 (parametric p)). lra. Qed.
Lemma yb : y ^ 2 + b ^ 2 = 1. Proof. unfold y, b. pose proof (cs1 (parametric q)). lra. Qed.
Lemma a_pos : 0 < a. Proof. apply param_pos. Qed.
Lemma b_pos : 0 < b. Proof. apply param_pos. Qed.
Lemma same_lat : parametric p = parametric q -> fst p = fst q.
Proof.
  intro E. unfold parametric in E. pose proof FLAT_bound. assert (T : (1 - FLAT) * tan (deg (fst p)) = (1 - FLAT) * tan (deg (fst q))).
  { rewrite <- (tan_atan ((1 - FLAT) * tan (deg (fst p)))), E. apply tan_atan. }
  apply Rmult_eq_reg_l in T; [|lra]. pose proof (lat_open _ Hp) as A. pose proof (lat_open _ Hq) as B.
  assert (X : deg (fst p) = deg (fst q)).
  { destruct (Rtotal_order (deg (fst p)) (deg (fst q))) as [l|[l|l]]; [|exact l|]; apply tan_increasing in l; lra. }
  unfold deg in X. pose proof PI_pos. nra.
Qed.
Lemma sin_cos_eq : x = y -> a = b -> parametric p = parametric q.
Proof.
  intros E _. unfold x, y in E. assert (R1 : - (PI / 2) <= parametric p <= PI / 2) by (unfold parametric; pose proof (atan_bound ((1 - FLAT) * tan (deg (fst p)))); lra).
  assert (R2 : - (PI / 2) <= parametric q <= PI / 2) by (unfold parametric; pose proof (atan_bound ((1 - FLAT) * tan (deg (fst q)))); lra).
  apply sin_inj; assumption.
Qed.
Lemma loop_here : forall tol n k, 0.0106 * (2 / 3) ^ n < tol -> exists r, inverse_loop (S (n + k)) tol x a y b L L = Ok r.
Proof.
  intros tol n k0 TOLN.
  pose proof a_pos as AP. pose proof b_pos as BP. pose proof xa as XA. pose proof yb as YB. pose proof PI_bounds as PB.
  destruct (Req_dec x y) as [E|NE].
  - assert (E2 : a = b) by (rewrite <- E in YB; nra). pose proof (same_lat (sin_cos_eq E E2)) as FL.
    set (k := Int_part (L / (2 * PI))). destruct (base_Int_part (L / (2 * PI))) as [K1 K2]. fold k in K1, K2.
    assert (KL : IZR k * (2 * PI) <= L < IZR k * (2 * PI) + 2 * PI).
    { assert (X : L = L / (2 * PI) * (2 * PI)) by (field; lra). split; [rewrite X; apply Rmult_le_compat_r; lra|]. rewrite X at 1. replace (IZR k * (2 * PI) + 2 * PI) with ((IZR k + 1) * (2 * PI)) by ring. apply Rmult_lt_compat_r; lra. }
    assert (LN : L <> IZR k * (2 * PI)).
    { intro X. apply Hs. unfold same_place. destruct p as [la lo], q as [la' lo']. cbn [fst snd] in *. subst la'. unfold L in X. cbn [fst snd] in X.
      assert (Y : deg lo' = deg lo + 2 * IZR k * PI). { replace lo' with (lo + (lo' - lo)) by ring. rewrite deg_plus, X. ring. }
      unfold up. rewrite Y, cos_periodZ, sin_periodZ. reflexivity. }
    assert (CT : forall t, IZR k * (2 * PI) < t < IZR k * (2 * PI) + 2 * PI -> vC x y a b t < 1).
    { intros t T. unfold vC. rewrite <- E, <- E2. pose proof (COS_bound t) as CB. assert (NC : cos t <> 1).
      { intro X. assert (Z : t - IZR k * (2 * PI) = 0); [|lra]. apply cos_one; [lra|]. rewrite <- (cos_periodZ (t - IZR k * (2 * PI)) k), <- X. f_equal. ring. }
      assert (0 < a * a) by nra. nra. }
    assert (SG : forall t, sin t = sin (t - IZR k * (2 * PI))). { intro t. rewrite <- (sin_periodZ (t - IZR k * (2 * PI)) k). f_equal. ring. }
    apply (loop_start x y a b AP BP XA YB L (IZR k * (2 * PI)) (IZR k * (2 * PI) + 2 * PI)); [lra|intros t T _; apply CT; exact T|exact far_ok| |exact TOLN].
    intros t T H. destruct (g_sign x y a b AP BP XA YB t) as [G1 G2]; [apply vC_low; try assumption; apply far_ok; exact H|apply CT; exact T|].
    apply Rabs_le_inv in G2. apply Rabs_le_inv in H. rewrite SG in G1. set (w := t - IZR k * (2 * PI)) in *.
    destruct (Rlt_dec w PI) as [W|W].
    + assert (0 < sin w) by (apply sin_gt_0; unfold w in *; lra). assert (0 <= vg x y a b t) by nra. unfold w in *. lra.
    + destruct (Req_dec w PI) as [W2|W2]; [unfold w in *; lra|]. assert (sin w < 0) by (apply sin_lt_0; unfold w in *; lra). assert (vg x y a b t <= 0) by nra. unfold w in *. lra.
  - assert (CT : forall t, vC x y a b t < 1).
    { intro t. unfold vC. pose proof (COS_bound t) as CB. assert (0 < a * b) by nra. assert (0 < (x - y) ^ 2) by (assert (x - y <> 0) by lra; nra). pose proof (pow2_ge_0 (a - b)). nra. }
    apply (loop_start x y a b AP BP XA YB L (L - 1) (L + 1)); [lra|intros t _ _; apply CT|exact far_ok| |exact TOLN].
    intros t _ H. destruct (g_sign x y a b AP BP XA YB t) as [_ G2]; [apply vC_low; try assumption; apply far_ok; exact H|apply CT|]. apply Rabs_le_inv in G2. lra.
Qed.
Lemma inverse_ends : forall u m tol n k, is_unit u m -> 0.0106 * (2 / 3) ^ n < tol -> exists d be, w_distance_and_bearing p q u tol (S (n + k)) = Ok (d, be).
Proof.
  intros u m tol n k U T. unfold w_distance_and_bearing. destruct (Rzero (fst p - fst q) && Rzero (snd p - snd q))%bool; [eauto|].
  rewrite !param_code. fold x y a b. rewrite radians_deg. fold L. destruct (loop_here tol n k T) as (r & ->). cbv beta iota delta [bind].
  destruct (unit_of u m U) as (_ & C & _). rewrite C. eauto.
Qed.
Lemma inverse_default : forall u m n, is_unit u m -> (61 <= n)%nat -> exists d be, w_distance_and_bearing p q u TOL n = Ok (d, be).
Proof.
  intros u m n U N. replace n with (S (60 + (n - 61))) by lia. apply (inverse_ends u m TOL 60 (n - 61) U). rewrite TOL_val. lra.
Qed.
Lemma inverse_tol : forall u m tol, is_unit u m -> 0 < tol -> exists n0, forall n, (n0 <= n)%nat -> exists d be, w_distance_and_bearing p q u tol n = Ok (d, be).
Proof.
  intros u m tol U T. destruct (pow_lt_1_zero (2 / 3)) with (y := tol) as (N & H); [rewrite Rabs_right; lra|exact T|].
  exists (S N). intros n Hn. replace n with (S (N + (n - S N))) by lia. apply (inverse_ends u m tol N (n - S N) U). specialize (H N (le_n N)).
  assert (0 <= (2 / 3) ^ N) by (apply pow_le; lra). rewrite Rabs_right in H by lra. lra.
Qed.
End Places.
Lemma climb_near : forall l x y, angle (x, l) (y, l) <= deg (Rabs (x - y)).
Proof.
  intros l x y. destruct (Rle_dec (deg (Rabs (x - y))) PI) as [H|H]; [|pose proof (angle_bound (x, l) (y, l)); lra].
  assert (D0 : 0 <= deg (Rabs (x - y))) by (unfold deg; pose proof PI_pos; pose proof (Rabs_pos (x - y)); nra).
  unfold angle. apply acos_cos_le; [apply dot_bound|lra|]. apply Req_le.
  replace (cos (deg (Rabs (x - y)))) with (cos (deg x - deg y)).
  2:{ unfold Rabs. destruct (Rcase_abs (x - y)); [rewrite <- cos_neg|]; f_equal; unfold deg; field. }
  rewrite cos_minus. unfold up, dot. pose proof (cs1 (deg l)) as E.
  transitivity (cos (deg x) * cos (deg y) * (cos (deg l) ^ 2 + sin (deg l) ^ 2) + sin (deg x) * sin (deg y)); [rewrite E; ring|ring].
Qed.
Lemma near_by_differences : forall p q, Rabs (fst p - fst q) + Rabs (snd p - snd q) <= 178 -> angle p q <= deg 178.
Proof.
  intros [a l] [b m] H. cbn [fst snd] in H. pose proof (angle_triangle (a, l) (b, l) (b, m)) as T. pose proof (climb_near l a b) as C.
  pose proof (turn_near b l (deg (m - l))) as M. rewrite to_deg in M. replace (l + (m - l)) with m in M by ring.
  assert (E : Rabs (deg (m - l)) = deg (Rabs (l - m))).
  { unfold deg. rewrite Rabs_minus_sym. pose proof PI_pos. replace ((m - l) * PI / 180) with ((m - l) * (PI / 180)) by field. rewrite Rabs_mult, (Rabs_right (PI / 180)) by lra. field. }
  rewrite E in M. assert (X : deg (Rabs (a - b)) + deg (Rabs (l - m)) <= deg 178); [|lra]. rewrite <- deg_plus. unfold deg. pose proof PI_pos. nra.
Qed.
Lemma same_lat_place : forall p q, between_poles p -> between_poles q -> same_place p q -> fst p = fst q.
Proof.
  intros [a l] [b m] P Q H. unfold same_place, up in H. injection H as _ _ H. pose proof (lat_open _ P) as A. pose proof (lat_open _ Q) as B. cbn [fst] in *.
  assert (X : deg a = deg b) by (apply sin_inj; lra). unfold deg in X. pose proof PI_pos. nra.
Qed.
Lemma same_lon : forall p q, between_poles p -> same_place p q -> Rabs (snd p - snd q) <= 178 -> snd p = snd q.
Proof.
  intros p q P H L. pose proof PI_pos as PP. assert (A : angle p q = 0) by (apply angle_zero; exact H).
  pose proof (cos_lat p P) as C. destruct p as [a l], q as [b m]. cbn [fst snd] in *. unfold same_place, up in H. injection H as H1 H2 H3.
  set (ca := cos (deg a)) in *. set (cb := cos (deg b)) in *.
  pose proof (cs1 (deg l)) as E1. pose proof (cs1 (deg m)) as E2.
  assert (CC : cb ^ 2 = ca ^ 2). { assert (X : ca ^ 2 * (cos (deg l) ^ 2 + sin (deg l) ^ 2) = cb ^ 2 * (cos (deg m) ^ 2 + sin (deg m) ^ 2)).
    { transitivity ((ca * cos (deg l)) ^ 2 + (ca * sin (deg l)) ^ 2); [ring|]. rewrite H1, H2. ring. } rewrite E1, E2 in X. lra. }
  assert (CM : ca * cb * cos (deg m - deg l) = ca ^ 2 /\ (cb = ca \/ cb = - ca)).
  { split; [|destruct (Rmult_integral (cb - ca) (cb + ca)); [replace ((cb - ca) * (cb + ca)) with (cb ^ 2 - ca ^ 2) by ring; lra|left; lra|right; lra]]. rewrite cos_minus. transitivity ((ca * cos (deg l)) * (cb * cos (deg m)) + (ca * sin (deg l)) * (cb * sin (deg m))); [ring|]. rewrite <- H1, <- H2.
    transitivity (ca ^ 2 * (cos (deg l) ^ 2 + sin (deg l) ^ 2)); [ring|rewrite E1; ring]. }
  apply Rabs_le_inv in L. assert (DB : - PI < deg m - deg l < PI) by (replace (deg m - deg l) with ((m - l) * (PI / 180)) by (unfold deg; field); split; nra).
  destruct CM as [CM [X|X]]; rewrite X in CM.
  - assert (cos (deg m - deg l) = 1) by (apply (Rmult_eq_reg_l (ca * ca)); nra). assert (Z : deg m - deg l = 0) by (apply cos_one; lra). unfold deg in Z. nra.
  - exfalso. assert (Y : cos (deg m - deg l) = -1) by (apply (Rmult_eq_reg_l (ca * ca)); nra). assert (Z : cos (PI - Rabs (deg m - deg l)) = 1).
    { rewrite Rtrigo_facts.cos_pi_minus. replace (cos (Rabs (deg m - deg l))) with (cos (deg m - deg l)) by (unfold Rabs; destruct (Rcase_abs (deg m - deg l)); [rewrite cos_neg|]; reflexivity). lra. }
    apply cos_one in Z; unfold Rabs in *; destruct (Rcase_abs (deg m - deg l)); lra.
Qed.
