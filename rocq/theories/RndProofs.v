(** Proofs about rounding. *)
From Coq Require Import Qabs Qround Qpower Qreduction.
From Verif Require Import Common ContainerModel ContinuousModel ActiveModel PathModel RndModel RndSpec.

(** ** Powers of two *)
Lemma two_pos e : 0 < 2 ^ e.
Proof. apply Qpower_0_lt. reflexivity. Qed.
Lemma two_add a b : 2 ^ (a + b) == 2 ^ a * 2 ^ b.
Proof. apply Qpower_plus. discriminate. Qed.
Lemma two_opp e : 2 ^ e * 2 ^ (- e) == 1.
Proof. rewrite <- two_add. replace (e + - e)%Z with 0%Z by lia. reflexivity. Qed.
Lemma two_Z e : (0 <= e)%Z -> 2 ^ e == inject_Z (2 ^ e).
Proof. intro H. rewrite <- (Z2Nat.id e H). generalize (Z.to_nat e). clear. intro n. rewrite Zpower_Qpower by lia. reflexivity. Qed.
Lemma two_mono a b : (a <= b)%Z -> 2 ^ a <= 2 ^ b.
Proof.
  intro H. replace b with (a + (b - a))%Z by lia. rewrite two_add. rewrite (two_Z (b - a)) by lia.
  assert (1 <= inject_Z (2 ^ (b - a))) by (change 1 with (inject_Z 1); rewrite <- Zle_Qle; assert (0 < 2 ^ (b - a))%Z by (apply Z.pow_pos_nonneg; lia); lia).
  pose proof (two_pos a). nra.
Qed.

(** ** The exponent *)
Lemma ilog2_spec a : 0 < a -> 2 ^ (ilog2 a) <= a /\ a < 2 ^ (ilog2 a + 1).
Proof.
  intro Ha. unfold ilog2. set (ln := Z.log2 (Qnum a)). set (ld := Z.log2 (Zpos (Qden a))). set (k := (ln - ld)%Z).
  assert (Hn : (0 < Qnum a)%Z) by (destruct a as [n d]; unfold Qlt in Ha; cbn in Ha |- *; lia).
  destruct (Z.log2_spec (Qnum a) Hn) as [N1 N2]. destruct (Z.log2_spec (Zpos (Qden a)) eq_refl) as [D1 D2].
  fold ln in N1, N2. fold ld in D1, D2.
  assert (Ln : (0 <= ln)%Z) by apply Z.log2_nonneg. assert (Ld : (0 <= ld)%Z) by apply Z.log2_nonneg.
  assert (Ea : a * inject_Z (Zpos (Qden a)) == inject_Z (Qnum a)) by (destruct a as [n d]; unfold Qeq; cbn; lia).
  rewrite Zle_Qle in N1, D1. rewrite Zlt_Qlt in N2, D2. rewrite <- two_Z in N1 by lia. rewrite <- two_Z in D1 by lia.
  rewrite <- two_Z in N2 by lia. rewrite <- two_Z in D2 by lia. rewrite <- Ea in N1, N2.
  unfold Z.succ in N2, D2. rewrite two_add in N2, D2. change (2 ^ 1) with 2 in N2, D2.
  assert (Ek : 2 ^ k * 2 ^ ld == 2 ^ ln) by (rewrite <- two_add; replace (k + ld)%Z with ln by (unfold k; lia); reflexivity).
  pose proof (two_pos k) as Pk. pose proof (two_pos ld) as Pd. pose proof (two_pos ln) as Pn.
  set (D := inject_Z (Zpos (Qden a))) in *. assert (PD : 0 < D) by (unfold D; reflexivity).
  assert (Up : a < 2 ^ k * 2).
  { apply Qnot_le_lt. intro C. assert (2 ^ k * 2 * D <= a * D) by nra. assert (2 ^ k * 2 ^ ld <= 2 ^ k * D) by nra. nra. }
  assert (Lo : 2 ^ k < a * 2).
  { apply Qnot_le_lt. intro C. assert (a * 2 * D <= 2 ^ k * D) by nra. assert (2 ^ k * D < 2 ^ k * (2 ^ ld * 2)) by nra. nra. }
  destruct (Qle_bool (2 ^ k) a) eqn:E.
  - apply Qle_bool_iff in E. split; [exact E|]. rewrite two_add. exact Up.
  - assert (a < 2 ^ k) by (apply Qnot_le_lt; intro C; apply Qle_bool_iff in C; congruence).
    replace (k - 1 + 1)%Z with k by lia. split; [|assumption].
    assert (2 ^ k == 2 ^ (k - 1) * 2) by (rewrite <- (two_add (k - 1) 1); replace (k - 1 + 1)%Z with k by lia; reflexivity). lra.
Qed.
Lemma ilog2_mono a b : 0 < a -> a <= b -> (ilog2 a <= ilog2 b)%Z.
Proof.
  intros Ha H. destruct (ilog2_spec a Ha) as [A1 _]. destruct (ilog2_spec b ltac:(lra)) as [_ B2].
  destruct (Z_le_gt_dec (ilog2 a) (ilog2 b)) as [L|G]; [exact L|]. exfalso.
  pose proof (two_mono (ilog2 b + 1) (ilog2 a) ltac:(lia)). lra.
Qed.

(** ** The nearest integer *)
Lemma nearest_err y : Qabs (inject_Z (nearest y) - y) <= 1 # 2.
Proof.
  unfold nearest. pose proof (Qfloor_le y) as F1. pose proof (Qlt_floor y) as F2. set (f := Qfloor y) in *. rewrite inject_Z_plus in F2. change (inject_Z 1) with 1 in F2.
  apply Qabs_Qle_condition. destruct (Qltb (y - inject_Z f) (1 # 2)) eqn:E1; [apply Qltb_lt in E1; split; lra|]. apply Qltb_ge in E1.
  destruct (Qltb (1 # 2) (y - inject_Z f)) eqn:E2; [apply Qltb_lt in E2; rewrite inject_Z_plus; change (inject_Z 1) with 1; split; lra|]. apply Qltb_ge in E2.
  destruct (Z.even f); [split; lra|rewrite inject_Z_plus; change (inject_Z 1) with 1; split; lra].
Qed.
Lemma nearest_int y z : y == inject_Z z -> nearest y = z.
Proof.
  intro E. unfold nearest. assert (Qfloor y = z) as -> by (rewrite (Qfloor_comp _ _ E); apply Qfloor_Z).
  assert (Qltb (y - inject_Z z) (1 # 2) = true) as -> by (apply Qltb_lt; lra). reflexivity.
Qed.
Lemma nearest_mono x y : x <= y -> (nearest x <= nearest y)%Z.
Proof.
  intro H. assert (Hf : (Qfloor x <= Qfloor y)%Z) by (apply Qfloor_resp_le; exact H).
  destruct (Z.eq_dec (Qfloor x) (Qfloor y)) as [E|N].
  - unfold nearest. rewrite <- E. set (f := Qfloor x).
    destruct (Qltb (x - inject_Z f) (1 # 2)) eqn:A1.
    { destruct (Qltb (y - inject_Z f) (1 # 2)); [lia|]. destruct (Qltb (1 # 2) (y - inject_Z f)); [lia|]. destruct (Z.even f); lia. }
    apply Qltb_ge in A1. assert (Qltb (y - inject_Z f) (1 # 2) = false) as -> by (apply Qltb_ge; lra).
    destruct (Qltb (1 # 2) (x - inject_Z f)) eqn:A2.
    { apply Qltb_lt in A2. assert (Qltb (1 # 2) (y - inject_Z f) = true) as -> by (apply Qltb_lt; lra). lia. }
    destruct (Qltb (1 # 2) (y - inject_Z f)); [destruct (Z.even f); lia|lia].
  - assert (U : forall q, (nearest q <= Qfloor q + 1)%Z) by (intro q; unfold nearest; destruct (Qltb _ _); [lia|]; destruct (Qltb _ _); [lia|]; destruct (Z.even _); lia).
    assert (L : forall q, (Qfloor q <= nearest q)%Z) by (intro q; unfold nearest; destruct (Qltb _ _); [lia|]; destruct (Qltb _ _); [lia|]; destruct (Z.even _); lia).
    specialize (U x). specialize (L y). lia.
Qed.

(** ** rnd64 *)
(** For positive numbers. *)
Definition rpos (a : Q) : Q := Qred (inject_Z (nearest (a * 2 ^ (- (ilog2 a - 52)))) * 2 ^ (ilog2 a - 52)).
Lemma rpos_eq a : rpos a == inject_Z (nearest (a * 2 ^ (- (ilog2 a - 52)))) * 2 ^ (ilog2 a - 52).
Proof. apply Qred_correct. Qed.
Lemma digits a : 0 < a -> inject_Z (2 ^ 52) <= a * 2 ^ (- (ilog2 a - 52)) /\ a * 2 ^ (- (ilog2 a - 52)) <= inject_Z (2 ^ 53).
Proof.
  intro Ha. destruct (ilog2_spec a Ha) as [L U]. set (k := ilog2 a) in *. replace (- (k - 52))%Z with (52 + - k)%Z by lia. rewrite two_add. pose proof (two_opp k) as O. rewrite two_add in U. change (2 ^ 1) with 2 in U.
  rewrite <- !two_Z by lia. change (2 ^ 53) with (2 ^ 52 * 2). pose proof (two_pos (- k)) as P. pose proof (two_pos 52) as P52.
  set (p := 2 ^ (- k)) in *. set (q := 2 ^ k) in *. set (c := 2 ^ 52) in *.
  assert (1 <= a * p) by nra. assert (a * p <= 2) by nra. split; nra.
Qed.
Lemma rpos_digits a : 0 < a -> (2 ^ 52 <= nearest (a * 2 ^ (- (ilog2 a - 52))) <= 2 ^ 53)%Z.
Proof.
  intro Ha. destruct (digits a Ha) as [L U]. apply nearest_mono in L, U. rewrite (nearest_int (inject_Z (2 ^ 52)) _ (Qeq_refl _)) in L. rewrite (nearest_int (inject_Z (2 ^ 53)) _ (Qeq_refl _)) in U. lia.
Qed.
Lemma rpos_err a : 0 < a -> Qabs (rpos a - a) <= u64 * a.
Proof.
  intro Ha. rewrite rpos_eq. destruct (digits a Ha) as [L _]. set (e := (ilog2 a - 52)%Z) in *. pose proof (nearest_err (a * 2 ^ (- e))) as E.
  apply Qabs_Qle_condition in E. destruct E as [E1 E2]. pose proof (two_pos e) as P. pose proof (two_opp e) as O.
  set (m := inject_Z (nearest (a * 2 ^ (- e)))) in *. set (p := 2 ^ e) in *. set (q := 2 ^ (- e)) in *.
  assert (Eq : a * q * p == a) by (transitivity (a * (p * q)); [ring|rewrite O; ring]).
  assert (H1 : inject_Z (2 ^ 52) * p <= a) by (rewrite <- Eq; apply Qmult_le_compat_r; lra).
  assert (H2 : p * (1 # 2) <= u64 * a).
  { apply Qle_trans with (u64 * (inject_Z (2 ^ 52) * p)).
    - assert (u64 * inject_Z (2 ^ 52) == 1 # 2) by reflexivity. assert (u64 * (inject_Z (2 ^ 52) * p) == (1 # 2) * p) by (rewrite Qmult_assoc, H; reflexivity). lra.
    - assert (0 <= u64) by discriminate. nra. }
  apply Qabs_Qle_condition. split; [assert ((- (1 # 2)) * p <= (m - a * q) * p) by (apply Qmult_le_compat_r; lra)|assert ((m - a * q) * p <= (1 # 2) * p) by (apply Qmult_le_compat_r; lra)];
    assert ((m - a * q) * p == m * p - a) by (rewrite <- Eq at 2; ring); lra.
Qed.
Lemma rpos_mono a b : 0 < a -> a <= b -> rpos a <= rpos b.
Proof.
  intros Ha H. assert (Hb : 0 < b) by lra. rewrite !rpos_eq. pose proof (ilog2_mono a b Ha H) as K.
  destruct (Z.eq_dec (ilog2 a) (ilog2 b)) as [E|N].
  - rewrite <- E. apply Qmult_le_compat_r; [|apply Qlt_le_weak, two_pos]. rewrite <- Zle_Qle. apply nearest_mono. apply Qmult_le_compat_r; [exact H|apply Qlt_le_weak, two_pos].
  - destruct (rpos_digits a Ha) as [_ Ua]. destruct (rpos_digits b Hb) as [Lb _]. rewrite Zle_Qle in Ua, Lb.
    apply Qle_trans with (inject_Z (2 ^ 53) * 2 ^ (ilog2 a - 52)); [apply Qmult_le_compat_r; [exact Ua|apply Qlt_le_weak, two_pos]|].
    apply Qle_trans with (inject_Z (2 ^ 52) * 2 ^ (ilog2 b - 52)); [|apply Qmult_le_compat_r; [exact Lb|apply Qlt_le_weak, two_pos]].
    rewrite <- !two_Z by lia. rewrite <- !two_add. apply two_mono. lia.
Qed.
(** Numbers of 53 digits are not changed. *)
Lemma rpos_exact m e : (0 < m <= 2 ^ 53)%Z -> forall a, a == inject_Z m * 2 ^ e -> rpos a == a.
Proof.
  intros Hm a Ea. assert (Pm : 0 < inject_Z m) by (change 0 with (inject_Z 0); rewrite <- Zlt_Qlt; lia).
  assert (Ha : 0 < a) by (rewrite Ea; pose proof (two_pos e); nra). rewrite rpos_eq. set (k := (ilog2 a - 52)%Z).
  assert (Int : exists z, a * 2 ^ (- k) == inject_Z z).
  { destruct (Z_le_gt_dec k e) as [L|G].
    - exists (m * 2 ^ (e - k))%Z. rewrite inject_Z_mult, <- two_Z by lia. rewrite Ea. replace (e - k)%Z with (e + - k)%Z by lia. rewrite two_add. ring.
    - exists (2 ^ 52)%Z. destruct (digits a Ha) as [Lo _]. fold k in Lo. apply Qle_antisym; [|exact Lo].
      rewrite Ea. apply Qle_trans with (inject_Z (2 ^ 53) * 2 ^ e * 2 ^ (- k)).
      + apply Qmult_le_compat_r; [|apply Qlt_le_weak, two_pos]. apply Qmult_le_compat_r; [|apply Qlt_le_weak, two_pos]. rewrite <- Zle_Qle. lia.
      + rewrite <- !two_Z by lia. rewrite <- !two_add. apply two_mono. lia. }
  destruct Int as [z Ez]. rewrite (nearest_int _ z Ez), <- Ez. transitivity (a * (2 ^ k * 2 ^ (- k))); [ring|]. rewrite two_opp. ring.
Qed.
Lemma rpos_pos a : 0 < a -> 0 < rpos a.
Proof.
  intro Ha. rewrite rpos_eq. destruct (rpos_digits a Ha) as [L _]. rewrite Zle_Qle in L. pose proof (two_pos (ilog2 a - 52)). assert (0 < inject_Z (2 ^ 52)) by reflexivity. nra.
Qed.
Lemma rnd64_zero x : x == 0 -> rnd64 x == 0.
Proof. intro H. unfold rnd64. rewrite (proj2 (Qeqb_eq x 0) H). reflexivity. Qed.
Lemma rnd64_pos x : 0 < x -> rnd64 x == rpos (Qabs x).
Proof. intro H. unfold rnd64. assert (Qeqb x 0 = false) as -> by (apply Qeqb_neq; lra). assert (Qltb x 0 = false) as -> by (apply Qltb_ge; lra). reflexivity. Qed.
Lemma rnd64_neg x : x < 0 -> rnd64 x == - rpos (Qabs x).
Proof. intro H. unfold rnd64. assert (Qeqb x 0 = false) as -> by (apply Qeqb_neq; lra). rewrite (proj2 (Qltb_lt x 0) H). reflexivity. Qed.
Lemma abs_pos x : 0 <= x -> Qabs x == x. Proof. apply Qabs_pos. Qed.
Lemma abs_neg x : x <= 0 -> Qabs x == - x. Proof. apply Qabs_neg. Qed.
Lemma rpos_comp a b : 0 < a -> a == b -> rpos a == rpos b.
Proof. intros Ha E. apply Qle_antisym; apply rpos_mono; lra. Qed.

Lemma rnd64_float x : float64 (rnd64 x).
Proof.
  destruct (Q_dec x 0) as [[H|H]|H].
  - assert (Ha : 0 < Qabs x) by (rewrite abs_neg by lra; lra). destruct (rpos_digits _ Ha) as [L U].
    exists (- nearest (Qabs x * 2 ^ (- (ilog2 (Qabs x) - 52))))%Z, (ilog2 (Qabs x) - 52)%Z. split; [lia|].
    rewrite rnd64_neg, rpos_eq, inject_Z_opp by exact H. ring.
  - assert (Ha : 0 < Qabs x) by (rewrite abs_pos by lra; lra). destruct (rpos_digits _ Ha) as [L U].
    exists (nearest (Qabs x * 2 ^ (- (ilog2 (Qabs x) - 52))))%Z, (ilog2 (Qabs x) - 52)%Z. split; [lia|].
    rewrite rnd64_pos, rpos_eq by exact H. reflexivity.
  - exists 0%Z, 0%Z. split; [lia|]. rewrite rnd64_zero by exact H. reflexivity.
Qed.
Lemma rnd64_exact x : float64 x -> rnd64 x == x.
Proof.
  intros (m & e & Hm & E). destruct (Q_dec x 0) as [[H|H]|H].
  - rewrite rnd64_neg by exact H. assert (Mn : (m < 0)%Z).
    { destruct (Z_lt_le_dec m 0) as [L|G]; [exact L|]. exfalso. rewrite Zle_Qle in G. change (inject_Z 0) with 0 in G. pose proof (two_pos e). assert (0 <= inject_Z m * 2 ^ e) by nra. lra. }
    rewrite (rpos_exact (- m) e); [rewrite abs_neg by lra; ring|lia|]. rewrite abs_neg by lra. rewrite E, inject_Z_opp. ring.
  - rewrite rnd64_pos by exact H. assert (Mn : (0 < m)%Z).
    { destruct (Z_lt_le_dec 0 m) as [L|G]; [exact L|]. exfalso. rewrite Zle_Qle in G. change (inject_Z 0) with 0 in G. pose proof (two_pos e). assert (inject_Z m * 2 ^ e <= 0) by nra. lra. }
    rewrite (rpos_exact m e); [apply abs_pos; lra|lia|]. rewrite abs_pos by lra. exact E.
  - rewrite rnd64_zero by exact H. symmetry. exact H.
Qed.
Lemma rnd64_mono x y : x <= y -> rnd64 x <= rnd64 y.
Proof.
  intro H. destruct (Q_dec x 0) as [[X|X]|X]; destruct (Q_dec y 0) as [[Y|Y]|Y]; try lra;
    try (rewrite (rnd64_neg x X)); try (rewrite (rnd64_pos x X)); try (rewrite (rnd64_zero x X));
    try (rewrite (rnd64_neg y Y)); try (rewrite (rnd64_pos y Y)); try (rewrite (rnd64_zero y Y)).
  - assert (rpos (Qabs y) <= rpos (Qabs x)) by (apply rpos_mono; rewrite !abs_neg by lra; lra). lra.
  - pose proof (rpos_pos (Qabs x) ltac:(rewrite abs_neg by lra; lra)). pose proof (rpos_pos (Qabs y) ltac:(rewrite abs_pos by lra; lra)). lra.
  - pose proof (rpos_pos (Qabs x) ltac:(rewrite abs_neg by lra; lra)). lra.
  - apply rpos_mono; rewrite !abs_pos by lra; lra.
  - pose proof (rpos_pos (Qabs y) ltac:(rewrite abs_pos by lra; lra)). lra.
  - lra.
Qed.
Lemma rnd64_rounding : rounding u64 rnd64.
Proof.
  constructor.
  - discriminate.
  - discriminate.
  - intro x. destruct (Q_dec x 0) as [[H|H]|H].
    + rewrite rnd64_neg by exact H. pose proof (rpos_err (Qabs x) ltac:(rewrite abs_neg by lra; lra)) as E. apply Qabs_Qle_condition in E. apply Qabs_Qle_condition.
      assert (Qabs x == - x) by (apply abs_neg; lra). lra.
    + rewrite rnd64_pos by exact H. pose proof (rpos_err (Qabs x) ltac:(rewrite abs_pos by lra; lra)) as E. apply Qabs_Qle_condition in E. apply Qabs_Qle_condition.
      assert (Qabs x == x) by (apply abs_pos; lra). lra.
    + rewrite rnd64_zero by exact H. rewrite H. discriminate.
  - exact rnd64_mono.
  - intro x. apply rnd64_exact. apply rnd64_float.
  - intro x. destruct (Q_dec x 0) as [[H|H]|H].
    + rewrite (rnd64_pos (- x)) by lra. rewrite (rnd64_neg x) by exact H. rewrite (rpos_comp (Qabs (- x)) (Qabs x)); [ring|rewrite abs_pos by lra; lra|apply Qabs_opp].
    + rewrite (rnd64_neg (- x)) by lra. rewrite (rnd64_pos x) by exact H. rewrite (rpos_comp (Qabs (- x)) (Qabs x)); [ring|rewrite abs_neg by lra; lra|apply Qabs_opp].
    + rewrite (rnd64_zero (- x)) by lra. rewrite (rnd64_zero x) by exact H. reflexivity.
Qed.

(** ** Error bounds *)
(** No float is nearer. *)
Lemma nearest_best y z : Qabs (inject_Z (nearest y) - y) <= Qabs (inject_Z z - y).
Proof.
  pose proof (nearest_err y) as E. destruct (Z.eq_dec z (nearest y)) as [->|N]; [apply Qle_refl|]. apply Qle_trans with (1 # 2); [exact E|].
  apply Qabs_Qle_condition in E. destruct (Z_lt_le_dec z (nearest y)) as [L|G].
  - assert (L' : (z + 1 <= nearest y)%Z) by lia. rewrite Zle_Qle, inject_Z_plus in L'. change (inject_Z 1) with 1 in L'. rewrite (Qabs_neg (inject_Z z - y)) by lra. lra.
  - assert (L' : (nearest y + 1 <= z)%Z) by lia. rewrite Zle_Qle, inject_Z_plus in L'. change (inject_Z 1) with 1 in L'. rewrite (Qabs_pos (inject_Z z - y)) by lra. lra.
Qed.
Lemma rpos_nearest a m e : 0 < a -> (m <= 2 ^ 53)%Z -> Qabs (rpos a - a) <= Qabs (inject_Z m * 2 ^ e - a).
Proof.
  intros Ha Hm. rewrite rpos_eq. destruct (digits a Ha) as [Lo _]. set (k := (ilog2 a - 52)%Z) in *. pose proof (two_pos k) as P. pose proof (two_opp k) as O.
  assert (Eq : forall X, X * 2 ^ k - a == (X - a * 2 ^ (- k)) * 2 ^ k) by (intro X; transitivity (X * 2 ^ k - a * (2 ^ k * 2 ^ (- k))); [rewrite O; ring|ring]).
  assert (Ey : inject_Z m * 2 ^ e - a == (inject_Z m * 2 ^ (e + - k) - a * 2 ^ (- k)) * 2 ^ k).
  { rewrite <- Eq. rewrite two_add. transitivity (inject_Z m * 2 ^ e * (2 ^ k * 2 ^ (- k)) - a); [rewrite O; ring|ring]. }
  rewrite Eq, Ey, !Qabs_Qmult. apply Qmult_le_compat_r; [|apply Qabs_nonneg].
  destruct (Z_le_gt_dec k e) as [L|G].
  - assert (Ez : inject_Z m * 2 ^ (e + - k) == inject_Z (m * 2 ^ (e + - k))) by (rewrite inject_Z_mult, <- two_Z by lia; reflexivity). rewrite Ez. apply nearest_best.
  - eapply Qle_trans; [apply (nearest_best _ (2 ^ 52))|].
    assert (Up : inject_Z m * 2 ^ (e + - k) <= inject_Z (2 ^ 52)).
    { apply Qle_trans with (inject_Z (2 ^ 53) * 2 ^ (e + - k)); [apply Qmult_le_compat_r; [rewrite <- Zle_Qle; exact Hm|apply Qlt_le_weak, two_pos]|].
      rewrite <- !two_Z by lia. rewrite <- two_add. apply two_mono. lia. }
    rewrite !Qabs_neg by lra. lra.
Qed.
Lemma rnd64_nearest x y : float64 y -> Qabs (rnd64 x - x) <= Qabs (y - x).
Proof.
  intros (m & e & Hm & E). destruct (Q_dec x 0) as [[H|H]|H].
  - pose proof (rpos_nearest (Qabs x) (- m) e ltac:(rewrite abs_neg by lra; lra) ltac:(lia)) as N.
    assert (E1 : Qabs (rnd64 x - x) == Qabs (rpos (Qabs x) - Qabs x)) by (transitivity (Qabs (- (rnd64 x - x))); [symmetry; apply Qabs_opp|]; apply Qabs_wd; rewrite rnd64_neg by exact H; pose proof (abs_neg x ltac:(lra)); lra).
    assert (E2 : Qabs (y - x) == Qabs (inject_Z (- m) * 2 ^ e - Qabs x)) by (transitivity (Qabs (- (y - x))); [symmetry; apply Qabs_opp|]; apply Qabs_wd; rewrite E, inject_Z_opp, (abs_neg x) by lra; ring).
    rewrite E1, E2. exact N.
  - pose proof (rpos_nearest (Qabs x) m e ltac:(rewrite abs_pos by lra; lra) ltac:(lia)) as N.
    assert (E1 : Qabs (rnd64 x - x) == Qabs (rpos (Qabs x) - Qabs x)) by (apply Qabs_wd; rewrite rnd64_pos by exact H; pose proof (abs_pos x ltac:(lra)); lra).
    assert (E2 : Qabs (y - x) == Qabs (inject_Z m * 2 ^ e - Qabs x)) by (apply Qabs_wd; rewrite E, (abs_pos x) by lra; ring).
    rewrite E1, E2. exact N.
  - assert (E1 : Qabs (rnd64 x - x) == 0) by (transitivity (Qabs 0); [apply Qabs_wd; rewrite rnd64_zero by exact H; lra|reflexivity]). rewrite E1. apply Qabs_nonneg.
Qed.
Lemma mul_le_l c a b : 0 <= c -> a <= b -> c * a <= c * b.
Proof. intros H1 H2. rewrite !(Qmult_comm c). apply Qmult_le_compat_r; assumption. Qed.
Section Bounds.
Variables (u : Q) (rnd : Q -> Q).
Hypothesis R : rounding u rnd.
Lemma u_bounds : 0 <= u <= 1 # 2.
Proof. destruct R. auto. Qed.
Lemma rnd_comp x y : x == y -> rnd x == rnd y.
Proof. intro E. apply Qle_antisym; apply (r_mono _ _ R); lra. Qed.
Lemma rnd_0 : rnd 0 == 0.
Proof. pose proof (r_err _ _ R 0) as E. apply Qabs_Qle_condition in E. change (Qabs 0) with 0 in E. lra. Qed.
Lemma rnd_nonneg x : 0 <= x -> 0 <= rnd x.
Proof. intro H. rewrite <- rnd_0. apply (r_mono _ _ R). exact H. Qed.
Lemma err_pos x : 0 <= x -> x - u * x <= rnd x <= x + u * x.
Proof. intro H. pose proof (r_err _ _ R x) as E. apply Qabs_Qle_condition in E. rewrite Qabs_pos in E by exact H. lra. Qed.
(** In terms of the result. *)
Lemma err_of_result x B : Qabs (rnd x) <= B -> Qabs (rnd x - x) <= 2 * u * B.
Proof.
  intro H. pose proof (r_err _ _ R x) as E. pose proof u_bounds as [U1 U2]. pose proof (Qabs_nonneg x) as A.
  assert (T : Qabs x <= Qabs (rnd x) + Qabs (rnd x - x)).
  { pose proof (Qabs_triangle (rnd x) (- (rnd x - x))) as T. rewrite Qabs_opp in T. assert (Qabs (rnd x + - (rnd x - x)) == Qabs x) by (apply Qabs_wd; ring). lra. }
  assert (Qabs x <= 2 * B) by nra. nra.
Qed.
(** (now - started) * rate, rounded twice *)
Lemma err_product a r : 0 <= a -> Qabs (rnd (rnd a * r) - a * r) <= 3 * u * (Qabs r * a).
Proof.
  intro Ha. pose proof u_bounds as [U1 U2]. pose proof (r_err _ _ R (rnd a * r)) as E1. pose proof (r_err _ _ R a) as E2. rewrite (Qabs_pos a) in E2 by exact Ha.
  pose proof (err_pos a Ha) as E3. pose proof (rnd_nonneg a Ha) as N. rewrite Qabs_Qmult, (Qabs_pos (rnd a)) in E1 by exact N.
  setoid_replace (rnd (rnd a * r) - a * r) with ((rnd (rnd a * r) - rnd a * r) + (rnd a - a) * r) by ring.
  eapply Qle_trans; [apply Qabs_triangle|]. rewrite Qabs_Qmult. pose proof (Qabs_nonneg r) as Nr.
  assert (Qabs (rnd a - a) * Qabs r <= u * a * Qabs r) by (apply Qmult_le_compat_r; assumption).
  assert (K : rnd a * Qabs r <= (a + u * a) * Qabs r) by (apply Qmult_le_compat_r; [lra|exact Nr]).
  assert (K2 : u * (rnd a * Qabs r) <= u * ((a + u * a) * Qabs r)) by (apply mul_le_l; assumption).
  assert (K3 : u * ((a + u * a) * Qabs r) <= 2 * u * (Qabs r * a)).
  { assert (0 <= u * (Qabs r * a)) by (apply Qmult_le_0_compat; [exact U1|apply Qmult_le_0_compat; assumption]). nra. }
  nra.
Qed.

(** *** Linear states *)
Local Notation values_within := (values_within rnd).
Lemma linear_step x s r t : linear x s r -> s <= t ->
  exists v, snd (f_linear_active rnd t x) = inl v /\ v_val (fst (f_linear_active rnd t x)) = v /\
    v = rnd (v_val x + rnd (rnd (t - s) * r)) /\ linear (fst (f_linear_active rnd t x)) t r.
Proof.
  intros (d & D & S & Rt) H. unfold f_linear_active. rewrite D, Rt, S. assert (Qltb t s = false) as -> by (apply Qltb_ge; exact H).
  eexists. split; [reflexivity|]. split; [reflexivity|]. split; [reflexivity|]. eexists. split; [reflexivity|]. split; reflexivity.
Qed.
Lemma step_error v b exact B : Qabs (rnd (v + b)) <= B -> Qabs (rnd (v + b) - (v + exact)) <= 2 * u * B + Qabs (b - exact).
Proof.
  intro H. pose proof (err_of_result _ _ H) as E. setoid_replace (rnd (v + b) - (v + exact)) with ((rnd (v + b) - (v + b)) + (b - exact)) by ring.
  eapply Qle_trans; [apply Qabs_triangle|]. lra.
Qed.
Lemma linear_error B r : forall ts x t, linear x t r -> onward t ts -> values_within B ts x ->
  linear (f_reads rnd ts x) (last_of t ts) r /\
  Qabs (v_val (f_reads rnd ts x) - (v_val x + r * (last_of t ts - t))) <= u * (2 * B * inject_Z (Z.of_nat (length ts)) + 3 * Qabs r * (last_of t ts - t)) /\ t <= last_of t ts.
Proof.
  pose proof u_bounds as [U1 U2].
  induction ts as [|t1 ts IH]; intros x t L O W.
  - split; [exact L|]. split; [|cbn; lra]. cbn [f_reads last_of length Z.of_nat]. assert (Z0 : v_val x - (v_val x + r * (t - t)) == 0) by ring.
    rewrite Z0. change (Qabs 0) with 0. change (inject_Z 0) with 0. assert (Z1 : u * (2 * B * 0 + 3 * Qabs r * (t - t)) == 0) by ring. rewrite Z1. lra.
  - cbn [onward RndSpec.values_within f_reads last_of] in O, W |- *. destruct O as [O1 O2]. destruct W as [(v & Ev & Bv) W].
    destruct (linear_step x t r t1 L O1) as (v' & E1 & E2 & E3 & L1). rewrite E1 in Ev. injection Ev as ->.
    destruct (IH _ t1 L1 O2 W) as (L2 & Er & Le). split; [exact L2|]. split; [|lra]. rewrite E2 in Er.
    assert (D : Qabs (v - (v_val x + r * (t1 - t))) <= 2 * u * B + 3 * u * (Qabs r * (t1 - t))).
    { rewrite E3 in Bv. pose proof (step_error _ _ (r * (t1 - t)) _ Bv) as S. rewrite <- E3 in S. eapply Qle_trans; [exact S|].
      pose proof (err_product (t1 - t) r ltac:(lra)) as P. assert (Qabs (rnd (rnd (t1 - t) * r) - r * (t1 - t)) == Qabs (rnd (rnd (t1 - t) * r) - (t1 - t) * r)) by (apply Qabs_wd; ring). lra. }
    set (T := last_of t1 ts) in *. set (X := v_val (f_reads rnd ts (fst (f_linear_active rnd t1 x)))) in *.
    setoid_replace (X - (v_val x + r * (T - t))) with ((X - (v + r * (T - t1))) + (v - (v_val x + r * (t1 - t)))) by ring.
    eapply Qle_trans; [apply Qabs_triangle|].
    assert (Es : inject_Z (Z.of_nat (length (t1 :: ts))) == inject_Z (Z.of_nat (length ts)) + 1) by (cbn [length]; rewrite Nat2Z.inj_succ; unfold Z.succ; rewrite inject_Z_plus; reflexivity).
    rewrite Es. set (n := inject_Z (Z.of_nat (length ts))) in *. 
    setoid_replace (u * (2 * B * (n + 1) + 3 * Qabs r * (T - t))) with (u * (2 * B * n + 3 * Qabs r * (T - t1)) + (2 * u * B + 3 * u * (Qabs r * (t1 - t)))) by ring.
    lra.
Qed.

(** *** Containers *)
(** The level as it is at one time, when it was last stored at another. *)
Lemma level_error s B : k_last s <= k_now s -> Qabs (f_cur_level rnd s) <= B ->
  Qabs (f_cur_level rnd s - (k_level s + k_rate s * (k_now s - k_last s))) <= u * (2 * B + 3 * (Qabs (k_rate s) * (k_now s - k_last s))).
Proof.
  intros Ht HB. unfold f_cur_level in *. pose proof (step_error _ _ (k_rate s * (k_now s - k_last s)) _ HB) as S. eapply Qle_trans; [exact S|].
  pose proof (err_product (k_now s - k_last s) (k_rate s) ltac:(lra)) as P.
  assert (C : rnd (k_rate s * rnd (k_now s - k_last s)) == rnd (rnd (k_now s - k_last s) * k_rate s)) by (apply rnd_comp; ring).
  assert (Qabs (rnd (k_rate s * rnd (k_now s - k_last s)) - k_rate s * (k_now s - k_last s)) == Qabs (rnd (rnd (k_now s - k_last s) * k_rate s) - (k_now s - k_last s) * k_rate s)) by (apply Qabs_wd; rewrite C; ring).
  lra.
Qed.

(** At the time at which the container should be empty. *)
Lemma amount_error L r t0 : 0 <= L -> 0 < r -> 0 <= t0 ->
  let w := rnd (L / r) in let due := rnd (t0 + w) in
  Qabs (L - rnd (r * rnd (due - t0))) <= u * ((33 # 4) * L + (9 # 4) * (r * t0)).
Proof.
  intros HL Hr H0 w due. pose proof u_bounds as [U1 U2].
  set (q := L / r) in *. assert (Eq : r * q == L) by (unfold q; field; lra). assert (Hq : 0 <= q) by (unfold q; apply Qle_shift_div_l; lra).
  pose proof (err_pos q Hq) as W. fold w in W. assert (Hw : 0 <= w) by (apply rnd_nonneg; exact Hq).
  pose proof (err_pos (t0 + w) ltac:(lra)) as D. fold due in D.
  pose proof (r_err _ _ R (due - t0)) as E. set (dt := rnd (due - t0)) in *.
  (* |due - t0 - w| <= u (t0 + w) *)
  assert (A1 : Qabs (due - t0) <= w + u * (t0 + w)) by (apply Qabs_Qle_condition; split; nra).
  assert (A2 : Qabs (dt - w) <= u * (t0 + w) + u * (w + u * (t0 + w))).
  { setoid_replace (dt - w) with ((dt - (due - t0)) + (due - t0 - w)) by ring. eapply Qle_trans; [apply Qabs_triangle|].
    assert (Qabs (due - t0 - w) <= u * (t0 + w)) by (apply Qabs_Qle_condition; split; lra).
    assert (u * Qabs (due - t0) <= u * (w + u * (t0 + w))) by (apply mul_le_l; lra). lra. }
  assert (Hrw : r * w <= L + u * L) by nra. assert (Hrw2 : L - u * L <= r * w) by nra. assert (0 <= r * t0) by nra. assert (0 <= r * w) by nra.
  assert (Uu : u * u <= (1 # 2) * u) by nra.
  assert (A3 : Qabs (r * dt - L) <= u * ((19 # 4) * L + (3 # 2) * (r * t0))).
  { setoid_replace (r * dt - L) with (r * (dt - w) + (r * w - L)) by ring. eapply Qle_trans; [apply Qabs_triangle|].
    rewrite Qabs_Qmult, (Qabs_pos r) by lra. assert (Qabs (r * w - L) <= u * L) by (apply Qabs_Qle_condition; split; lra).
    assert (B1 : r * Qabs (dt - w) <= r * (u * (t0 + w) + u * (w + u * (t0 + w)))) by (apply mul_le_l; lra).
    assert (B2 : r * (u * (t0 + w) + u * (w + u * (t0 + w))) == u * (r * t0 + 2 * (r * w)) + u * u * (r * t0 + r * w)) by ring.
    assert (B3 : u * u * (r * t0 + r * w) <= (1 # 2) * u * (r * t0 + r * w)) by (apply Qmult_le_compat_r; lra).
    assert (B4 : u * (r * w) <= u * ((3 # 2) * L)) by (apply mul_le_l; [lra|nra]).
    nra. }
  pose proof (r_err _ _ R (r * dt)) as P. set (p := rnd (r * dt)) in *.
  assert (A4 : Qabs (r * dt) <= L + u * ((19 # 4) * L + (3 # 2) * (r * t0))).
  { setoid_replace (r * dt) with (L + (r * dt - L)) by ring. eapply Qle_trans; [apply Qabs_triangle|]. rewrite (Qabs_pos L) by exact HL. lra. }
  setoid_replace (L - p) with (- ((p - r * dt) + (r * dt - L))) by ring. rewrite Qabs_opp. eapply Qle_trans; [apply Qabs_triangle|].
    assert (B1 : u * Qabs (r * dt) <= u * (L + u * ((19 # 4) * L + (3 # 2) * (r * t0)))) by (apply mul_le_l; lra).
    assert (B2 : u * (L + u * ((19 # 4) * L + (3 # 2) * (r * t0))) == u * L + u * u * ((19 # 4) * L + (3 # 2) * (r * t0))) by ring.
    assert (B3 : u * u * ((19 # 4) * L + (3 # 2) * (r * t0)) <= (1 # 2) * u * ((19 # 4) * L + (3 # 2) * (r * t0))) by (apply Qmult_le_compat_r; lra).
    lra.
Qed.
Lemma empty_error L r t0 : 0 <= L -> 0 < r -> 0 <= t0 ->
  let w := rnd (L / r) in let due := rnd (t0 + w) in
  Qabs (rnd (L - rnd (r * rnd (due - t0)))) <= u * (13 * L + 4 * (r * t0)).
Proof.
  intros HL Hr H0 w due. pose proof u_bounds as [U1 U2]. pose proof (amount_error L r t0 HL Hr H0) as A5. cbv zeta in A5. fold w in A5. fold due in A5. set (p := rnd (r * rnd (due - t0))) in *.
  pose proof (r_err _ _ R (L - p)) as F.
  assert (A6 : Qabs (rnd (L - p)) <= (3 # 2) * Qabs (L - p)).
  { pose proof (Qabs_triangle (L - p) (rnd (L - p) - (L - p))) as T. assert (Qabs (L - p + (rnd (L - p) - (L - p))) == Qabs (rnd (L - p))) by (apply Qabs_wd; ring). pose proof (Qabs_nonneg (L - p)). nra. }
  assert (0 <= u * L) by (apply Qmult_le_0_compat; lra). assert (0 <= r * t0) by (apply Qmult_le_0_compat; lra). assert (0 <= u * (r * t0)) by (apply Qmult_le_0_compat; lra). lra.
Qed.
Lemma full_error cap L r t0 : 0 <= L <= cap -> 0 < r -> 0 <= t0 ->
  let w := rnd (rnd (cap - L) / r) in let due := rnd (t0 + w) in
  Qabs (rnd (L + rnd (r * rnd (due - t0))) - cap) <= u * (22 * cap + 4 * (r * t0)).
Proof.
  intros HL Hr H0 w due. pose proof u_bounds as [U1 U2]. set (g := rnd (cap - L)) in *. pose proof (err_pos (cap - L) ltac:(lra)) as G. fold g in G.
  assert (Hg : 0 <= g) by (apply rnd_nonneg; lra).
  pose proof (amount_error g r t0 Hg Hr H0) as A5. cbv zeta in A5. fold w in A5. fold due in A5. set (p := rnd (r * rnd (due - t0))) in *. apply Qabs_Qle_condition in A5.
  assert (P0 : 0 <= r * t0) by (apply Qmult_le_0_compat; lra). assert (P1 : 0 <= u * (r * t0)) by (apply Qmult_le_0_compat; lra). assert (P2 : 0 <= u * cap) by (apply Qmult_le_0_compat; lra). assert (P3 : 0 <= u * (cap - L)) by (apply Qmult_le_0_compat; lra).
  assert (Gu : u * g <= u * ((3 # 2) * (cap - L))) by (apply mul_le_l; [exact U1|nra]).
  assert (B : Qabs (L + p - cap) <= u * ((107 # 8) * cap + (9 # 4) * (r * t0))) by (apply Qabs_Qle_condition; split; nra).
  pose proof (r_err _ _ R (L + p)) as F.
  assert (Y : Qabs (L + p) <= cap + u * ((107 # 8) * cap + (9 # 4) * (r * t0))).
  { pose proof (Qabs_triangle cap (L + p - cap)) as T. rewrite (Qabs_pos cap) in T by lra. assert (Qabs (cap + (L + p - cap)) == Qabs (L + p)) by (apply Qabs_wd; ring). lra. }
  pose proof (Qabs_triangle (rnd (L + p) - (L + p)) (L + p - cap)) as T. assert (Qabs (rnd (L + p) - (L + p) + (L + p - cap)) == Qabs (rnd (L + p) - cap)) by (apply Qabs_wd; ring).
  assert (Z : u * Qabs (L + p) <= u * (cap + u * ((107 # 8) * cap + (9 # 4) * (r * t0)))) by (apply mul_le_l; assumption).
  assert (Z2 : u * (u * ((107 # 8) * cap + (9 # 4) * (r * t0))) <= (1 # 2) * (u * ((107 # 8) * cap + (9 # 4) * (r * t0)))) by (apply Qmult_le_compat_r; [exact U2|nra]).
  lra.
Qed.

Lemma nth_upd {X} (x : X) : forall l n, (n < length l)%nat -> nth_error (ContinuousModel.upd l n x) n = Some x.
Proof. induction l as [|y l IH]; intros [|n] H; cbn in *; try lia; [reflexivity|]. apply IH. lia. Qed.
Lemma stored_level s : k_last s = k_now s -> rnd (k_level s) == k_level s -> f_cur_level rnd s == k_level s.
Proof.
  intros E L. unfold f_cur_level. transitivity (rnd (k_level s)); [|exact L]. apply rnd_comp.
  assert (Z : rnd (k_now s - k_last s) == 0) by (transitivity (rnd 0); [apply rnd_comp; rewrite E; ring|exact rnd_0]).
  assert (Z2 : rnd (k_rate s * rnd (k_now s - k_last s)) == 0) by (transitivity (rnd 0); [apply rnd_comp; rewrite Z; ring|exact rnd_0]). rewrite Z2. ring.
Qed.
Lemma check_empty_error s p : k_last s = k_now s -> 0 <= k_now s -> rnd (k_now s) == k_now s -> 0 <= k_level s -> rnd (k_level s) == k_level s ->
  k_rate s < 0 -> (p < length (k_checks s))%nat ->
  exists due, nth_error (k_checks (f_check_start rnd s p)) p = Some (CkWait due) /\ k_now s <= due /\
    forall s', only_time s s' -> k_now s' = due -> Qabs (f_cur_level rnd s') <= u * (13 * k_level s + 4 * (- k_rate s * k_now s)).
Proof.
  intros El H0 Ht HL Hl Hr Hp. pose proof (stored_level s El Hl) as Cl. unfold f_check_start.
  assert (Qeqb (k_rate s) 0 = false) as -> by (apply Qeqb_neq; lra). assert (Qltb 0 (k_rate s) = false) as -> by (apply Qltb_ge; lra).
  set (w := rnd (rnd (0 - f_cur_level rnd s) / k_rate s)).
  assert (Ew : w == rnd (k_level s / - k_rate s)).
  { apply rnd_comp. assert (X : rnd (0 - f_cur_level rnd s) == - k_level s).
    { transitivity (rnd (- k_level s)); [apply rnd_comp; rewrite Cl; ring|]. rewrite (r_odd _ _ R), Hl. reflexivity. }
    rewrite X. field. lra. }
  assert (Lq : 0 <= k_level s / - k_rate s) by (apply Qle_shift_div_l; lra).
  assert (W0 : 0 <= w) by (rewrite Ew; apply rnd_nonneg; exact Lq).
  assert (Qltb w 0 = false) as -> by (apply Qltb_ge; exact W0).
  exists (rnd (k_now s + w)). split; [cbn; apply nth_upd; exact Hp|]. split; [rewrite <- Ht at 1; apply (r_mono _ _ R); lra|].
  intros s' (E1 & E2 & E3 & _) E4. pose proof (empty_error (k_level s) (- k_rate s) (k_now s) HL ltac:(lra) H0) as X. cbv zeta in X.
  eapply Qle_trans; [|exact X]. unfold f_cur_level. rewrite E1, E2, E3, E4, El.
  apply Qle_lteq. right. apply Qabs_wd. apply rnd_comp.
  assert (Y1 : rnd (rnd (k_now s + w) - k_now s) == rnd (rnd (k_now s + rnd (k_level s / - k_rate s)) - k_now s)).
  { apply rnd_comp. assert (Y : rnd (k_now s + w) == rnd (k_now s + rnd (k_level s / - k_rate s))) by (apply rnd_comp; rewrite Ew; reflexivity). rewrite Y. reflexivity. }
  set (dt := rnd (rnd (k_now s + rnd (k_level s / - k_rate s)) - k_now s)) in *.
  assert (Y2 : rnd (k_rate s * rnd (rnd (k_now s + w) - k_now s)) == - rnd (- k_rate s * dt)).
  { rewrite <- (r_odd _ _ R). apply rnd_comp. rewrite Y1. ring. }
  rewrite Y2. ring.
Qed.
Lemma check_full_error s p : k_last s = k_now s -> 0 <= k_now s -> rnd (k_now s) == k_now s -> 0 <= k_level s <= k_cap s -> rnd (k_level s) == k_level s ->
  0 < k_rate s -> (p < length (k_checks s))%nat ->
  exists due, nth_error (k_checks (f_check_start rnd s p)) p = Some (CkWait due) /\ k_now s <= due /\
    forall s', only_time s s' -> k_now s' = due -> Qabs (f_cur_level rnd s' - k_cap s) <= u * (22 * k_cap s + 4 * (k_rate s * k_now s)).
Proof.
  intros El H0 Ht HL Hl Hr Hp. pose proof (stored_level s El Hl) as Cl. unfold f_check_start.
  assert (Qeqb (k_rate s) 0 = false) as -> by (apply Qeqb_neq; lra). rewrite (proj2 (Qltb_lt 0 (k_rate s)) Hr).
  set (w := rnd (rnd (k_cap s - f_cur_level rnd s) / k_rate s)).
  assert (Ew : w == rnd (rnd (k_cap s - k_level s) / k_rate s)).
  { apply rnd_comp. assert (X : rnd (k_cap s - f_cur_level rnd s) == rnd (k_cap s - k_level s)) by (apply rnd_comp; rewrite Cl; ring). rewrite X. reflexivity. }
  assert (Lq : 0 <= rnd (k_cap s - k_level s) / k_rate s) by (apply Qle_shift_div_l; [lra|]; pose proof (rnd_nonneg (k_cap s - k_level s) ltac:(lra)); lra).
  assert (W0 : 0 <= w) by (rewrite Ew; apply rnd_nonneg; exact Lq).
  assert (Qltb w 0 = false) as -> by (apply Qltb_ge; exact W0).
  exists (rnd (k_now s + w)). split; [cbn; apply nth_upd; exact Hp|]. split; [rewrite <- Ht at 1; apply (r_mono _ _ R); lra|].
  intros s' (E1 & E2 & E3 & _) E4. pose proof (full_error (k_cap s) (k_level s) (k_rate s) (k_now s) HL Hr H0) as X. cbv zeta in X.
  eapply Qle_trans; [|exact X]. unfold f_cur_level. rewrite E1, E2, E3, E4, El.
  apply Qle_lteq. right. apply Qabs_wd. apply Qplus_comp; [|reflexivity]. apply rnd_comp. apply Qplus_comp; [reflexivity|]. apply rnd_comp. apply Qmult_comp; [reflexivity|].
  apply rnd_comp. apply Qplus_comp; [|reflexivity]. apply rnd_comp. rewrite Ew. reflexivity.
Qed.

Lemma pw_pos c n : 0 <= c -> 0 <= pw c n.
Proof. intro H. induction n as [|n IH]; cbn; [lra|]. nra. Qed.
Lemma pw_up n : 2 * inject_Z (Z.of_nat n) * u <= 1 -> pw (1 + u) n <= 1 + 2 * inject_Z (Z.of_nat n) * u.
Proof.
  pose proof u_bounds as [U1 U2]. induction n as [|n IH]; intro H; cbn [pw]; [change (inject_Z (Z.of_nat 0)) with 0; lra|].
  rewrite Nat2Z.inj_succ in *. unfold Z.succ in *. rewrite inject_Z_plus in *. change (inject_Z 1) with 1 in *. set (k := inject_Z (Z.of_nat n)) in *.
  assert (K : 0 <= k) by (unfold k; change 0 with (inject_Z 0); rewrite <- Zle_Qle; lia). assert (H1 : 2 * k * u <= 1) by nra. specialize (IH H1).
  assert ((1 + u) * pw (1 + u) n <= (1 + u) * (1 + 2 * k * u)) by (apply mul_le_l; lra). assert (2 * k * u * u <= 1 * u) by (apply Qmult_le_compat_r; assumption). nra.
Qed.
Lemma pw_down n : 1 - inject_Z (Z.of_nat n) * u <= pw (1 - u) n.
Proof.
  pose proof u_bounds as [U1 U2]. induction n as [|n IH]; cbn [pw]; [change (inject_Z (Z.of_nat 0)) with 0; lra|].
  rewrite Nat2Z.inj_succ. unfold Z.succ. rewrite inject_Z_plus. change (inject_Z 1) with 1. set (k := inject_Z (Z.of_nat n)) in *.
  assert (K : 0 <= k) by (unfold k; change 0 with (inject_Z 0); rewrite <- Zle_Qle; lia).
  assert ((1 - u) * (1 - k * u) <= (1 - u) * pw (1 - u) n) by (apply mul_le_l; lra). assert (0 <= k * u * u) by nra. nra.
Qed.
Section Journey.
Variables (P : Type) (dist : P -> P -> Q) (along : P -> P -> Q -> P) (tol : Q).
Local Notation moving := (moving P dist).
Local Notation len := (len P dist).
Lemma len_nonneg : forall wps c, moving c wps -> 0 <= len c wps.
Proof. induction wps as [|w wps IH]; intros c M; cbn in *; [lra|]. destruct M as [M1 M2]. specialize (IH w M2). lra. Qed.
Fixpoint fsum (legs : list (leg P)) (acc : Q) : Q := match legs with [] => acc | l :: legs' => fsum legs' (rnd (acc + l_time l)) end.
Lemma fsum_low speed : 0 < speed -> forall wps c acc, moving c wps -> 0 <= acc ->
  pw (1 - u) (length wps) * (acc + (1 - u) * (len c wps / speed)) <= fsum (f_setup rnd P dist speed c wps) acc.
Proof.
  intro Hs. pose proof u_bounds as [U1 U2]. induction wps as [|w wps IH]; intros c acc M Ha; cbn [f_setup fsum RndSpec.len length pw RndSpec.moving] in *.
  - assert (0 / speed == 0) by (field; lra). rewrite H. lra.
  - destruct M as [M1 M2]. cbn [l_time]. set (d := dist w c) in *. pose proof (len_nonneg wps w M2) as Ln.
    assert (Dq : 0 <= d / speed) by (apply Qle_shift_div_l; lra). pose proof (err_pos _ Dq) as T. pose proof (rnd_nonneg _ Dq) as T0.
    pose proof (err_pos (acc + rnd (d / speed)) ltac:(lra)) as S. specialize (IH w (rnd (acc + rnd (d / speed))) M2 ltac:(apply rnd_nonneg; lra)).
    eapply Qle_trans; [|exact IH]. assert (Lq : 0 <= len w wps / speed) by (apply Qle_shift_div_l; lra).
    assert (E : (d + len w wps) / speed == d / speed + len w wps / speed) by (field; lra). rewrite E.
    pose proof (pw_pos (1 - u) (length wps) ltac:(lra)) as Pn.
    setoid_replace ((1 - u) * pw (1 - u) (length wps) * (acc + (1 - u) * (d / speed + len w wps / speed))) with (pw (1 - u) (length wps) * ((1 - u) * (acc + (1 - u) * (d / speed) + (1 - u) * (len w wps / speed)))) by ring.
    apply mul_le_l; [exact Pn|]. set (x := d / speed) in *. set (y := len w wps / speed) in *.
    assert ((1 - u) * (acc + (1 - u) * x) <= (1 - u) * (acc + rnd x)) by (apply mul_le_l; lra).
    assert ((1 - u) * ((1 - u) * y) <= 1 * ((1 - u) * y)) by (apply Qmult_le_compat_r; [lra|nra]). nra.
Qed.
Lemma total_up : forall wps c acc, moving c wps -> 0 <= acc -> 0 <= f_total_dist rnd P dist c wps acc <= pw (1 + u) (length wps) * (acc + len c wps).
Proof.
  pose proof u_bounds as [U1 U2]. induction wps as [|w wps IH]; intros c acc M Ha; cbn [f_total_dist RndSpec.len length pw RndSpec.moving] in *; [lra|].
  destruct M as [M1 M2]. pose proof (len_nonneg wps w M2) as Ln. pose proof (err_pos (acc + dist w c) ltac:(lra)) as S. pose proof (rnd_nonneg (acc + dist w c) ltac:(lra)) as S0.
  destruct (IH w _ M2 S0) as [I1 I2]. split; [exact I1|]. eapply Qle_trans; [exact I2|]. pose proof (pw_pos (1 + u) (length wps) ltac:(lra)) as Pn.
  setoid_replace ((1 + u) * pw (1 + u) (length wps) * (acc + (dist w c + len w wps))) with (pw (1 + u) (length wps) * ((1 + u) * (acc + (dist w c + len w wps)))) by ring.
  apply mul_le_l; [exact Pn|]. nra.
Qed.
Lemma index_found : forall legs elapsed acc i, legs <> [] -> (forall l, In l legs -> 0 < l_time l) -> elapsed <= rnd (fsum legs acc + tol) ->
  exists l j t, f_get_index rnd P tol legs elapsed acc i = Some (l, j, t) /\ 0 < l_time l.
Proof.
  induction legs as [|l legs IH]; intros elapsed acc i N Hp H; [congruence|]. cbn [f_get_index fsum] in *.
  destruct (Qleb elapsed (rnd (rnd (acc + l_time l) + tol))) eqn:E; [exists l, i; eexists; split; [reflexivity|apply Hp; left; reflexivity]|].
  destruct legs as [|l' legs]; [cbn in H; apply Qleb_gt in E; lra|]. apply IH; [discriminate|intros; apply Hp; right; assumption|exact H].
Qed.
Lemma setup_times speed : 0 < speed -> forall wps c, moving c wps -> forall l, In l (f_setup rnd P dist speed c wps) -> 0 < l_time l.
Proof.
  intro Hs. pose proof u_bounds as [U1 U2]. induction wps as [|w wps IH]; intros c M l I; cbn in *; [destruct I|]. destruct M as [M1 M2].
  destruct I as [<-|I]; [|eapply IH; eassumption]. cbn. assert (0 < dist w c / speed) by (apply Qlt_shift_div_l; lra). pose proof (err_pos (dist w c / speed) ltac:(lra)). nra.
Qed.
Lemma arrival_read t0 from speed wps : 0 <= t0 -> rnd t0 == t0 -> 0 < speed -> moving from wps ->
  let n := length wps in let E := len from wps / speed in
  (1 + u) * ((1 + u) * pw (1 + u) (S n) * E + u * t0) <= (1 - u) * (pw (1 - u) (S n) * E + tol) ->
  let s := fst (f_depart rnd P dist along tol t0 from speed wps) in
  let due := f_after rnd t0 (f_travel_time rnd P dist from wps speed) in
  forall t v, t0 <= t -> t <= due -> exists p, f_pread rnd P dist along tol (mkP t v (p_act s)) = (mkP t p (p_act s), PVal p).
Proof.
  intros H0 Ht Hs M n E C s due t v Ht0 Htd. pose proof u_bounds as [U1 U2]. pose proof (len_nonneg wps from M) as Ln.
  assert (HE : 0 <= E) by (apply Qle_shift_div_l; lra).
  (* the state after departure *)
  assert (Es : s = mkP t0 from (Some (mkT t0 speed wps (Some (f_setup rnd P dist speed from wps))))).
  { unfold s, f_depart, f_pread. cbn [p_act f_do_setup k_legs k_speed k_wps p_now p_val k_start].
    assert (Qeqb speed 0 = false) as -> by (apply Qeqb_neq; lra). cbn [andb].
    assert (Z : rnd (t0 - t0) == 0) by (rewrite <- rnd_0; apply rnd_comp; ring).
    assert (Qltb (rnd (t0 - t0)) 0 = false) as -> by (apply Qltb_ge; lra). rewrite (proj2 (Qeqb_eq _ _) Z). reflexivity. }
  rewrite Es. unfold f_pread. cbn [p_act f_do_setup k_legs p_now p_val k_start].
  set (T := f_travel_time rnd P dist from wps speed) in *.
  destruct (total_up wps from 0 M ltac:(lra)) as [D0 D1]. set (D := f_total_dist rnd P dist from wps 0) in *.
  assert (Dq : 0 <= D / speed) by (apply Qle_shift_div_l; lra). pose proof (err_pos _ Dq) as T1. pose proof (rnd_nonneg _ Dq) as T0.
  change (rnd (D / speed)) with T in T0, T1.
  assert (Tu : T <= pw (1 + u) (S n) * E).
  { assert (D / speed <= pw (1 + u) n * E).
    { apply Qle_shift_div_r; [exact Hs|]. eapply Qle_trans; [exact D1|]. fold n. unfold E. setoid_replace (pw (1 + u) n * (len from wps / speed) * speed) with (pw (1 + u) n * len from wps) by (field; lra). apply mul_le_l; [apply pw_pos; lra|lra]. }
    cbn [pw]. assert ((1 + u) * (D / speed) <= (1 + u) * (pw (1 + u) n * E)) by (apply mul_le_l; lra). lra. }
  pose proof (err_pos (t0 + T) ltac:(lra)) as Du. change (rnd (t0 + T)) with due in Du.
  assert (Dl : t0 <= due) by (rewrite <- Ht; apply (r_mono _ _ R); lra).
  pose proof (err_pos (due - t0) ltac:(lra)) as El. assert (Em : rnd (t - t0) <= rnd (due - t0)) by (apply (r_mono _ _ R); lra).
  pose proof (rnd_nonneg (t - t0) ltac:(lra)) as El0. set (el := rnd (t - t0)) in *. set (em := rnd (due - t0)) in *.
  assert (Qltb el 0 = false) as -> by (apply Qltb_ge; exact El0).
  destruct (Qeqb el 0) eqn:Z0; [eexists; reflexivity|]. apply Qeqb_neq in Z0.
  assert (Up : el <= (1 + u) * ((1 + u) * pw (1 + u) (S n) * E + u * t0)).
  { assert (em <= (1 + u) * (due - t0)) by lra. assert (due - t0 <= (1 + u) * (pw (1 + u) (S n) * E) + u * t0) by nra. nra. }
  assert (Lo : (1 - u) * (pw (1 - u) (S n) * E + tol) <= rnd (fsum (f_setup rnd P dist speed from wps) 0 + tol) \/ fsum (f_setup rnd P dist speed from wps) 0 + tol <= 0).
  { pose proof (fsum_low speed Hs wps from 0 M ltac:(lra)) as F. fold E n in F. set (Sx := fsum (f_setup rnd P dist speed from wps) 0) in *.
    destruct (Qlt_le_dec 0 (Sx + tol)) as [Ps|Ng]; [left|right; exact Ng]. pose proof (err_pos (Sx + tol) ltac:(lra)) as X. eapply Qle_trans; [|apply X].
    assert (pw (1 - u) (S n) * E <= Sx) by (cbn [pw]; nra). nra. }
  destruct wps as [|w wps'].
  { exfalso. apply Z0. assert (Td : T == 0).
    { transitivity (rnd 0); [|exact rnd_0]. apply rnd_comp. unfold D. cbn [f_total_dist]. field. lra. }
    assert (due == t0) by (transitivity (rnd t0); [apply rnd_comp; rewrite Td; ring|exact Ht]).
    transitivity (rnd 0); [|exact rnd_0]. apply rnd_comp. lra. }
  destruct Lo as [Lo|Ng].
  - destruct (index_found (f_setup rnd P dist speed from (w :: wps')) el 0 0) as (l & j & tl & G & Hl); [discriminate|apply setup_times; assumption|lra|].
    rewrite G. assert (Qeqb (l_time l) 0 = false) as -> by (apply Qeqb_neq; lra). eexists. reflexivity.
  - exfalso. pose proof (fsum_low speed Hs _ from 0 M ltac:(lra)) as F. fold E n in F. assert (pw (1 - u) (S n) * E + tol <= 0) by (cbn [pw]; nra). assert (0 <= (1 - u) * (0 - (pw (1 - u) (S n) * E + tol))) by (apply Qmult_le_0_compat; lra). lra.
Qed.
End Journey.
End Bounds.

(** Python's floats. *)
Lemma arrival64 (P : Type) (dist : P -> P -> Q) along tol0 t0 from speed wps : 0 < tol0 -> float64 t0 -> 0 <= t0 -> 0 < speed -> moving P dist from wps ->
  (Z.of_nat (length wps) <= 1000000)%Z -> t0 + (4 * inject_Z (Z.of_nat (length wps)) + 8) * (len P dist from wps / speed) <= 9000000000000000 * tol0 ->
  let tol := rnd64 tol0 in
  let s := fst (f_depart rnd64 P dist along tol t0 from speed wps) in
  let due := f_after rnd64 t0 (f_travel_time rnd64 P dist from wps speed) in
  forall t v, t0 <= t -> t <= due -> exists p, f_pread rnd64 P dist along tol (mkP t v (p_act s)) = (mkP t p (p_act s), PVal p).
Proof.
  intros Htol Hf H0 Hs M Hn Hb tol. apply (arrival_read u64 rnd64 rnd64_rounding); auto; [apply rnd64_exact; exact Hf|].
  pose proof (len_nonneg P dist wps from M) as Ln. set (E := len P dist from wps / speed) in *. assert (HE : 0 <= E) by (apply Qle_shift_div_l; lra).
  set (n := length wps) in *. set (k := inject_Z (Z.of_nat (S n))).
  assert (Ek : k == inject_Z (Z.of_nat n) + 1) by (unfold k; rewrite Nat2Z.inj_succ; unfold Z.succ; rewrite inject_Z_plus; reflexivity).
  assert (K0 : 1 <= k) by (unfold k; change 1 with (inject_Z 1); rewrite <- Zle_Qle; lia).
  assert (K1 : k <= 1000001) by (unfold k; change 1000001 with (inject_Z 1000001); rewrite <- Zle_Qle; lia).
  assert (Tl : (1 - u64) * tol0 <= tol) by (pose proof (err_pos u64 rnd64 rnd64_rounding tol0 ltac:(lra)) as H; fold tol in H; lra).
  assert (Hb' : t0 + (4 * k + 4) * E <= 9000000000000000 * tol0) by (setoid_replace (4 * k + 4) with (4 * inject_Z (Z.of_nat n) + 8) by (rewrite Ek; ring); exact Hb).
  assert (Z1 : k * u64 <= 1 # 4096) by (unfold u64; apply Qle_trans with (1000001 * (1 # 2 ^ 53)); [apply Qmult_le_compat_r; [exact K1|discriminate]|discriminate]).
  assert (Z0 : 0 <= k * u64) by (apply Qmult_le_0_compat; [lra|discriminate]).
  pose proof (pw_up u64 rnd64 rnd64_rounding (S n)) as Up. fold k in Up. specialize (Up ltac:(lra)).
  pose proof (pw_down u64 rnd64 rnd64_rounding (S n)) as Dn. fold k in Dn.
  set (a := pw (1 + u64) (S n)) in *. set (b := pw (1 - u64) (S n)) in *. 
  assert (AE : a * E <= (1 + 2 * (k * u64)) * E) by (apply Qmult_le_compat_r; lra).
  assert (BE : (1 - k * u64) * E <= b * E) by (apply Qmult_le_compat_r; lra).
  assert (KE : 0 <= k * u64 * E) by (apply Qmult_le_0_compat; assumption).
  assert (Fin : u64 * (t0 + (4 * k + 4) * E) <= u64 * (9000000000000000 * tol0)) by (apply mul_le_l; [discriminate|exact Hb']).
  assert (Ex : u64 * (t0 + (4 * k + 4) * E) == u64 * t0 + 4 * (k * u64 * E) + 4 * (u64 * E)) by ring.
  change u64 with (1 # 9007199254740992) in *. lra.
Qed.

(** *** Whole numbers and binary fractions *)
Lemma grid_comp a x y : x == y -> grid a x -> grid a y.
Proof. intros E [z H]. exists z. rewrite <- E. exact H. Qed.
Lemma grid_add a x y : grid a x -> grid a y -> grid a (x + y).
Proof. intros [z H] [w K]. exists (z + w)%Z. rewrite H, K, inject_Z_plus. ring. Qed.
Lemma grid_sub a x y : grid a x -> grid a y -> grid a (x - y).
Proof. intros [z H] [w K]. exists (z - w)%Z. unfold Z.sub. rewrite H, K, inject_Z_plus, inject_Z_opp. ring. Qed.
Lemma grid_mul a b x y : grid a x -> grid b y -> grid (a + b) (x * y).
Proof. intros [z H] [w K]. exists (z * w)%Z. rewrite H, K, inject_Z_mult. replace (- (a + b))%Z with (- a + - b)%Z by lia. rewrite two_add. ring. Qed.
Lemma inject_abs z : inject_Z (Z.abs z) == Qabs (inject_Z z).
Proof. destruct z; reflexivity. Qed.
Lemma grid_float a x : grid a x -> Qabs x <= 2 ^ (53 - a) -> float64 x.
Proof.
  intros [z H] B. exists z, (- a)%Z. split; [|exact H]. rewrite Zle_Qle, inject_abs.
  assert (E : Qabs x == Qabs (inject_Z z) * 2 ^ (- a)) by (rewrite H, Qabs_Qmult; rewrite (Qabs_pos (2 ^ (- a))) by (apply Qlt_le_weak, two_pos); reflexivity).
  rewrite E in B. replace (53 - a)%Z with (53 + - a)%Z in B by lia. rewrite two_add in B. rewrite <- two_Z by lia. apply Qmult_le_r in B; [exact B|apply two_pos].
Qed.
Lemma grid_exact a x : grid a x -> Qabs x <= 2 ^ (53 - a) -> rnd64 x == x.
Proof. intros G B. apply rnd64_exact. eapply grid_float; eassumption. Qed.
Lemma linear_grid a b r : grid b r -> forall ts x t, linear x t r -> onward t ts -> grid a t -> Forall (grid a) ts -> grid (a + b) (v_val x) ->
  last_of t ts - t <= 2 ^ (53 - a) -> Qabs (v_val x) + Qabs r * (last_of t ts - t) <= 2 ^ (53 - (a + b)) ->
  v_val (f_reads rnd64 ts x) == v_val x + r * (last_of t ts - t).
Proof.
  intro Gr. induction ts as [|t1 ts IH]; intros x t L O Gt Gts Gv B1 B2; [cbn; ring|]. cbn [onward f_reads last_of] in *. destruct O as [O1 O2]. inversion Gts as [|? ? G1 G2]; subst.
  destruct (linear_step rnd64 x t r t1 L O1) as (v & _ & E2 & E3 & L1).
  assert (Lm : t1 <= last_of t1 ts). { clear - O2. revert t1 O2. induction ts as [|t2 ts IH]; intros t1 O; cbn in *; [lra|]. destruct O as [O1 O2]. specialize (IH t2 O2). lra. }
  set (T := last_of t1 ts) in *. pose proof (Qabs_nonneg r) as Nr. pose proof (Qabs_nonneg (v_val x)) as Nv.
  assert (X1 : rnd64 (t1 - t) == t1 - t) by (apply (grid_exact a); [apply grid_sub; assumption|rewrite Qabs_pos by lra; lra]).
  assert (Sm : Qabs r * (t1 - t) <= Qabs r * (T - t)) by (apply mul_le_l; lra).
  assert (Ab : Qabs ((t1 - t) * r) == Qabs r * (t1 - t)) by (rewrite Qabs_Qmult, (Qabs_pos (t1 - t)) by lra; ring).
  assert (Gm : grid (a + b) ((t1 - t) * r)) by (apply grid_mul; [apply grid_sub; assumption|exact Gr]).
  assert (X2 : rnd64 (rnd64 (t1 - t) * r) == (t1 - t) * r).
  { transitivity (rnd64 ((t1 - t) * r)); [apply (rnd_comp u64 rnd64 rnd64_rounding); rewrite X1; reflexivity|]. apply (grid_exact (a + b)); [exact Gm|]. rewrite Ab. lra. }
  assert (Tr : Qabs (v_val x + (t1 - t) * r) <= Qabs (v_val x) + Qabs r * (t1 - t)) by (eapply Qle_trans; [apply Qabs_triangle|]; rewrite Ab; lra).
  assert (X3 : v == v_val x + (t1 - t) * r).
  { rewrite E3. transitivity (rnd64 (v_val x + (t1 - t) * r)); [apply (rnd_comp u64 rnd64 rnd64_rounding); rewrite X2; reflexivity|].
    apply (grid_exact (a + b)); [apply grid_add; assumption|]. lra. }
  assert (Ev : v_val (fst (f_linear_active rnd64 t1 x)) == v_val x + (t1 - t) * r) by (rewrite E2; exact X3).
  rewrite (IH _ t1 L1 O2 G1 G2).
  - fold T. rewrite Ev. ring.
  - apply (grid_comp _ (v_val x + (t1 - t) * r)); [symmetry; exact Ev|apply grid_add; assumption].
  - fold T. lra.
  - fold T. rewrite Ev. assert (Qabs r * (T - t) == Qabs r * (t1 - t) + Qabs r * (T - t1)) by ring. lra.
Qed.
(** What is exact is also written in the same way. *)
Lemma rnd64_red x : float64 x -> rnd64 x = Qred x.
Proof.
  intro F. pose proof (rnd64_exact x F) as E. rewrite <- (Qred_complete _ _ E). unfold rnd64.
  destruct (Qeqb x 0); [reflexivity|]. cbv zeta. set (v := inject_Z _ * _). destruct (Qltb x 0).
  - rewrite Qred_opp. f_equal. apply Qred_complete. symmetry. apply Qred_correct.
  - apply Qred_complete. symmetry. apply Qred_correct.
Qed.
Lemma grid_to a x y : x == y -> grid a y -> Qabs y <= 2 ^ (53 - a) -> rnd64 x == y.
Proof. intros E G B. transitivity (rnd64 y); [apply (rnd_comp u64 rnd64 rnd64_rounding); exact E|]. apply (grid_exact a); assumption. Qed.
Lemma grid_zero a : grid a 0.
Proof. exists 0%Z. ring. Qed.
Lemma abs_le x b : - b <= x -> x <= b -> Qabs x <= b.
Proof. intros. apply Qabs_Qle_condition. split; assumption. Qed.
Definition limit (s : kst) : Q := if Qltb 0 (k_rate s) then k_cap s else 0.
Lemma check_grid a b s p w : k_last s = k_now s -> ~ k_rate s == 0 -> (p < length (k_checks s))%nat -> 0 <= k_level s <= k_cap s -> k_cap s <= 2 ^ (53 - (a + b)) ->
  grid b (k_rate s) -> grid (a + b) (k_level s) -> grid (a + b) (k_cap s) -> grid a (k_now s) -> 0 <= k_now s -> grid a w -> 0 <= w -> k_now s + w <= 2 ^ (53 - a) ->
  k_rate s * w == limit s - k_level s ->
  exists due, nth_error (k_checks (f_check_start rnd64 s p)) p = Some (CkWait due) /\ due == k_now s + w /\
    forall s', only_time s s' -> k_now s' = due -> f_cur_level rnd64 s' == limit s /\ k_level (f_set_level rnd64 s') == limit s.
Proof.
  intros El Hr Hp HL HC Gr Gl Gc Gn N0 Gw W0 HT Hw.
  assert (Gm : grid (a + b) (limit s)) by (unfold limit; destruct (Qltb _ _); [exact Gc|apply grid_zero]).
  assert (Lm : 0 <= limit s <= k_cap s) by (unfold limit; destruct (Qltb _ _); lra).
  assert (Tp : 0 < 2 ^ (53 - a)) by apply two_pos.
  assert (Z1 : rnd64 (k_now s - k_last s) == 0) by (apply (grid_to a); [rewrite El; ring|apply grid_zero|rewrite Qabs_pos; lra]).
  assert (Z2 : rnd64 (k_rate s * rnd64 (k_now s - k_last s)) == 0) by (apply (grid_to a); [rewrite Z1; ring|apply grid_zero|rewrite Qabs_pos; lra]).
  assert (Cl : f_cur_level rnd64 s == k_level s) by (unfold f_cur_level; apply (grid_to (a + b)); [rewrite Z2; ring|exact Gl|rewrite Qabs_pos; lra]).
  assert (D1 : rnd64 (limit s - f_cur_level rnd64 s) == limit s - k_level s).
  { apply (grid_to (a + b)); [rewrite Cl; ring|apply grid_sub; assumption|]. apply abs_le; lra. }
  assert (Ew : rnd64 (rnd64 (limit s - f_cur_level rnd64 s) / k_rate s) == w).
  { apply (grid_to a); [rewrite D1, <- Hw; field; exact Hr|exact Gw|rewrite Qabs_pos; lra]. }
  unfold f_check_start. assert (Qeqb (k_rate s) 0 = false) as -> by (apply Qeqb_neq; exact Hr). fold (limit s). cbv zeta.
  set (w' := rnd64 (rnd64 (limit s - f_cur_level rnd64 s) / k_rate s)) in *. assert (Qltb w' 0 = false) as -> by (apply Qltb_ge; lra).
  assert (Ed : rnd64 (k_now s + w') == k_now s + w) by (apply (grid_to a); [rewrite Ew; reflexivity|apply grid_add; assumption|rewrite Qabs_pos; lra]).
  exists (rnd64 (k_now s + w')). split; [cbn; apply nth_upd; exact Hp|]. split; [exact Ed|]. set (due := rnd64 (k_now s + w')) in *. clearbody due w'.
  intros s' (E1 & E2 & E3 & E5) E4.
  assert (Y1 : rnd64 (k_now s' - k_last s') == w) by (apply (grid_to a); [rewrite E4, E3, El, Ed; ring|exact Gw|rewrite Qabs_pos; lra]).
  assert (Y2 : rnd64 (k_rate s' * rnd64 (k_now s' - k_last s')) == limit s - k_level s).
  { apply (grid_to (a + b)); [rewrite Y1, E2; exact Hw|apply grid_sub; assumption|]. apply abs_le; lra. }
  assert (Y3 : rnd64 (k_level s' + rnd64 (k_rate s' * rnd64 (k_now s' - k_last s'))) == limit s) by (apply (grid_to (a + b)); [rewrite Y2, E1; ring|exact Gm|rewrite Qabs_pos; lra]).
  split; [exact Y3|]. unfold f_set_level. destruct (Qltb (k_last s') (k_now s')) eqn:Q; [exact Y3|]. cbn [k_level]. apply Qltb_ge in Q. rewrite E4, E3, El, Ed in Q.
  rewrite E1. assert (X : w == 0) by lra. rewrite X in Hw. lra.
Qed.

(** *** Without rounding *)
Local Notation id_ := (fun x : Q => x).
Lemma same_flow_refl s : same_flow s s.
Proof. split; [reflexivity|]. destruct s; reflexivity. Qed.
Lemma removed_exact s us : f_removed id_ s us == - Qsum (map (rate_of s) us).
Proof.
  assert (F : forall us a, fold_left (fun acc u => acc + - rate_of s u) us a == a - Qsum (map (rate_of s) us)).
  { induction us0 as [|v us0 IH]; intro a; [cbn; ring|]. cbn [fold_left map]. rewrite IH. change (Qsum (rate_of s v :: map (rate_of s) us0)) with (rate_of s v + Qsum (map (rate_of s) us0)). ring. }
  unfold f_removed. rewrite F. ring.
Qed.
Lemma change_rate_flow s d d' : d == d' -> same_flow (change_rate s d) (change_rate s d').
Proof.
  intro E. unfold change_rate. set (s1 := set_level s). assert (X : k_rate s1 + d == k_rate s1 + d') by (rewrite E; reflexivity).
  destruct (Qeqb (k_rate s1 + d) 0) eqn:Q.
  - apply Qeqb_eq in Q. assert (Qeqb (k_rate s1 + d') 0 = true) as -> by (apply Qeqb_eq; rewrite <- X; exact Q). split; [exact X|reflexivity].
  - apply Qeqb_neq in Q. assert (Qeqb (k_rate s1 + d') 0 = false) as -> by (apply Qeqb_neq; rewrite <- X; exact Q). split; [exact X|reflexivity].
Qed.
Lemma check_finally_flow s : same_flow (f_check_finally id_ s) (check_finally s).
Proof.
  unfold f_check_finally, check_finally. change (f_set_level id_ s) with (set_level s). cbv zeta.
  destruct (if Qltb (k_rate (set_level s)) 0 then _ else _) as [s1 rm]. destruct (halted s1); [apply same_flow_refl|]. destruct rm as [|u us]; [apply same_flow_refl|].
  unfold f_add_rate, add_rate. destruct (halted _); [apply same_flow_refl|]. apply change_rate_flow. apply removed_exact.
Qed.
Lemma same_flow_halt s s' r : same_flow s s' -> same_flow (set_halt s r) (set_halt s' r).
Proof. intros [E H]. split; [exact E|]. rewrite H. reflexivity. Qed.
Lemma same_flow_halted s s' : same_flow s s' -> halted s = halted s'.
Proof. intros [_ H]. rewrite H. reflexivity. Qed.
Lemma check_start_flow s p : same_flow (f_check_start id_ s p) (check_start s p).
Proof.
  unfold f_check_start, check_start. destruct (Qeqb _ _); [apply same_flow_refl|]. cbv zeta. change (f_cur_level id_ s) with (cur_level s). destruct (Qltb (_ / _) 0); [|apply same_flow_refl].
  pose proof (check_finally_flow (set_ckstat s p CkEnd)) as F. rewrite (same_flow_halted _ _ F). destruct (halted _); [exact F|apply same_flow_halt; exact F].
Qed.
Lemma kstep_flow s o : match f_kstep id_ s o, kstep s o with Some s1, Some s2 => same_flow s1 s2 | None, None => True | _, _ => False end.
Proof.
  unfold f_kstep, kstep. destruct (halted s); [exact I|]. destruct o as [r t|r t|u| | |u|p|t].
  - destruct (Qleb r 0); [exact I|apply same_flow_refl].
  - destruct (Qleb r 0); [exact I|apply same_flow_refl].
  - destruct (alive s u); [apply same_flow_refl|exact I].
  - apply same_flow_refl.
  - destruct (k_urgent s) as [|e l]; [exact I|]. destruct e as [u|p|p|u c]; cbn [f_do_urgent do_urgent].
    + apply same_flow_refl.
    + apply check_start_flow.
    + destruct (nth_error _ _) as [[| |]|]; try apply same_flow_refl. apply check_finally_flow.
    + apply same_flow_refl.
  - destruct (k_urgent s); [|exact I]. change (f_fire_user id_ s u) with (fire_user s u). destruct (fire_user s u); [apply same_flow_refl|exact I].
  - destruct (k_urgent s); [|exact I]. unfold f_fire_check, fire_check. destruct (nth_error _ _) as [[| |]|]; try exact I. destruct (Qeqb _ _); [apply check_finally_flow|exact I].
  - destruct (k_urgent s); [|exact I]. destruct (_ && _); [apply same_flow_refl|exact I].
Qed.
