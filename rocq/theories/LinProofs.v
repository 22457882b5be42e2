(** Proofs about straight motion past a sphere. *)
From Coq Require Import Reals List Lra Lia Bool Psatz.
From Verif Require Import PairModel LinModel LinSpec.
Import ListNotations.
Open Scope R_scope.

(** ** Comparisons *)
Lemma Rleb_spec : forall a b, (Rleb a b = true /\ a <= b) \/ (Rleb a b = false /\ b < a).
Proof. intros a b. unfold Rleb. destruct (Rle_dec a b); [left|right]; split; auto; lra. Qed.
Lemma Rleb_true : forall a b, Rleb a b = true <-> a <= b.
Proof. intros a b. destruct (Rleb_spec a b) as [[-> H]|[-> H]]; split; intro; auto; try discriminate; lra. Qed.
Lemma Rleb_false : forall a b, Rleb a b = false <-> b < a.
Proof. intros a b. destruct (Rleb_spec a b) as [[-> H]|[-> H]]; split; intro; auto; try discriminate; lra. Qed.
Lemma Rzero_false : forall a, a <> 0 -> Rzero a = false.
Proof. intros a H. unfold Rzero. destruct (Req_EM_T a 0); [contradiction|reflexivity]. Qed.
Lemma Rzero_true : forall a, a = 0 -> Rzero a = true.
Proof. intros a H. unfold Rzero. destruct (Req_EM_T a 0); [reflexivity|contradiction]. Qed.

(** ** Quadratics *)
Section Quad.
Variables a b c : R.
Hypothesis A : 0 < a.
Definition disc := b ^ 2 - 4 * a * c.
Definition big := (- b + sqrt disc) / (2 * a).
Definition small := (- b - sqrt disc) / (2 * a).
Lemma quad_none : disc < 0 -> forall u, 0 < a * u ^ 2 + b * u + c.
Proof.
  intros D u. assert (4 * a * (a * u ^ 2 + b * u + c) = (2 * a * u + b) ^ 2 - disc) by (unfold disc; ring).
  assert (0 <= (2 * a * u + b) ^ 2) by apply pow2_ge_0. apply Rmult_lt_reg_l with (4 * a); lra.
Qed.
Lemma quad_factor : 0 <= disc -> forall u, a * u ^ 2 + b * u + c = a * (u - big) * (u - small).
Proof.
  intros D u. pose proof (sqrt_sqrt _ D) as S. unfold big, small. set (q := sqrt disc) in *.
  assert (C : c = (b ^ 2 - q * q) / (4 * a)) by (rewrite S; unfold disc; field; lra).
  rewrite C. field. lra.
Qed.
Lemma small_big : 0 <= disc -> small <= big.
Proof.
  intros D. unfold small, big. apply Rmult_le_compat_r; [left; apply Rinv_0_lt_compat; lra|].
  pose proof (sqrt_pos disc). lra.
Qed.
Lemma quad_le : 0 <= disc -> forall u, a * u ^ 2 + b * u + c <= 0 <-> small <= u <= big.
Proof.
  intros D u. rewrite (quad_factor D). pose proof (small_big D) as SB. split.
  - intro H. destruct (Rlt_dec u small) as [X|X]; [|destruct (Rlt_dec big u) as [Y|Y]; [|lra]].
    + assert (0 < (u - big) * (u - small)) by nra. nra.
    + assert (0 < (u - big) * (u - small)) by nra. nra.
  - intros [H1 H2]. assert ((u - big) * (u - small) <= 0) by nra. nra.
Qed.
Lemma quad_eq : 0 <= disc -> forall u, a * u ^ 2 + b * u + c = 0 <-> u = big \/ u = small.
Proof.
  intros D u. rewrite (quad_factor D). split; [|intros [->| ->]; ring].
  intro H. apply Rmult_integral in H. destruct H as [H|H]; [|right; lra].
  apply Rmult_integral in H. destruct H; [lra|left; lra].
Qed.
End Quad.

(** ** Vectors *)
Lemma dist_apart : forall p q, dist p q = apart p q.
Proof. intros [[px py] pz] [[qx qy] qz]. reflexivity. Qed.
Lemma gap2_pos : forall p q, 0 <= gap2 p q.
Proof. intros [[px py] pz] [[qx qy] qz]. unfold gap2. pose proof (pow2_ge_0 (px - qx)); pose proof (pow2_ge_0 (py - qy)); pose proof (pow2_ge_0 (pz - qz)). lra. Qed.
Lemma gap2_sym : forall p q, gap2 p q = gap2 q p.
Proof. intros [[px py] pz] [[qx qy] qz]. unfold gap2. ring. Qed.
Lemma apart_sym : forall p q, apart p q = apart q p.
Proof. intros. unfold apart. rewrite gap2_sym. reflexivity. Qed.
Lemma gap2_zero : forall p q, gap2 p q = 0 -> p = q.
Proof.
  intros [[px py] pz] [[qx qy] qz] H. unfold gap2 in H.
  pose proof (pow2_ge_0 (px - qx)); pose proof (pow2_ge_0 (py - qy)); pose proof (pow2_ge_0 (pz - qz)).
  assert (forall x, x ^ 2 = 0 -> x = 0) by (intros x X; nra).
  assert (px - qx = 0) by (apply H3; lra). assert (py - qy = 0) by (apply H3; lra). assert (pz - qz = 0) by (apply H3; lra).
  repeat f_equal; lra.
Qed.
Lemma apart_pos : forall p q, p <> q -> 0 < apart p q.
Proof.
  intros p q H. unfold apart. apply sqrt_lt_R0. pose proof (gap2_pos p q) as [G|G]; [exact G|]. exfalso. apply H, gap2_zero. auto.
Qed.
Lemma apart_le : forall p q r, 0 <= r -> apart p q <= r <-> gap2 p q <= r ^ 2.
Proof.
  intros p q r H. unfold apart. split; intro G.
  - pose proof (sqrt_sqrt _ (gap2_pos p q)). pose proof (sqrt_pos (gap2 p q)). nra.
  - rewrite <- (sqrt_pow2 r H). apply sqrt_le_1_alt. exact G.
Qed.
Lemma apart_eq : forall p q r, 0 <= r -> apart p q = r <-> gap2 p q = r ^ 2.
Proof.
  intros p q r H. unfold apart. split; intro G.
  - rewrite <- G. pose proof (sqrt_sqrt _ (gap2_pos p q)). lra.
  - rewrite G. apply sqrt_pow2. exact H.
Qed.
Lemma norm2 : forall v, vnorm v ^ 2 = let '(x, y, z) := v in x ^ 2 + y ^ 2 + z ^ 2.
Proof.
  intros [[x y] z]. unfold vnorm. pose proof (pow2_ge_0 x); pose proof (pow2_ge_0 y); pose proof (pow2_ge_0 z).
  rewrite <- Rsqr_pow2. apply Rsqr_sqrt. lra.
Qed.
Lemma norm_mul : forall u v, 0 <= u -> vnorm (vmul u v) = u * vnorm v.
Proof.
  intros u [[x y] z] H. unfold vmul, vnorm. replace ((u * x) ^ 2 + (u * y) ^ 2 + (u * z) ^ 2) with (u ^ 2 * (x ^ 2 + y ^ 2 + z ^ 2)) by ring.
  pose proof (pow2_ge_0 x); pose proof (pow2_ge_0 y); pose proof (pow2_ge_0 z).
  rewrite sqrt_mult by (try apply pow2_ge_0; lra). rewrite sqrt_pow2 by exact H. reflexivity.
Qed.
Lemma ray_point : forall a b u, vadd a (vmul u (vsub b a)) = between a b u.
Proof. intros [[ax ay] az] [[bx by_] bz] u. reflexivity. Qed.
Lemma ray_time : forall a b u, 0 <= u -> vnorm (vsub (vadd a (vmul u (vsub b a))) a) = u * apart a b.
Proof.
  intros [[ax ay] az] [[bx by_] bz] u H.
  replace (vsub (vadd (ax, ay, az) (vmul u (vsub (bx, by_, bz) (ax, ay, az)))) (ax, ay, az)) with (vmul u (vsub (bx, by_, bz) (ax, ay, az))).
  - rewrite norm_mul by exact H. f_equal. rewrite apart_sym. reflexivity.
  - cbn. f_equal; [f_equal|]; ring.
Qed.

(** ** The ray *)
Definition rP (start center radii : point) : vec := vsub (scale start radii) (scale center radii).
Definition rv (start toward radii : point) : vec := scale (vsub toward start) radii.
Definition qa (start toward radii : point) : R := vnorm (rv start toward radii) ^ 2.
Definition qb (start toward center radii : point) : R := 2 * vdot (rP start center radii) (rv start toward radii).
Definition qc (start center radii : point) : R := vnorm (rP start center radii) ^ 2 - 1.
Definition nonzero (r : point) : Prop := let '(x, y, z) := r in x <> 0 /\ y <> 0 /\ z <> 0.
Lemma qa_pos : forall start toward radii, nonzero radii -> start <> toward -> 0 < qa start toward radii.
Proof.
  intros [[sx sy] sz] [[tx ty] tz] [[rx ry] rz] NZ NE. unfold qa. rewrite norm2. cbn [rv scale vsub].
  destruct NZ as [Z1 [Z2 Z3]].
  assert (SQ : forall x r, r <> 0 -> 0 <= (x * (1 / r)) ^ 2 /\ ((x * (1 / r)) ^ 2 = 0 -> x = 0)).
  { intros x r Hr. split; [apply pow2_ge_0|]. intro H. assert (x * (1 / r) = 0) by nra. apply Rmult_integral in H0. destruct H0 as [H0|H0]; [exact H0|].
    exfalso. unfold Rdiv in H0. rewrite Rmult_1_l in H0. exact (Rinv_neq_0_compat r Hr H0). }
  destruct (SQ (tx - sx) rx Z1) as [A1 B1]. destruct (SQ (ty - sy) ry Z2) as [A2 B2]. destruct (SQ (tz - sz) rz Z3) as [A3 B3].
  destruct (Rtotal_order 0 (((tx - sx) * (1 / rx)) ^ 2 + ((ty - sy) * (1 / ry)) ^ 2 + ((tz - sz) * (1 / rz)) ^ 2)) as [H|[H|H]]; [lra| |lra].
  exfalso. apply NE. assert (tx - sx = 0) by (apply B1; lra). assert (ty - sy = 0) by (apply B2; lra). assert (tz - sz = 0) by (apply B3; lra).
  f_equal; [f_equal|]; lra.
Qed.
Definition level (center radii p : point) : R :=
  let '(cx, cy, cz) := center in let '(rx, ry, rz) := radii in let '(x, y, z) := p in
  ((x - cx) / rx) ^ 2 + ((y - cy) / ry) ^ 2 + ((z - cz) / rz) ^ 2.
Lemma ray_quad : forall start toward center radii, nonzero radii -> forall u,
  qa start toward radii * u ^ 2 + qb start toward center radii * u + qc start center radii = level center radii (between start toward u) - 1.
Proof.
  intros [[sx sy] sz] [[tx ty] tz] [[cx cy] cz] [[rx ry] rz] [Z1 [Z2 Z3]] u. unfold qa, qb, qc. rewrite !norm2.
  cbn [rP rv scale vsub vdot between level]. field. auto.
Qed.
Lemma sort_in : forall {X} (key : X -> R) u l, In u (sort key l) -> In u l.
Proof.
  intros X key u l. assert (INS : forall x l, In u (insert key x l) -> u = x \/ In u l).
  { intros x k. induction k as [|y k IH]; cbn [insert]; [intros [->|[]]; auto|]. destruct (Rleb (key x) (key y)); cbn [In]; intuition. }
  induction l as [|x l IH]; cbn [sort]; [intros []|]. intro H. apply INS in H. destruct H as [->|H]; [left; reflexivity|right; auto].
Qed.
(** The roots, as found. *)
Definition found (start toward center radii : point) : list R :=
  let a := qa start toward radii in let b := qb start toward center radii in let c := qc start center radii in
  sort (fun t => t) (filter (Rleb 0) (if Rleb 0 (disc a b c) then [big a b c; small a b c] else [])).
Lemma ray_eq : forall start toward center radii speed, nonzero radii -> start <> toward -> 0 < speed ->
  ray_intersection start toward center radii speed =
  Ok (map (fun u => (between start toward u, u * (apart start toward / speed))) (found start toward center radii)).
Proof.
  intros start toward center radii speed NZ NE S. pose proof (qa_pos _ _ _ NZ NE) as A. unfold ray_intersection.
  destruct radii as [[rx ry] rz] eqn:ER. rewrite <- ER in *. assert (Z : Rzero rx || Rzero ry || Rzero rz = false).
  { rewrite ER in NZ. destruct NZ as [Z1 [Z2 Z3]]. rewrite !Rzero_false by assumption. reflexivity. }
  rewrite Z. cbv zeta. fold (rP start center radii). fold (rv start toward radii). fold (qa start toward radii).
  fold (qb start toward center radii). fold (qc start center radii). unfold found. cbv zeta.
  set (a := qa start toward radii) in *. set (b := qb start toward center radii). set (c := qc start center radii).
  set (rs := if Rleb 0 (disc a b c) then [big a b c; small a b c] else []).
  assert (RT : roots a b c = Ok rs).
  { unfold roots, rs. fold (disc a b c). destruct (Rleb 0 (disc a b c)); [|reflexivity].
    rewrite Rzero_false by lra. reflexivity. }
  rewrite RT. rewrite (Rzero_false speed) by lra. cbn [andb]. f_equal.
  apply map_ext_in. intros u Hu. assert (IN : 0 <= u).
  { apply sort_in in Hu. apply filter_In in Hu. apply Rleb_true. apply Hu. }
  rewrite ray_point. f_equal. rewrite <- ray_point. rewrite ray_time by exact IN. unfold Rdiv. ring.
Qed.
(** What is found, from the two roots in order. *)
Lemma found_cases : forall start toward center radii, nonzero radii -> start <> toward ->
  let l := found start toward center radii in
  let lev u := level center radii (between start toward u) in
  (l = [] /\ forall u, 0 <= u -> 1 < lev u) \/
  exists r2 r1, r2 <= r1 /\ (forall u, lev u <= 1 <-> r2 <= u <= r1) /\ (forall u, lev u = 1 <-> u = r1 \/ u = r2) /\
    l = (if Rleb 0 r2 then [r2] else []) ++ (if Rleb 0 r1 then [r1] else []).
Proof.
  intros start toward center radii NZ NE. cbv zeta. pose proof (qa_pos _ _ _ NZ NE) as A.
  pose proof (ray_quad start toward center radii NZ) as RQ. unfold found. cbv zeta.
  set (a := qa start toward radii) in *. set (b := qb start toward center radii) in *. set (c := qc start center radii) in *.
  destruct (Rleb_spec 0 (disc a b c)) as [[-> D]|[-> D]].
  - right. exists (small a b c), (big a b c). pose proof (small_big a b c A D) as SB. split; [exact SB|]. split; [|split].
    + intro u. rewrite <- (quad_le a b c A D), RQ. split; lra.
    + intro u. rewrite <- (quad_eq a b c A D), RQ. split; lra.
    + cbn [filter]. destruct (Rleb_spec 0 (small a b c)) as [[-> S]|[-> S]]; destruct (Rleb_spec 0 (big a b c)) as [[-> B]|[-> B]]; try reflexivity.
      cbn [sort insert app]. destruct (Rleb_spec (big a b c) (small a b c)) as [[-> E]|[-> E]]; [|reflexivity].
      replace (big a b c) with (small a b c) by lra. reflexivity.
  - left. split; [reflexivity|]. intros u _. pose proof (quad_none a b c A D u) as H. rewrite RQ in H. lra.
Qed.
(** ** One leg *)
Lemma between_0 : forall a b, between a b 0 = a.
Proof. intros [[ax ay] az] [[bx by_] bz]. cbn. f_equal; [f_equal|]; ring. Qed.
Lemma between_1 : forall a b, between a b 1 = b.
Proof. intros [[ax ay] az] [[bx by_] bz]. cbn. f_equal; [f_equal|]; ring. Qed.
Lemma level_sphere : forall c p r, 0 < r -> level c (r, r, r) p = gap2 p c / r ^ 2.
Proof. intros [[cx cy] cz] [[x y] z] r H. cbn [level gap2]. field. lra. Qed.
Lemma level_le : forall c p r, 0 < r -> level c (r, r, r) p <= 1 <-> inside c r p.
Proof.
  intros c p r H. rewrite level_sphere by exact H. unfold inside. rewrite apart_le by lra. assert (0 < r ^ 2) by (apply pow_lt; exact H). split; intro G.
  - apply Rmult_le_reg_r with (/ r ^ 2); [apply Rinv_0_lt_compat; assumption|]. rewrite Rinv_r by lra. exact G.
  - unfold Rdiv. rewrite <- (Rinv_r (r ^ 2)) by lra. apply Rmult_le_compat_r; [left; apply Rinv_0_lt_compat; assumption|exact G].
Qed.
Lemma level_eq : forall c p r, 0 < r -> level c (r, r, r) p = 1 <-> apart p c = r.
Proof.
  intros c p r H. rewrite level_sphere by exact H. rewrite apart_eq by lra. assert (0 < r ^ 2) by (apply pow_lt; exact H). split; intro G.
  - replace (gap2 p c) with (gap2 p c / r ^ 2 * r ^ 2) by (field; lra). rewrite G. ring.
  - rewrite G. field. lra.
Qed.
Definition ends_at (c : point) (r : R) (a b : point) (k : kind) (u edge : R) (stay pass : kind) : Prop :=
  k = stay /\ inside c r (between a b edge) /\ u = edge \/
  k = pass /\ ~ inside c r (between a b edge) /\ apart (between a b u) c = r.
Theorem leg_ok : forall a b speed c r, a <> b -> 0 < speed -> 0 < r ->
  let D := apart a b / speed in
  match cartesian a b speed c r with
  | Err e => e = MotionErr /\ (apart a c = r \/ apart b c = r)
  | Ok (l, pt) =>
      (l = [] /\ pt = -1 /\ misses c r a b) \/
      exists u1 u2 k1 k2, 0 <= u1 <= u2 /\ u2 <= 1 /\ pt = D /\
        l = [(between a b u1, u1 * D, k1); (between a b u2, u2 * D, k2)] /\
        (forall u, 0 <= u <= 1 -> inside c r (between a b u) <-> u1 <= u <= u2) /\
        ends_at c r a b k1 u1 0 START_INSIDE ENTER /\ ends_at c r a b k2 u2 1 END_INSIDE EXIT
  end.
Proof.
  intros a b speed c r NE S RP D. unfold cartesian. rewrite (Rzero_false speed) by lra.
  rewrite !dist_apart, (apart_sym b a), (apart_sym c a), (apart_sym c b). fold D.
  assert (DP : 0 < D) by (apply Rdiv_lt_0_compat; [apply apart_pos; exact NE|exact S]).
  assert (NZ : nonzero (r, r, r)) by (cbn; lra).
  rewrite (ray_eq a b c (r, r, r) speed NZ NE S). fold D.
  pose proof (found_cases a b c (r, r, r) NZ NE) as FC. cbv zeta in FC.
  assert (LE : forall u, level c (r, r, r) (between a b u) <= 1 <-> inside c r (between a b u)) by (intro; apply level_le; exact RP).
  assert (EQ : forall u, level c (r, r, r) (between a b u) = 1 <-> apart (between a b u) c = r) by (intro; apply level_eq; exact RP).
  set (l := found a b c (r, r, r)) in *.
  assert (IA : Rleb (apart a c) r = true <-> inside c r (between a b 0)) by (rewrite between_0; apply Rleb_true).
  assert (IB : Rleb (apart b c) r = true <-> inside c r (between a b 1)) by (rewrite between_1; apply Rleb_true).
  assert (TM : forall u, Rleb (u * D) D = Rleb u 1).
  { intro u. destruct (Rleb_spec u 1) as [[-> H]|[-> H]]; [apply Rleb_true|apply Rleb_false]; nra. }
  destruct FC as [[L0 HN]|[r2 [r1 [R21 [HL [HE L0]]]]]].
  - assert (OUT : forall u, 0 <= u -> ~ inside c r (between a b u)) by (intros u Hu X; apply LE in X; specialize (HN u Hu); lra).
    assert (Rleb (apart a c) r = false) as -> by (apply not_true_iff_false; rewrite IA; apply OUT; lra).
    cbn [andb]. rewrite L0. cbn [map forallb]. left. split; [reflexivity|]. split; [reflexivity|].
    intros u Hu. apply OUT. lra.
  - assert (HI : forall u, inside c r (between a b u) <-> r2 <= u <= r1) by (intro u; rewrite <- LE; apply HL).
    assert (HB : forall u, apart (between a b u) c = r <-> u = r1 \/ u = r2) by (intro u; rewrite <- EQ; apply HE).
    assert (HA0 : apart a c = r <-> 0 = r1 \/ 0 = r2) by (rewrite <- HB, between_0; tauto).
    assert (HB0 : apart b c = r <-> 1 = r1 \/ 1 = r2) by (rewrite <- HB, between_1; tauto).
    rewrite HI in IA, IB. clear HN LE EQ HL HE || clear LE EQ HL HE.
    assert (FIN : forall (lst : list (vec * R * kind)) u1 u2 k1 k2, lst = [(between a b u1, u1 * D, k1); (between a b u2, u2 * D, k2)] -> 0 <= u1 <= u2 -> u2 <= 1 -> (forall u, 0 <= u <= 1 -> r2 <= u <= r1 <-> u1 <= u <= u2) ->
      (k1 = START_INSIDE /\ r2 <= 0 <= r1 /\ u1 = 0 \/ k1 = ENTER /\ ~ (r2 <= 0 <= r1) /\ (u1 = r1 \/ u1 = r2)) ->
      (k2 = END_INSIDE /\ r2 <= 1 <= r1 /\ u2 = 1 \/ k2 = EXIT /\ ~ (r2 <= 1 <= r1) /\ (u2 = r1 \/ u2 = r2)) ->
      exists v1 v2 j1 j2, 0 <= v1 <= v2 /\ v2 <= 1 /\ D = D /\
        lst = [(between a b v1, v1 * D, j1); (between a b v2, v2 * D, j2)] /\
        (forall u, 0 <= u <= 1 -> inside c r (between a b u) <-> v1 <= u <= v2) /\
        ends_at c r a b j1 v1 0 START_INSIDE ENTER /\ ends_at c r a b j2 v2 1 END_INSIDE EXIT).
    { intros lst u1 u2 k1 k2 -> X1 X2 X3 X4 X5. exists u1, u2, k1, k2. split; [exact X1|]. split; [exact X2|]. split; [reflexivity|]. split; [reflexivity|].
      split; [intros u Hu; rewrite HI; apply X3; exact Hu|]. unfold ends_at. rewrite !HI, !HB. split; assumption. }
    destruct (Rleb (apart a c) r) eqn:SI; destruct (Rleb (apart b c) r) eqn:FI; cbn [andb].
    + assert (X1 : r2 <= 0 <= r1) by tauto. assert (X2 : r2 <= 1 <= r1) by tauto.
      right. apply (FIN _ 0 1 START_INSIDE END_INSIDE); try lra; [rewrite between_0, between_1; repeat f_equal; ring|intros; lra|left; auto|left; auto].
    + assert (X1 : r2 <= 0 <= r1) by tauto. assert (X2 : ~ (r2 <= 1 <= r1)) by (intro X; apply IB in X; discriminate).
      rewrite L0. assert (Rleb 0 r1 = true) as -> by (apply Rleb_true; lra).
      destruct (Rleb_spec 0 r2) as [[-> H]|[-> H]]; cbn [app map forallb snd sort insert filter]; rewrite ?TM.
      * assert (Rleb r2 1 = true) as -> by (apply Rleb_true; lra). cbn [negb andb].
        assert (Rleb (r2 * D) (r1 * D) = true) as -> by (apply Rleb_true; nra). cbn [filter snd]. rewrite !TM.
        assert (Rleb r2 1 = true) as -> by (apply Rleb_true; lra). assert (Rleb r1 1 = true) as -> by (apply Rleb_true; lra). cbn [app].
        split; [reflexivity|]. left. apply HA0. lra.
      * assert (Rleb r1 1 = true) as -> by (apply Rleb_true; lra). cbn [negb andb app].
        right. apply (FIN _ 0 r1 START_INSIDE EXIT); try lra; [rewrite between_0; repeat f_equal; ring|intros; lra|left; auto|right; auto].
    + assert (X1 : ~ (r2 <= 0 <= r1)) by (intro X; apply IA in X; discriminate). assert (X2 : r2 <= 1 <= r1) by tauto.
      rewrite L0. assert (Rleb 0 r1 = true) as -> by (apply Rleb_true; lra). assert (Rleb 0 r2 = true) as -> by (apply Rleb_true; lra).
      cbn [app map forallb snd sort insert filter]. rewrite !TM.
      assert (Rleb r2 1 = true) as Z2 by (apply Rleb_true; lra). rewrite Z2. cbn [negb andb].
      assert (Rleb (r2 * D) (r1 * D) = true) as -> by (apply Rleb_true; nra). cbn [filter snd]. rewrite !TM, Z2. cbn [app].
      destruct (Rleb_spec r1 1) as [[-> H]|[-> H]]; cbn [app].
      * split; [reflexivity|]. right. apply HB0. lra.
      * right. apply (FIN _ r2 1 ENTER END_INSIDE); try lra; [rewrite between_1; repeat f_equal; ring|intros; lra|right; auto|left; auto].
    + assert (X1 : ~ (r2 <= 0 <= r1)) by (intro X; apply IA in X; discriminate). assert (X2 : ~ (r2 <= 1 <= r1)) by (intro X; apply IB in X; discriminate).
      assert (OUT : ~ (0 <= r2 /\ r1 <= 1) -> misses c r a b) by (intros X u Hu Y; rewrite HI in Y; lra).
      rewrite L0. destruct (Rleb_spec 0 r2) as [[-> H2]|[-> H2]]; destruct (Rleb_spec 0 r1) as [[-> H1]|[-> H1]];
        cbn [app map forallb snd sort insert filter]; rewrite ?TM; try lra.
      * destruct (Rleb_spec r2 1) as [[Z2 H3]|[Z2 H3]]; rewrite Z2; cbn [negb andb].
        -- assert (H4 : r1 <= 1) by lra. assert (Rleb r1 1 = true) as Z1 by (apply Rleb_true; exact H4).
           assert (Rleb (r2 * D) (r1 * D) = true) as -> by (apply Rleb_true; nra). cbn [filter snd]. rewrite !TM, Z2, Z1. cbn [app].
           right. apply (FIN _ r2 r1 ENTER EXIT); try lra; [reflexivity|intros; lra|right; auto|right; auto].
        -- assert (Rleb r1 1 = false) as -> by (apply Rleb_false; lra). cbn [negb]. left. split; [reflexivity|]. split; [reflexivity|]. apply OUT. lra.
      * left. split; [reflexivity|]. split; [reflexivity|]. apply OUT. lra.
Qed.
(** ** Paths *)
Definition flat (l : list (crossing R)) : list (kind * R) := flat_map (fun p => [fst p; snd p]) l.
Lemma flat_cons : forall p l, flat (p :: l) = fst p :: snd p :: flat l. Proof. reflexivity. Qed.
Lemma ordered_lo : forall l lo lo' hi, lo' <= lo -> ordered false lo hi l -> ordered false lo' hi l.
Proof.
  destruct l as [|[[k1 t1] [k2 t2]] l]; intros lo lo' hi H O; [exact Logic.I|]. cbn [ordered] in *. destruct O as [[[A B]|[A _]] C]; [|discriminate].
  split; [left; split; [exact A|lra]|exact C].
Qed.
Lemma ordered_within : forall l lo hi t, ordered false lo hi l -> within l t -> lo < t.
Proof.
  induction l as [|[[k1 t1] [k2 t2]] l IH]; intros lo hi t O W; destruct W as [j1 [u1 [j2 [u2 [H1 H2]]]]]; [destruct H1|].
  cbn [ordered] in O. destruct O as [[[A B]|[A _]] [C [D E]]]; [|discriminate]. destruct H1 as [H1|H1].
  - inversion H1; subst. lra.
  - assert (t2 < t); [|lra]. apply (IH t2 hi t E). exists j1, u1, j2, u2. auto.
Qed.
Lemma ordered_times : forall l f lo hi k1 t1 k2 t2, ordered f lo hi l -> In ((k1, t1), (k2, t2)) l -> (lo <= t1 /\ (f = false -> lo < t1)) /\ t1 <= t2.
Proof.
  induction l as [|[[k1 t1] [k2 t2]] l IH]; intros f lo hi j1 u1 j2 u2 O H; [destruct H|].
  cbn [ordered] in O. destruct O as [A [C [D E]]]. destruct H as [H|H].
  - inversion H; subst. split; [|exact C]. destruct A as [[_ A]|[A1 [_ A2]]]; split; try lra. intro; congruence.
  - destruct (IH _ _ _ _ _ _ _ E H) as [[X1 X2] Y]. split; [|exact Y]. assert (lo <= t1) by (destruct A as [[_ A]|[_ [_ A]]]; lra). specialize (X2 eq_refl). split; [|intro]; lra.
Qed.
Lemma pair_off_flat : forall l f lo hi, ordered f lo hi l -> pair_off R (flat l) = Ok l.
Proof.
  induction l as [|[[k1 t1] [k2 t2]] l IH]; intros f lo hi O; [reflexivity|]. rewrite flat_cons. cbn [pair_off fst snd].
  cbn [ordered] in O. destruct O as [A [_ [B C]]]. rewrite (IH _ _ _ C).
  assert (V : valid k1 k2 = true); [|rewrite V; reflexivity].
  destruct A as [[-> _]|[_ [-> _]]]; destruct B as [[-> _]|[_ [-> _]]]; reflexivity.
Qed.
Lemma within_cons : forall k1 t1 k2 t2 l t, within (((k1, t1), (k2, t2)) :: l) t <-> t1 <= t <= t2 \/ within l t.
Proof.
  intros k1 t1 k2 t2 l t. split.
  - intros [j1 [u1 [j2 [u2 [[H|H] U]]]]]; [inversion H; subst; left; exact U|right; exists j1, u1, j2, u2; auto].
  - intros [H|[j1 [u1 [j2 [u2 [H U]]]]]]; [exists k1, t1, k2, t2; split; [left; reflexivity|exact H]|exists j1, u1, j2, u2; split; [right; exact H|exact U]].
Qed.
Lemma within_nil : forall t, ~ within [] t.
Proof. intros t [j1 [u1 [j2 [u2 [[] _]]]]]. Qed.

Section Path.
Variables (speed : R) (c : point) (r : R) (start : R).
Hypothesis SP : 0 < speed.
Hypothesis RP : 0 < r.
Notation time a b := (apart a b / speed).
Lemma time_pos : forall a b, a <> b -> 0 < time a b.
Proof. intros a b H. apply Rdiv_lt_0_compat; [apply apart_pos; exact H|exact SP]. Qed.
Lemma going_between : forall a b u, a <> b -> going a b speed (u * time a b) = between a b u.
Proof. intros a b u H. unfold going. f_equal. pose proof (apart_pos a b H). field. split; lra. Qed.
Lemma going_frac : forall a b t, a <> b -> 0 <= t <= time a b -> exists u, 0 <= u <= 1 /\ t = u * time a b.
Proof.
  intros a b t H T. pose proof (time_pos a b H) as P. exists (t / time a b). split; [|field; split; [apply Rgt_not_eq; exact SP|pose proof (apart_pos a b H); lra]].
  split.
  - apply Rmult_le_pos; [lra|]. left. apply Rinv_0_lt_compat. exact P.
  - apply Rmult_le_reg_r with (time a b); [exact P|]. unfold Rdiv at 1. rewrite Rmult_assoc, Rinv_l by lra. lra.
Qed.
Definition met (a b : point) (t1 t2 : R) (k1 k2 : kind) : Prop :=
  intersection a b speed c r = Ok ([(t1, k1); (t2, k2)], time a b) /\
  0 <= t1 <= t2 /\ t2 <= time a b /\
  (forall t, 0 <= t <= time a b -> inside c r (going a b speed t) <-> t1 <= t <= t2) /\
  (k1 = START_INSIDE /\ inside c r a /\ t1 = 0 \/ k1 = ENTER /\ ~ inside c r a /\ 0 < t1 /\ apart (going a b speed t1) c = r) /\
  (k2 = END_INSIDE /\ inside c r b /\ t2 = time a b \/ k2 = EXIT /\ ~ inside c r b /\ 0 < t2 < time a b /\ apart (going a b speed t2) c = r).
Lemma leg_met : forall a b, a <> b -> apart a c <> r -> apart b c <> r ->
  (intersection a b speed c r = Ok ([], -1) /\ misses c r a b) \/ exists t1 t2 k1 k2, met a b t1 t2 k1 k2.
Proof.
  intros a b NE NA NB. pose proof (leg_ok a b speed c r NE SP RP) as H. cbv zeta in H. pose proof (time_pos a b NE) as P.
  unfold intersection, met, intersection. destruct (cartesian a b speed c r) as [[l pt]|e]; [|exfalso; destruct H as [_ [H|H]]; contradiction].
  destruct H as [[-> [-> H]]|[u1 [u2 [k1 [k2 [U1 [U2 [-> [-> [U3 [E1 E2]]]]]]]]]]]; [left; split; [reflexivity|exact H]|].
  right. exists (u1 * time a b), (u2 * time a b), k1, k2. unfold ends_at in *. rewrite between_0 in E1. rewrite between_1 in E2.
  assert (M : forall x y, x <= y <-> x * time a b <= y * time a b) by (intros; split; intro; [apply Rmult_le_compat_r; lra|apply Rmult_le_reg_r with (time a b); assumption]).
  assert (M' : forall x y, x < y <-> x * time a b < y * time a b) by (intros; split; intro; [apply Rmult_lt_compat_r; assumption|apply Rmult_lt_reg_r with (time a b); assumption]).
  split; [reflexivity|]. split; [split; [|apply (proj1 (M _ _)); lra]; replace 0 with (0 * time a b) by ring; apply (proj1 (M _ _)); lra|].
  split; [replace (time a b) with (1 * time a b) at 2 by ring; apply (proj1 (M _ _)); exact U2|]. split; [|split].
  - intros t Ht. destruct (going_frac a b t NE Ht) as [u [Hu ->]]. rewrite going_between by exact NE. rewrite (U3 u Hu), <- !M. tauto.
  - destruct E1 as [[-> [X ->]]|[-> [X Y]]]; [left; split; [reflexivity|]; split; [exact X|ring]|right].
    split; [reflexivity|]. split; [exact X|]. rewrite going_between by exact NE. split; [|exact Y].
    replace 0 with (0 * time a b) by ring. apply (proj1 (M' _ _)). destruct (Rlt_dec 0 u1) as [Z|Z]; [exact Z|]. exfalso. apply NA.
    replace u1 with 0 in Y by lra. rewrite between_0 in Y. exact Y.
  - destruct E2 as [[-> [X ->]]|[-> [X Y]]]; [left; split; [reflexivity|]; split; [exact X|ring]|right].
    split; [reflexivity|]. split; [exact X|]. rewrite going_between by exact NE. split; [|exact Y]. split.
    + replace 0 with (0 * time a b) by ring. apply (proj1 (M' _ _)). destruct (Rlt_dec 0 u2) as [Z|Z]; [exact Z|]. exfalso. apply NA.
      replace u2 with 0 in Y by lra. rewrite between_0 in Y. exact Y.
    + replace (time a b) with (1 * time a b) at 2 by ring. apply (proj1 (M' _ _)). destruct (Rlt_dec u2 1) as [Z|Z]; [exact Z|]. exfalso. apply NB.
      replace u2 with 1 in Y by lra. rewrite between_1 in Y. exact Y.
Qed.
Lemma miss_leg : forall a b, a <> b -> misses c r a b -> forall t, 0 <= t <= time a b -> ~ inside c r (going a b speed t).
Proof. intros a b NE H t Ht. destruct (going_frac a b t NE Ht) as [u [Hu ->]]. rewrite going_between by exact NE. apply H. exact Hu. Qed.
Lemma clear_head : forall a ws, clear c r a ws -> apart a c <> r.
Proof. intros a [|b ws] [H _]; exact H. Qed.
Lemma lasts_pos : forall ws a, clear c r a ws -> 0 <= lasts speed a ws.
Proof.
  induction ws as [|b ws IH]; intros a H; cbn [lasts]; [lra|]. destruct H as [_ [H1 H2]]. pose proof (time_pos a b H1). specialize (IH b H2). lra.
Qed.
Lemma all_miss_out : forall ws a, ~ inside c r a -> clear c r a ws -> all_miss c r a ws ->
  forall t, 0 <= t <= lasts speed a ws -> ~ inside c r (place speed a ws t).
Proof.
  induction ws as [|b ws IH]; intros a NI CL AM t T; cbn [place]; [exact NI|]. destruct CL as [CA [NE CL]]. destruct AM as [M AM]. cbn [lasts] in T.
  destruct (Rle_dec t (time a b)) as [H|H]; [apply miss_leg; auto; lra|]. apply IH; auto; [|lra].
  intro X. apply (M 1); [lra|]. rewrite between_1. exact X.
Qed.
Notation legs := (legs R Rplus vec intersection start speed c r).
Lemma all_miss_legs : forall ws a e d, clear c r a ws -> all_miss c r a ws -> legs a ws e d = Ok d.
Proof.
  induction ws as [|b ws IH]; intros a e d CL AM; [reflexivity|]. destruct CL as [CA [NE CL]]. destruct AM as [M AM]. cbn [PairModel.legs].
  destruct (leg_met a b NE CA (clear_head b ws CL)) as [[E _]|[t1 [t2 [k1 [k2 [E [T1 [T2 [T3 _]]]]]]]]].
  - rewrite E. cbn [collect]. apply IH; assumption.
  - exfalso. apply (miss_leg a b NE M t1); [lra|]. apply T3; lra.
Qed.
Lemma place_next : forall a b ws t, a <> b -> time a b < t -> place speed a (b :: ws) t = place speed b ws (t - time a b).
Proof. intros a b ws t NE H. cbn [place]. destruct (Rle_dec t (time a b)); [lra|reflexivity]. Qed.
Lemma place_leg : forall a b ws t, t <= time a b -> place speed a (b :: ws) t = going a b speed t.
Proof. intros a b ws t H. cbn [place]. destruct (Rle_dec t (time a b)); [reflexivity|lra]. Qed.
Definition outside_claim (a : point) (ws : list point) : Prop :=
  ~ inside c r a -> forall e d, (match d with (END_INSIDE, _) :: _ => False | _ => True end) ->
  let E := start + e in let hi := E + lasts speed a ws in
  exists l, legs a ws e d = Ok (rev (flat l) ++ d) /\ ordered false E hi l /\
    touches c r (fun t => place speed a ws (t - E)) l /\
    forall t, 0 <= t <= lasts speed a ws -> inside c r (place speed a ws t) <-> within l (E + t).
Definition inside_claim (a : point) (ws : list point) : Prop :=
  inside c r a -> forall e d k1 t1, (k1 = START_INSIDE \/ k1 = ENTER) ->
  let E := start + e in let hi := E + lasts speed a ws in
  exists k2 t2 l, legs a ws e ((END_INSIDE, E) :: (k1, t1) :: d) = Ok (rev (flat (((k1, t1), (k2, t2)) :: l)) ++ d) /\ E <= t2 /\
    (k2 = EXIT /\ E < t2 < hi /\ apart (place speed a ws (t2 - E)) c = r \/ l = [] /\ k2 = END_INSIDE /\ t2 = hi) /\ ordered false t2 hi l /\
    touches c r (fun t => place speed a ws (t - E)) l /\
    forall t, 0 <= t <= lasts speed a ws -> inside c r (place speed a ws t) <-> E + t <= t2 \/ within l (E + t).
Lemma rev_flat_app : forall p l d, rev (flat (p :: l)) ++ d = rev (flat l) ++ snd p :: fst p :: d.
Proof. intros p l d. rewrite flat_cons. cbn [rev]. rewrite <- !app_assoc. reflexivity. Qed.
Lemma touches_shift : forall a b ws E l hi, a <> b -> ordered false (E + time a b) hi l ->
  touches c r (fun t => place speed b ws (t - (E + time a b))) l -> touches c r (fun t => place speed a (b :: ws) (t - E)) l.
Proof.
  intros a b ws E l hi NE O H k1 t1 k2 t2 IN. destruct (H k1 t1 k2 t2 IN) as [H1 H2]. destruct (ordered_times _ _ _ _ _ _ _ _ O IN) as [[_ X] Y]. specialize (X eq_refl).
  rewrite !place_next by (auto; lra). replace (t1 - E - time a b) with (t1 - (E + time a b)) by ring. replace (t2 - E - time a b) with (t2 - (E + time a b)) by ring.
  split; assumption.
Qed.
Lemma touches_cons : forall pos k1 t1 k2 t2 l, (k1 = ENTER -> apart (pos t1) c = r) -> (k2 = EXIT -> apart (pos t2) c = r) -> touches c r pos l ->
  touches c r pos (((k1, t1), (k2, t2)) :: l).
Proof. intros pos k1 t1 k2 t2 l H1 H2 H j1 u1 j2 u2 [IN|IN]; [inversion IN; subst; split; assumption|exact (H j1 u1 j2 u2 IN)]. Qed.
Theorem path_ok : forall ws a, clear c r a ws -> no_gap c r a ws -> outside_claim a ws /\ inside_claim a ws.
Proof.
  induction ws as [|b ws IH]; intros a CL NG.
  - split; intro IA.
    + intros e d Hd E hi. exists []. split; [reflexivity|]. split; [exact Logic.I|]. split; [intros ? ? ? ? []|].
      intros t Ht. cbn [place]. split; [contradiction|intro W; exfalso; exact (within_nil _ W)].
    + intros e d k1 t1 K E hi. exists END_INSIDE, E, []. split; [reflexivity|]. split; [lra|]. unfold hi. cbn [lasts].
      split; [right; split; [reflexivity|]; split; [reflexivity|lra]|]. split; [exact Logic.I|]. split; [intros ? ? ? ? []|].
      intros t Ht. cbn [lasts] in Ht. cbn [place]. split; [intros _; left; lra|auto].
  - destruct CL as [CA [NE CL]]. destruct NG as [NG1 NG2]. pose proof (clear_head b ws CL) as CB. destruct (IH b CL NG2) as [OC IC]. clear IH.
    pose proof (time_pos a b NE) as TP. pose proof (lasts_pos ws b CL) as LP. split; intro IA.
    + intros e d Hd E hi. destruct (leg_met a b NE CA CB) as [[LE M]|[t1 [t2 [k1 [k2 [LE [T1 [T2 [T3 [K1 K2]]]]]]]]]].
      * exists []. split; [|split; [exact Logic.I|split; [intros ? ? ? ? []|]]].
        -- cbn [PairModel.legs]. rewrite LE. cbn [collect]. apply all_miss_legs; auto.
        -- intros t Ht. split; [|intro W; exfalso; exact (within_nil _ W)]. intro X. exfalso. revert X.
           apply all_miss_out; auto. split; [assumption|split; assumption]. split; auto.
      * destruct K1 as [[_ [K1 _]]|[-> [_ [K1 K1r]]]]; [contradiction|].
        cbn [PairModel.legs]. rewrite LE.
        assert (CO : collect R Rplus (start + e) [(t1, ENTER); (t2, k2)] d = Ok ((k2, E + t2) :: (ENTER, E + t1) :: d)).
        { cbn [collect]. destruct d as [|[[] ?] d]; try contradiction; reflexivity. }
        rewrite CO. assert (EE : start + (e + time a b) = E + time a b) by (unfold E; ring).
        destruct K2 as [[-> [IB ->]]|[-> [IB [K2 K2r]]]].
        -- destruct (IC IB (e + time a b) d ENTER (E + t1) (or_intror eq_refl)) as [j2 [u2 [l [L1 [L2 [L3 [L4 [L5 L6]]]]]]]]. cbv zeta in *. rewrite EE in *.
           exists (((ENTER, E + t1), (j2, u2)) :: l). split; [exact L1|]. split; [|split].
           ++ cbn [ordered]. split; [left; split; [reflexivity|lra]|]. split; [lra|]. replace hi with (E + time a b + lasts speed b ws) by (unfold hi; cbn [lasts]; ring).
              split; [|exact L4]. destruct L3 as [[A [B _]]|L3]; [left; split; [exact A|lra]|right; exact L3].
           ++ apply touches_cons.
              ** intros _. rewrite place_leg by lra. replace (E + t1 - E) with t1 by ring. exact K1r.
              ** intros ->. destruct L3 as [[_ [B L3]]|[_ [X _]]]; [|discriminate]. rewrite place_next by (auto; lra). rewrite <- L3. f_equal. f_equal. ring.
              ** apply touches_shift with (hi := E + time a b + lasts speed b ws); auto. apply ordered_lo with u2; [lra|exact L4].
           ++ intros t Ht. cbn [lasts] in Ht. rewrite within_cons. destruct (Rle_dec t (time a b)) as [X|X].
              ** rewrite place_leg by exact X. rewrite T3 by lra. split; [intro; left; lra|]. intros [Y|Y]; [lra|].
                 apply ordered_within with (lo := u2) (hi := E + time a b + lasts speed b ws) in Y; [lra|exact L4].
              ** rewrite place_next by (auto; lra). rewrite L6 by lra. replace (E + time a b + (t - time a b)) with (E + t) by ring.
                 split; (intros [Y|Y]; [left; lra|right; exact Y]).
        -- destruct (OC IB (e + time a b) ((EXIT, E + t2) :: (ENTER, E + t1) :: d) Logic.I) as [l [L1 [L2 [L3 L4]]]]. cbv zeta in *. rewrite EE in *.
           exists (((ENTER, E + t1), (EXIT, E + t2)) :: l). split; [rewrite rev_flat_app; exact L1|]. split; [|split].
           ++ cbn [ordered]. split; [left; split; [reflexivity|lra]|]. split; [lra|]. replace hi with (E + time a b + lasts speed b ws) by (unfold hi; cbn [lasts]; ring).
              split; [left; split; [reflexivity|lra]|]. apply ordered_lo with (E + time a b); [lra|exact L2].
           ++ apply touches_cons.
              ** intros _. rewrite place_leg by lra. replace (E + t1 - E) with t1 by ring. exact K1r.
              ** intros _. rewrite place_leg by lra. replace (E + t2 - E) with t2 by ring. exact K2r.
              ** apply touches_shift with (hi := E + time a b + lasts speed b ws); auto.
           ++ intros t Ht. cbn [lasts] in Ht. rewrite within_cons. destruct (Rle_dec t (time a b)) as [X|X].
              ** rewrite place_leg by exact X. rewrite T3 by lra. split; [intro; left; lra|]. intros [Y|Y]; [lra|].
                 apply ordered_within with (lo := E + time a b) (hi := E + time a b + lasts speed b ws) in Y; [lra|exact L2].
              ** rewrite place_next by (auto; lra). rewrite L4 by lra. replace (E + time a b + (t - time a b)) with (E + t) by ring.
                 split; [intro; right; assumption|intros [Y|Y]; [lra|exact Y]].
    + intros e d k1 t1 K E hi. destruct (leg_met a b NE CA CB) as [[LE M]|[u1 [t2 [j1 [k2 [LE [T1 [T2 [T3 [K1 K2]]]]]]]]]].
      { exfalso. apply (M 0); [lra|]. rewrite between_0. exact IA. }
      destruct K1 as [[-> [_ ->]]|[_ [K1 _]]]; [|contradiction].
      cbn [PairModel.legs]. rewrite LE.
      assert (CO : collect R Rplus (start + e) [(0, START_INSIDE); (t2, k2)] ((END_INSIDE, E) :: (k1, t1) :: d) = Ok ((k2, E + t2) :: (k1, t1) :: d)).
      { destruct K as [-> | ->]; reflexivity. }
      rewrite CO. assert (EE : start + (e + time a b) = E + time a b) by (unfold E; ring).
      destruct K2 as [[-> [IB ->]]|[-> [IB [K2 K2r]]]].
      * destruct (IC IB (e + time a b) d k1 t1 K) as [j2 [u2 [l [L1 [L2 [L3 [L4 [L5 L6]]]]]]]]. cbv zeta in *. rewrite EE in *.
        exists j2, u2, l. split; [exact L1|]. split; [lra|]. split; [|split; [|split]].
        -- destruct L3 as [[A [B C]]|[A [B C]]]; [left; split; [exact A|]; split; [unfold hi; cbn [lasts]; lra|]|right; split; [exact A|]; split; [exact B|unfold hi; cbn [lasts]; lra]].
           rewrite place_next by (auto; lra). rewrite <- C. f_equal. f_equal. ring.
        -- replace hi with (E + time a b + lasts speed b ws) by (unfold hi; cbn [lasts]; ring). exact L4.
        -- apply touches_shift with (hi := E + time a b + lasts speed b ws); auto. apply ordered_lo with u2; [lra|exact L4].
        -- intros t Ht. cbn [lasts] in Ht. destruct (Rle_dec t (time a b)) as [X|X].
           ++ rewrite place_leg by exact X. rewrite T3 by lra. split; [intro; left; lra|]. intros _. lra.
           ++ rewrite place_next by (auto; lra). rewrite L6 by lra. replace (E + time a b + (t - time a b)) with (E + t) by ring. tauto.
      * destruct (OC IB (e + time a b) ((EXIT, E + t2) :: (k1, t1) :: d) Logic.I) as [l [L1 [L2 [L3 L4]]]]. cbv zeta in *. rewrite EE in *.
        exists EXIT, (E + t2), l. split; [rewrite rev_flat_app; exact L1|]. split; [lra|]. split; [|split; [|split]].
        -- left. split; [reflexivity|]. split; [unfold hi; cbn [lasts]; lra|]. rewrite place_leg by lra. replace (E + t2 - E) with t2 by ring. exact K2r.
        -- replace hi with (E + time a b + lasts speed b ws) by (unfold hi; cbn [lasts]; ring). apply ordered_lo with (E + time a b); [lra|exact L2].
        -- apply touches_shift with (hi := E + time a b + lasts speed b ws); auto.
        -- intros t Ht. cbn [lasts] in Ht. destruct (Rle_dec t (time a b)) as [X|X].
           ++ rewrite place_leg by exact X. rewrite T3 by lra. split; [intro; left; lra|]. intros [Y|Y]; [lra|].
              apply ordered_within with (lo := E + time a b) (hi := E + time a b + lasts speed b ws) in Y; [lra|exact L2].
           ++ rewrite place_next by (auto; lra). rewrite L4 by lra. replace (E + time a b + (t - time a b)) with (E + t) by ring.
              split; [intro; right; assumption|intros [Y|Y]; [lra|exact Y]].
Qed.
Theorem predict_ok : forall a ws, clear c r a ws -> no_gap c r a ws -> ws <> [] ->
  exists l, predict speed (a :: ws) start (c, r) = Ok l /\ ordered true start (start + lasts speed a ws) l /\
    touches c r (fun t => place speed a ws (t - start)) l /\
    forall t, 0 <= t <= lasts speed a ws -> inside c r (place speed a ws t) <-> within l (start + t).
Proof.
  intros a ws CL NG NN. unfold predict, process_pair. cbn [fst snd].
  destruct (Rle_dec (apart a c) r) as [IA|IA].
  - destruct ws as [|b ws]; [congruence|]. destruct CL as [CA [NE CL]]. destruct NG as [NG1 NG2]. pose proof (clear_head b ws CL) as CB.
    destruct (path_ok ws b CL NG2) as [OC IC]. pose proof (time_pos a b NE) as TP. pose proof (lasts_pos ws b CL) as LP.
    destruct (leg_met a b NE CA CB) as [[LE M]|[u1 [t2 [j1 [k2 [LE [T1 [T2 [T3 [K1 K2]]]]]]]]]].
    { exfalso. apply (M 0); [lra|]. rewrite between_0. exact IA. }
    destruct K1 as [[-> [_ ->]]|[_ [K1 _]]]; [|contradiction].
    cbn [PairModel.legs]. rewrite LE. cbn [collect kind_eqb].
    assert (EE : start + (0 + time a b) = start + time a b) by ring. assert (E0 : start + 0 + 0 = start) by ring. rewrite E0.
    destruct K2 as [[-> [IB ->]]|[-> [IB [K2 K2r]]]].
    + destruct (IC IB (0 + time a b) [] START_INSIDE start (or_introl eq_refl)) as [j2 [u2 [l [L1 [L2 [L3 [L4 [L5 L6]]]]]]]]. cbv zeta in *. rewrite EE in *.
      assert (OR : ordered true start (start + lasts speed a (b :: ws)) (((START_INSIDE, start), (j2, u2)) :: l)).
      { cbn [ordered lasts]. split; [right; auto|]. split; [lra|]. replace (start + (time a b + lasts speed b ws)) with (start + time a b + lasts speed b ws) by ring.
        split; [|exact L4]. destruct L3 as [[A [B _]]|L3]; [left; split; [exact A|lra]|right; exact L3]. }
      exists (((START_INSIDE, start), (j2, u2)) :: l).
      replace (start + 0 + time a b) with (start + time a b) by ring. rewrite L1, app_nil_r, rev_involutive. split; [exact (pair_off_flat _ _ _ _ OR)|]. split; [exact OR|]. split.
      * apply touches_cons; [discriminate| |].
        -- intros ->. destruct L3 as [[_ [B L3]]|[_ [X _]]]; [|discriminate]. rewrite place_next by (auto; lra). rewrite <- L3. f_equal. f_equal. ring.
        -- apply touches_shift with (hi := start + time a b + lasts speed b ws); auto. apply ordered_lo with u2; [lra|exact L4].
      * intros t Ht. cbn [lasts] in Ht. rewrite within_cons. destruct (Rle_dec t (time a b)) as [X|X].
        -- rewrite place_leg by exact X. rewrite T3 by lra. split; [intro; left; lra|intro; lra].
        -- rewrite place_next by (auto; lra). rewrite L6 by lra. replace (start + time a b + (t - time a b)) with (start + t) by ring.
           split; (intros [Y|Y]; [left; lra|right; exact Y]).
    + destruct (OC IB (0 + time a b) ((EXIT, start + t2) :: (START_INSIDE, start) :: []) Logic.I) as [l [L1 [L2 [L3 L4]]]]. cbv zeta in *. rewrite EE in *.
      assert (OR : ordered true start (start + lasts speed a (b :: ws)) (((START_INSIDE, start), (EXIT, start + t2)) :: l)).
      { cbn [ordered lasts]. split; [right; auto|]. split; [lra|]. replace (start + (time a b + lasts speed b ws)) with (start + time a b + lasts speed b ws) by ring.
        split; [left; split; [reflexivity|lra]|]. apply ordered_lo with (start + time a b); [lra|exact L2]. }
      exists (((START_INSIDE, start), (EXIT, start + t2)) :: l).
      replace (start + 0 + t2) with (start + t2) by ring. rewrite L1.
      change (rev (flat l) ++ [(EXIT, start + t2); (START_INSIDE, start)]) with (rev (flat l) ++ snd ((START_INSIDE, start), (EXIT, start + t2)) :: fst ((START_INSIDE, start), (EXIT, start + t2)) :: []).
      rewrite <- rev_flat_app, app_nil_r, rev_involutive. split; [exact (pair_off_flat _ _ _ _ OR)|]. split; [exact OR|]. split.
      * apply touches_cons; [discriminate| |].
        -- intros _. rewrite place_leg by lra. replace (start + t2 - start) with t2 by ring. exact K2r.
        -- apply touches_shift with (hi := start + time a b + lasts speed b ws); auto.
      * intros t Ht. cbn [lasts] in Ht. rewrite within_cons. destruct (Rle_dec t (time a b)) as [X|X].
        -- rewrite place_leg by exact X. rewrite T3 by lra. split; [intro; left; lra|]. intros [Y|Y]; [lra|].
           apply ordered_within with (lo := start + time a b) (hi := start + time a b + lasts speed b ws) in Y; [lra|exact L2].
        -- rewrite place_next by (auto; lra). rewrite L4 by lra. replace (start + time a b + (t - time a b)) with (start + t) by ring.
           split; [intro; right; assumption|intros [Y|Y]; [lra|exact Y]].
  - destruct (path_ok ws a CL NG) as [OC _]. destruct (OC IA 0 [] Logic.I) as [l [L1 [L2 [L3 L4]]]]. cbv zeta in *.
    assert (E0 : start + 0 = start) by ring. rewrite E0 in *.
    assert (OR : ordered true start (start + lasts speed a ws) l).
    { destruct l as [|[[k1 t1] [k2 t2]] l]; [exact Logic.I|]. cbn [ordered] in *. destruct L2 as [[A|[A _]] B]; [split; [left; exact A|exact B]|discriminate]. }
    exists l. rewrite L1, app_nil_r, rev_involutive. split; [exact (pair_off_flat _ _ _ _ OR)|]. split; [exact OR|]. split; [exact L3|exact L4].
Qed.
End Path.
