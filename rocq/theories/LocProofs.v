(** Proofs about locations. *)
From Coq Require Import Reals List Bool String QArith Qreals ZArith Lia Lra Psatz.
From Verif Require Import GeoModel GeoSpec GeoProofs LocModel LocSpec.
Import ListNotations.
Open Scope string_scope.
Open Scope R_scope.

(** ** Attributes *)
Lemma lookup_store : forall n v l k, lookup k (store n v l) = if String.eqb n k then Some v else lookup k l.
Proof.
  intros n v l k. induction l as [|[a w] l IH]; simpl.
  - reflexivity.
  - destruct (String.eqb_spec a n) as [->|N]; simpl.
    + destruct (String.eqb_spec n k); reflexivity.
    + destruct (String.eqb_spec a k) as [->|N']; [|exact IH]. destruct (String.eqb_spec n k); [congruence|reflexivity].
Qed.
(** Assignments that leave _no_override alone: the names in it keep their values, attempts
    to set them fail, all others succeed. *)
Lemma assign_ok : forall names ops o, lookup "_no_override" (attrs o) = Some (Names names) -> Forall (fun e => fst e <> "_no_override") ops ->
  let '(o', outs) := assign o ops in
  class o' = class o /\ lookup "_no_override" (attrs o') = Some (Names names) /\
  (forall n, In n names -> lookup n (attrs o') = lookup n (attrs o)) /\
  outs = map (fun e => if existsb (String.eqb (fst e)) names then Some FrozenE else None) ops.
Proof.
  intros names ops. induction ops as [|[n v] ops IH]; intros o N F.
  - simpl. auto.
  - inversion F as [|? ? F1 F2]; subst. simpl in F1. simpl assign. unfold setattr. rewrite N. simpl map.
    destruct (existsb (String.eqb n) names) eqn:X.
    + specialize (IH o N F2). destruct (assign o ops) as [o' outs]. destruct IH as [A [B [C D]]]. rewrite D. auto.
    + set (o1 := mkObj (class o) (store n v (attrs o))). assert (N1 : lookup "_no_override" (attrs o1) = Some (Names names)).
      { simpl. rewrite lookup_store. destruct (String.eqb_spec n "_no_override"); [contradiction|exact N]. }
      specialize (IH o1 N1 F2). destruct (assign o1 ops) as [o' outs]. destruct IH as [A [B [C D]]]. rewrite D. split; [exact A|]. split; [exact B|]. split; [|reflexivity].
      intros k K. rewrite (C k K). simpl. rewrite lookup_store. destruct (String.eqb_spec n k) as [->|_]; [|reflexivity].
      exfalso. assert (existsb (String.eqb k) names = true) by (apply existsb_exists; exists k; split; [exact K|apply String.eqb_refl]). congruence.
Qed.

(** ** Units *)
Lemma factor_ok : forall u k v m, is_unit u k -> is_unit v m -> exists f, factor u v f /\ forall x, unit_convert x u v = Ok (x * f).
Proof.
  intros u k v m U V. pose proof U as U'. pose proof V as V'. unfold factor.
  assert (G : exists q, UnitsModel.unit_convert 1 u v = Some q /\ 0 < Q2R q /\ Rabs (Q2R q - k / m) <= k / m / 1000000).
  { unfold is_unit in U, V. repeat (destruct U as [U|U]; [injection U as <- <-|]); try contradiction;
    repeat (destruct V as [V|V]; [injection V as <- <-|]); try contradiction;
    (eexists; split; [vm_compute; reflexivity|]; unfold Q2R; simpl; split; [lra|]; apply Rabs_le; lra). }
  destruct G as [q [E [Q C]]]. exists (Q2R q). split; [exists k, m; auto|]. intro x. unfold unit_convert. rewrite E. reflexivity.
Qed.

(** ** Distance in space *)
Lemma apart_sq : forall u v, apart_by u v ^ 2 = dot (mix 1 u (-1) v) (mix 1 u (-1) v) /\ 0 <= apart_by u v.
Proof.
  intros u v. unfold apart_by, length3. split; [|apply sqrt_pos]. apply sqrt_pow2'. destruct (mix 1 u (-1) v) as [[a b] c]. unfold dot.
  pose proof (pow2_ge_0 a). pose proof (pow2_ge_0 b). pose proof (pow2_ge_0 c). lra.
Qed.
Lemma apart_form : forall ax ay az bx by_ bz, apart_by (ax, ay, az) (bx, by_, bz) = sqrt ((ax - bx) ^ 2 + (ay - by_) ^ 2 + (az - bz) ^ 2).
Proof. intros. unfold apart_by, length3, mix, dot. f_equal. ring. Qed.
Lemma apart_sym : forall u v, apart_by u v = apart_by v u.
Proof. intros [[ax ay] az] [[bx by_] bz]. rewrite !apart_form. f_equal. ring. Qed.
Lemma apart_zero : forall u v, apart_by u v = 0 <-> u = v.
Proof.
  intros [[ax ay] az] [[bx by_] bz]. rewrite apart_form. split; intro H.
  - assert (S : (ax - bx) ^ 2 + (ay - by_) ^ 2 + (az - bz) ^ 2 = 0).
    { apply sqrt_eq_0; [|exact H]. pose proof (pow2_ge_0 (ax - bx)). pose proof (pow2_ge_0 (ay - by_)). pose proof (pow2_ge_0 (az - bz)). lra. }
    pose proof (pow2_ge_0 (ax - bx)). pose proof (pow2_ge_0 (ay - by_)). pose proof (pow2_ge_0 (az - bz)).
    assert (Z : forall t, t ^ 2 = 0 -> t = 0) by (intros t T; destruct (Req_dec t 0) as [X|X]; [exact X|]; exfalso; apply (pow_nonzero t 2 X); exact T).
    assert (ax - bx = 0) by (apply Z; lra). assert (ay - by_ = 0) by (apply Z; lra). assert (az - bz = 0) by (apply Z; lra). apply f_equal2; [apply f_equal2|]; lra.
  - injection H as -> -> ->. replace ((bx - bx) ^ 2 + (by_ - by_) ^ 2 + (bz - bz) ^ 2) with 0 by ring. apply sqrt_0.
Qed.
Lemma apart_triangle : forall u v w, apart_by u w <= apart_by u v + apart_by v w.
Proof.
  intros u v w. destruct (apart_sq u w) as [A A0]. destruct (apart_sq u v) as [B B0]. destruct (apart_sq v w) as [C C0].
  destruct u as [[u1 u2] u3], v as [[v1 v2] v3], w as [[w1 w2] w3]. unfold mix, dot in *.
  set (a := apart_by _ _) in *. set (b := apart_by (u1, u2, u3) (v1, v2, v3)) in *. set (c := apart_by (v1, v2, v3) _) in *.
  set (p1 := u1 - v1) in *. set (p2 := u2 - v2). set (p3 := u3 - v3). set (q1 := v1 - w1). set (q2 := v2 - w2). set (q3 := v3 - w3).
  assert (BE : b ^ 2 = p1 ^ 2 + p2 ^ 2 + p3 ^ 2) by (rewrite B; unfold p1, p2, p3; ring). assert (CE : c ^ 2 = q1 ^ 2 + q2 ^ 2 + q3 ^ 2) by (rewrite C; unfold q1, q2, q3; ring).
  assert (AE : a ^ 2 = b ^ 2 + c ^ 2 + 2 * (p1 * q1 + p2 * q2 + p3 * q3)) by (rewrite A, BE, CE; unfold p1, p2, p3, q1, q2, q3; ring).
  assert (CS : p1 * q1 + p2 * q2 + p3 * q3 <= b * c).
  { destruct (Rle_dec (p1 * q1 + p2 * q2 + p3 * q3) (b * c)) as [X|X]; [exact X|]. exfalso. assert (0 <= b * c) by (apply Rmult_le_pos; assumption).
    assert (S : (b * c) ^ 2 < (p1 * q1 + p2 * q2 + p3 * q3) ^ 2) by nra.
    replace ((b * c) ^ 2) with (b ^ 2 * c ^ 2) in S by ring. rewrite BE, CE in S.
    pose proof (pow2_ge_0 (p1 * q2 - p2 * q1)). pose proof (pow2_ge_0 (p1 * q3 - p3 * q1)). pose proof (pow2_ge_0 (p2 * q3 - p3 * q2)). nra. }
  nra.
Qed.

Lemma array_ok : forall st f c, (forall x, unit_convert x (altitude_units st) (dist_units st) = Ok (x * f)) \/ use_alt c = false -> as_array st c = Ret (spot f c).
Proof. intros st f c H. unfold as_array, spot. destruct (use_alt c); [|reflexivity]. destruct H as [H|H]; [|discriminate]. rewrite H. reflexivity. Qed.
Lemma cart_sub_ok : forall st f c d, (forall x, unit_convert x (altitude_units st) (dist_units st) = Ok (x * f)) \/ use_alt c = false /\ use_alt d = false ->
  cart_sub st c (Cart d) = Ret (apart_by (spot f c) (spot f d)).
Proof.
  intros st f c d H. unfold cart_sub. rewrite (array_ok st f c), (array_ok st f d) by intuition. unfold rbind.
  destruct (spot f c) as [[ax ay] az], (spot f d) as [[bx by_] bz]. rewrite apart_form, rsqrt_ok; [reflexivity|].
  pose proof (pow2_ge_0 (ax - bx)). pose proof (pow2_ge_0 (ay - by_)). pose proof (pow2_ge_0 (az - bz)). lra.
Qed.

(** ** Geodetic locations *)
Lemma deg_point : forall g, (glat (to_deg g), glon (to_deg g)) = in_degrees g.
Proof. intro g. unfold to_deg, in_degrees, degrees. destruct (in_rad g); [|reflexivity]. simpl. f_equal; field; pose proof PI_pos; lra. Qed.
Lemma rad_point : forall g, in_degrees (to_rad g) = in_degrees g.
Proof. intro g. unfold to_rad, in_degrees, radians. destruct (in_rad g) eqn:E; simpl; rewrite ?E; [reflexivity|]. f_equal; field; pose proof PI_pos; lra. Qed.
Lemma to_deg_alt : forall g, galt (to_deg g) = galt g.
Proof. intro g. unfold to_deg. destruct (in_rad g); reflexivity. Qed.
Lemma Reqb_iff : forall a b, Reqb a b = true <-> a = b.
Proof. intros a b. unfold Reqb. destruct (Req_EM_T a b); split; intro; try assumption; try reflexivity; try discriminate; contradiction. Qed.
Lemma coords_inj : forall g h, in_rad g = in_rad h -> (glat g = glat h /\ glon g = glon h <-> in_degrees g = in_degrees h).
Proof.
  intros g h E. pose proof PI_pos as P. unfold in_degrees. rewrite <- E. destruct (in_rad g).
  - split; [intros [-> ->]; reflexivity|]. intro H. injection H as H1 H2. split.
    + replace (glat g) with (glat g * 180 / PI * (PI / 180)) by (field; lra). rewrite H1. field. lra.
    + replace (glon g) with (glon g * 180 / PI * (PI / 180)) by (field; lra). rewrite H2. field. lra.
  - split; [intros [-> ->]; reflexivity|]. intro H. injection H as H1 H2. auto.
Qed.
Lemma geo_eq_ok : forall g h, exists b, geo_eq g (Geo h) = Ret b /\ (b = true <-> in_degrees g = in_degrees h /\ galt g = galt h).
Proof.
  intros g h. unfold geo_eq. eexists. split; [reflexivity|]. rewrite !andb_true_iff, !Reqb_iff.
  set (h' := if Bool.eqb (in_rad h) (in_rad g) then h else if in_rad g then to_rad h else to_deg h).
  assert (F : in_rad g = in_rad h' /\ in_degrees h' = in_degrees h /\ galt h' = galt h).
  { unfold h'. destruct (in_rad h) eqn:A, (in_rad g) eqn:B; simpl; auto.
    - unfold to_deg. rewrite A. simpl. split; [reflexivity|]. split; [|reflexivity]. rewrite <- (deg_point h). unfold to_deg. rewrite A. reflexivity.
    - unfold to_rad. rewrite A. simpl. split; [reflexivity|]. split; [|reflexivity]. rewrite <- (rad_point h). unfold to_rad. rewrite A. reflexivity. }
  destruct F as [F1 [F2 F3]]. rewrite <- F2, <- F3, <- (coords_inj g h' F1). tauto.
Qed.
Lemma geo_sub_ok : forall st m g h, is_unit (dist_units st) m -> geo_sub st g (Geo h) = Ret (RADIUS * angle (in_degrees g) (in_degrees h) / m).
Proof. intros st m g h U. unfold geo_sub. rewrite !deg_point, (distance_ok _ _ _ _ U). reflexivity. Qed.
Lemma geo_straight_ok : forall st m k g h, is_unit (dist_units st) m -> is_unit (altitude_units st) k ->
  geo_straight st g (Geo h) = Ret (sqrt ((RADIUS + galt g * k) ^ 2 + (RADIUS + galt h * k) ^ 2
    - 2 * (RADIUS + galt g * k) * (RADIUS + galt h * k) * cos (angle (in_degrees g) (in_degrees h))) / m).
Proof.
  intros st m k g h U V. destruct (unit_of _ _ U) as [M [U' _]]. destruct (unit_of _ _ V) as [_ [_ V']].
  unfold geo_straight. rewrite !to_deg_alt, !V'. cbn [lift rbind].
  pose proof (ecef_chord (in_degrees h) (in_degrees g) (galt h * k) (galt g * k)) as C. cbv zeta in C. rewrite <- !deg_point in C. cbn [fst snd] in C.
  destruct (lla2ecef (glat (to_deg g), glon (to_deg g), galt g * k)) as [[ax ay] az]. destruct (lla2ecef (glat (to_deg h), glon (to_deg h), galt h * k)) as [[bx by_] bz].
  assert (S : length3 (mix 1 (bx, by_, bz) (-1) (ax, ay, az)) = sqrt ((bx - ax) ^ 2 + (by_ - ay) ^ 2 + (bz - az) ^ 2)) by (unfold length3, mix, dot; f_equal; ring).
  rewrite S in C. assert (Z : 0 <= (bx - ax) ^ 2 + (by_ - ay) ^ 2 + (bz - az) ^ 2).
  { pose proof (pow2_ge_0 (bx - ax)). pose proof (pow2_ge_0 (by_ - ay)). pose proof (pow2_ge_0 (bz - az)). lra. }
  rewrite rsqrt_ok by exact Z. cbn [lift rbind]. rewrite U'. cbn [lift]. f_equal. f_equal.
  rewrite sqrt_pow2' in C by exact Z. rewrite C, !deg_point, (angle_sym (in_degrees h) (in_degrees g)). f_equal. ring.
Qed.
