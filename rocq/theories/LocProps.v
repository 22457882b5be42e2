(** Properties C86-C90: locations. *)
From Coq Require Import Reals List Bool String QArith Qreals ZArith Lia Lra Psatz.
From Verif Require Import GeoModel GeoSpec GeoProofs LocModel LocSpec LocProofs.
Import ListNotations.
Open Scope string_scope.
Open Scope R_scope.

(** * C86: locations are frozen *)
Theorem C86_cartesian_frozen : forall x y z f ops, Forall (fun e => fst e <> "_no_override") ops ->
  exists o, new_cart x y z f = Ret o /\ let '(o', outs) := assign o ops in
    num o' "x" = Ret x /\ num o' "y" = Ret y /\ num o' "z" = Ret z /\ flag o' "use_altitude_units" = Ret f /\
    outs = map (fun e => if in_dec string_dec (fst e) ["x"; "y"; "z"; "use_altitude_units"] then Some FrozenE else None) ops /\
    copy o' = new_cart x y z f.
Proof.
  intros x y z f ops F. eexists. split; [cbv; reflexivity|].
  match goal with |- context [assign ?t ops] => set (o := t) end. pose proof (assign_ok ["x"; "y"; "z"; "use_altitude_units"] ops o eq_refl F) as H.
  destruct (assign o ops) as [o' outs]. destruct H as [C [N [K D]]].
  assert (X : num o' "x" = Ret x) by (unfold num, getattr; rewrite K by (simpl; auto); reflexivity).
  assert (Y : num o' "y" = Ret y) by (unfold num, getattr; rewrite K by (simpl; auto); reflexivity).
  assert (Z : num o' "z" = Ret z) by (unfold num, getattr; rewrite K by (simpl; auto); reflexivity).
  assert (G : flag o' "use_altitude_units" = Ret f) by (unfold flag, getattr; rewrite K by (simpl; auto); reflexivity).
  split; [exact X|]. split; [exact Y|]. split; [exact Z|]. split; [exact G|]. split.
  - rewrite D. apply map_ext. intros [n v]. simpl fst. destruct (in_dec string_dec n _) as [I|I].
    + replace (existsb (String.eqb n) _) with true; [reflexivity|]. symmetry. apply existsb_exists. exists n. split; [exact I|apply String.eqb_refl].
    + destruct (existsb (String.eqb n) _) eqn:E; [|reflexivity]. apply existsb_exists in E. destruct E as [k [K1 K2]]. apply String.eqb_eq in K2. subst. contradiction.
  - unfold copy. rewrite C. simpl class. cbv iota. rewrite X, Y, Z, G. reflexivity.
Qed.
Theorem C86_geodetic_frozen : forall lat lon alt f ops, Forall (fun e => fst e <> "_no_override") ops ->
  exists o, new_geo lat lon alt f = Ret o /\ let '(o', outs) := assign o ops in
    num o' "lat" = Ret lat /\ num o' "lon" = Ret lon /\ num o' "alt" = Ret alt /\ flag o' "in_radians" = Ret f /\
    outs = map (fun e => if in_dec string_dec (fst e) ["lat"; "lon"; "alt"; "in_radians"] then Some FrozenE else None) ops /\
    copy o' = new_geo lat lon alt f.
Proof.
  intros x y z f ops F. eexists. split; [cbv; reflexivity|].
  match goal with |- context [assign ?t ops] => set (o := t) end. pose proof (assign_ok ["lat"; "lon"; "alt"; "in_radians"] ops o eq_refl F) as H.
  destruct (assign o ops) as [o' outs]. destruct H as [C [N [K D]]].
  assert (X : num o' "lat" = Ret x) by (unfold num, getattr; rewrite K by (simpl; auto); reflexivity).
  assert (Y : num o' "lon" = Ret y) by (unfold num, getattr; rewrite K by (simpl; auto); reflexivity).
  assert (Z : num o' "alt" = Ret z) by (unfold num, getattr; rewrite K by (simpl; auto); reflexivity).
  assert (G : flag o' "in_radians" = Ret f) by (unfold flag, getattr; rewrite K by (simpl; auto); reflexivity).
  split; [exact X|]. split; [exact Y|]. split; [exact Z|]. split; [exact G|]. split.
  - rewrite D. apply map_ext. intros [n v]. simpl fst. destruct (in_dec string_dec n _) as [I|I].
    + replace (existsb (String.eqb n) _) with true; [reflexivity|]. symmetry. apply existsb_exists. exists n. split; [exact I|apply String.eqb_refl].
    + destruct (existsb (String.eqb n) _) eqn:E; [|reflexivity]. apply existsb_exists in E. destruct E as [k [K1 K2]]. apply String.eqb_eq in K2. subst. contradiction.
  - unfold copy. rewrite C. simpl class. cbv iota. rewrite X, Y, Z, G. reflexivity.
Qed.
(** ** Non-vacuity *)
Example C86_attempts : exists o, new_cart 1 2 3 false = Ret o /\
  snd (assign o [("x", Num 5); ("note", Thing 1); ("use_altitude_units", Flag true); ("note", Thing 2)]) = [Some FrozenE; None; Some FrozenE; None].
Proof. eexists. split; reflexivity. Qed.

(** * C87: cartesian locations *)
Theorem C87_distance : forall st m k, is_unit (dist_units st) m -> is_unit (altitude_units st) k ->
  exists f, factor (altitude_units st) (dist_units st) f /\
    forall c d, cart_sub st c (Cart d) = Ret (apart_by (spot f c) (spot f d)) /\ cart_straight st c (Cart d) = Ret (apart_by (spot f c) (spot f d)).
Proof.
  intros st m k U V. destruct (factor_ok _ _ _ _ V U) as [f [F C]]. exists f. split; [exact F|]. intros c d. unfold cart_straight. rewrite (cart_sub_ok st f c d); auto.
Qed.
(** Without altitude units no stage variable is needed. *)
Theorem C87_distance_in_one_unit : forall st c d, use_alt c = false -> use_alt d = false ->
  cart_sub st c (Cart d) = Ret (apart_by (cx c, cy c, cz c) (cx d, cy d, cz d)).
Proof. intros st c d C D. rewrite (cart_sub_ok st 1 c d) by auto. unfold spot. rewrite C, D. reflexivity. Qed.
Theorem C87_metric : forall st m k c d e, is_unit (dist_units st) m -> is_unit (altitude_units st) k -> exists f cd dc de ce,
  factor (altitude_units st) (dist_units st) f /\
  cart_sub st c (Cart d) = Ret cd /\ cart_sub st d (Cart c) = Ret dc /\ cart_sub st d (Cart e) = Ret de /\ cart_sub st c (Cart e) = Ret ce /\
  0 <= cd /\ cd = dc /\ ce <= cd + de /\ (cd = 0 <-> spot f c = spot f d).
Proof.
  intros st m k c d e U V. destruct (C87_distance st m k U V) as [f [F H]]. exists f. do 4 eexists. split; [exact F|].
  split; [apply H|]. split; [apply H|]. split; [apply H|]. split; [apply H|]. split; [apply apart_sq|]. split; [apply apart_sym|]. split; [apply apart_triangle|apply apart_zero].
Qed.
Theorem C87_equality : forall st m k, is_unit (dist_units st) m -> is_unit (altitude_units st) k -> exists f,
  factor (altitude_units st) (dist_units st) f /\ forall c d, exists b, cart_eq st c (Cart d) = Ret b /\ cart_eq st d (Cart c) = Ret b /\
    (b = true <-> apart_by (spot f c) (spot f d) <= 1 / 100000) /\ cart_eq st c (Cart c) = Ret true.
Proof.
  intros st m k U V. destruct (C87_distance st m k U V) as [f [F H]]. exists f. split; [exact F|]. intros c d.
  exists (Rleb (Rabs (apart_by (spot f c) (spot f d))) 0.00001). unfold cart_eq. destruct (H c d) as [-> _]. destruct (H d c) as [-> _]. destruct (H c c) as [-> _]. cbn [rbind].
  rewrite (apart_sym (spot f d) (spot f c)). split; [reflexivity|]. split; [reflexivity|]. destruct (apart_sq (spot f c) (spot f d)) as [_ P]. rewrite Rabs_right by lra. split.
  - unfold Rleb. destruct (Rle_dec _ _); split; intro; try reflexivity; try discriminate; lra.
  - replace (apart_by (spot f c) (spot f c)) with 0 by (symmetry; apply apart_zero; reflexivity). rewrite Rabs_R0. unfold Rleb. destruct (Rle_dec 0 0.00001); [reflexivity|]. exfalso; lra.
Qed.
Theorem C87_index : forall c i, cart_item c i = match nth_error [cx c; cy c; cz c] (Z.to_nat i) with Some r => if (i <? 0)%Z then Raise ValueE else Ret r | None => Raise ValueE end.
Proof.
  intros c i. unfold cart_item. destruct (Z.ltb_spec i 0).
  - replace ((0 <=? i) && (i <=? 2))%Z with false by (destruct (Z.leb_spec 0 i); [lia|reflexivity]). destruct (nth_error _ _); reflexivity.
  - destruct (Z.leb_spec 0 i); [|lia]. destruct (Z.leb_spec i 2); simpl andb.
    + assert (I : i = 0%Z \/ i = 1%Z \/ i = 2%Z) by lia. destruct I as [->|[->| ->]]; reflexivity.
    + replace (nth_error _ _) with (@None R); [reflexivity|]. symmetry. apply nth_error_None. simpl. lia.
Qed.
(** ** Non-vacuity *)
Example C87_feet : forall z, exists f, cart_sub (mkStage "km" "ft") (mkCart 0 0 z true) (Cart (mkCart 3 4 z true)) = Ret 5 /\ factor "ft" "km" f.
Proof.
  intro z. destruct (C87_distance (mkStage "km" "ft") 1000 (1000 / 0.62137119223 / 5280)) as [f [F H]]; [right; left; reflexivity|right; right; right; right; left; reflexivity|].
  exists f. split; [|exact F]. destruct (H (mkCart 0 0 z true) (mkCart 3 4 z true)) as [-> _]. f_equal. unfold spot. simpl. rewrite apart_form.
  apply sqrt_unique'; [lra|ring].
Qed.

(** * C88: geodetic locations *)
Theorem C88_degrees_and_radians : forall g,
  in_rad (to_deg g) = false /\ in_degrees (to_deg g) = in_degrees g /\ galt (to_deg g) = galt g /\
  in_rad (to_rad g) = true /\ in_degrees (to_rad g) = in_degrees g /\ galt (to_rad g) = galt g /\ latlon g = in_degrees g /\
  (in_rad g = false -> to_deg g = g /\ to_deg (to_rad g) = g) /\ (in_rad g = true -> to_rad g = g /\ to_rad (to_deg g) = g).
Proof.
  intro g. pose proof PI_pos as P. split; [unfold to_deg; destruct (in_rad g) eqn:E; [reflexivity|exact E]|].
  split; [rewrite <- (deg_point g); unfold in_degrees, to_deg; destruct (in_rad g) eqn:E; simpl; rewrite ?E; reflexivity|]. split; [apply to_deg_alt|].
  split; [unfold to_rad; destruct (in_rad g) eqn:E; [exact E|reflexivity]|]. split; [apply rad_point|]. split; [unfold to_rad; destruct (in_rad g); reflexivity|].
  split; [apply deg_point|]. destruct g as [lat lon alt b]. unfold to_deg, to_rad, degrees, radians. simpl. split; intros ->; simpl; (split; [reflexivity|]); f_equal; field; lra.
Qed.
Theorem C88_distance : forall st m g h, is_unit (dist_units st) m -> geo_sub st g (Geo h) = Ret (RADIUS * angle (in_degrees g) (in_degrees h) / m).
Proof. exact geo_sub_ok. Qed.
Theorem C88_equality : forall g h, exists b, geo_eq g (Geo h) = Ret b /\ (b = true <-> in_degrees g = in_degrees h /\ galt g = galt h).
Proof. exact geo_eq_ok. Qed.
Theorem C88_equality_is_an_equivalence : forall g h i, geo_eq g (Geo g) = Ret true /\ geo_eq g (Geo h) = geo_eq h (Geo g) /\
  (geo_eq g (Geo h) = Ret true -> geo_eq h (Geo i) = Ret true -> geo_eq g (Geo i) = Ret true).
Proof.
  intros g h i. destruct (geo_eq_ok g g) as [a [Ea A]]. destruct (geo_eq_ok g h) as [b [Eb B]]. destruct (geo_eq_ok h g) as [c [Ec C]]. destruct (geo_eq_ok h i) as [d [Ed D]]. destruct (geo_eq_ok g i) as [e [Ee E]].
  rewrite Ea, Eb, Ec, Ed, Ee. split; [f_equal; apply A; auto|]. split.
  - f_equal. destruct b, c; try reflexivity; [symmetry; apply C; destruct B as [B _]; destruct (B eq_refl); auto|apply B; destruct C as [C _]; destruct (C eq_refl); auto].
  - intros H1 H2. injection H1 as ->. injection H2 as ->. f_equal. apply E. destruct B as [B _]. destruct D as [D _]. destruct (B eq_refl), (D eq_refl). split; congruence.
Qed.
Theorem C88_equal_locations_are_interchangeable : forall st m k g h i, is_unit (dist_units st) m -> is_unit (altitude_units st) k -> geo_eq g (Geo h) = Ret true ->
  geo_sub st g (Geo i) = geo_sub st h (Geo i) /\ geo_straight st g (Geo i) = geo_straight st h (Geo i) /\ dist_with_altitude st g i = dist_with_altitude st h i /\ geo_sub st g (Geo h) = Ret 0.
Proof.
  intros st m k g h i U V E. destruct (geo_eq_ok g h) as [b [Eb [B _]]]. rewrite E in Eb. injection Eb as <-. destruct (B eq_refl) as [B1 B2].
  destruct (unit_of _ _ U) as [M _]. unfold dist_with_altitude. rewrite !(geo_sub_ok st m _ _ U), !(geo_straight_ok st m k _ _ U V). rewrite B1, B2. repeat (split; [reflexivity|]).
  f_equal. replace (angle (in_degrees h) (in_degrees h)) with 0 by (symmetry; apply angle_zero; reflexivity). field. lra.
Qed.
Theorem C88_with_altitude : forall st m k g h, is_unit (dist_units st) m -> is_unit (altitude_units st) k -> exists f d dg,
  factor (altitude_units st) (dist_units st) f /\ dist_with_altitude st g h = Ret d /\ dist_with_altitude st h g = Ret d /\
  geo_sub st g (Geo h) = Ret dg /\ d ^ 2 = (f * (galt g - galt h)) ^ 2 + dg ^ 2 /\ dg <= d.
Proof.
  intros st m k g h U V. destruct (factor_ok _ _ _ _ V U) as [f [F C]]. unfold dist_with_altitude. rewrite (geo_sub_ok st m g h U), (geo_sub_ok st m h g U), (angle_sym (in_degrees h) (in_degrees g)).
  cbn [rbind]. rewrite !C. cbn [lift rbind]. destruct (unit_of _ _ U) as [M _]. pose proof RADIUS_pos as RP. pose proof (angle_bound (in_degrees g) (in_degrees h)) as AB.
  set (dg := RADIUS * angle (in_degrees g) (in_degrees h) / m). assert (D0 : 0 <= dg) by (unfold dg; apply Rmult_le_pos; [nra|left; apply Rinv_0_lt_compat; exact M]).
  rewrite !rsqrt_ok by apply sum_squares. cbn [lift]. rewrite (Rabs_minus_sym (galt h) (galt g)).
  exists f. eexists. exists dg. split; [exact F|]. split; [reflexivity|]. split; [reflexivity|]. split; [reflexivity|].
  assert (E : sqrt ((Rabs (galt g - galt h) * f) ^ 2 + dg ^ 2) ^ 2 = (f * (galt g - galt h)) ^ 2 + dg ^ 2).
  { rewrite sqrt_pow2' by apply sum_squares. unfold Rabs. destruct (Rcase_abs (galt g - galt h)); ring. }
  split; [exact E|]. pose proof (sqrt_pos ((Rabs (galt g - galt h) * f) ^ 2 + dg ^ 2)). pose proof (pow2_ge_0 (f * (galt g - galt h))). nra.
Qed.
Theorem C88_straight_line : forall st m k g h, is_unit (dist_units st) m -> is_unit (altitude_units st) k ->
  geo_straight st g (Geo h) = Ret (sqrt ((RADIUS + galt g * k) ^ 2 + (RADIUS + galt h * k) ^ 2
    - 2 * (RADIUS + galt g * k) * (RADIUS + galt h * k) * cos (angle (in_degrees g) (in_degrees h))) / m).
Proof. exact geo_straight_ok. Qed.
(** On the ground the straight line is not longer than the great circle. *)
Lemma sin_below : forall x, 0 <= x -> sin x <= x.
Proof. intros x X. destruct (Req_dec x 0) as [->|N]; [rewrite sin_0; lra|]. left. apply sin_lt_x. lra. Qed.
Theorem C88_chord_and_arc : forall st m k g h, is_unit (dist_units st) m -> is_unit (altitude_units st) k -> galt g = 0 -> galt h = 0 -> exists s d,
  geo_straight st g (Geo h) = Ret s /\ geo_sub st g (Geo h) = Ret d /\ 0 <= s <= d.
Proof.
  intros st m k g h U V G H. do 2 eexists. split; [apply (geo_straight_ok st m k); assumption|]. split; [apply geo_sub_ok; exact U|].
  rewrite G, H. destruct (unit_of _ _ U) as [M _]. pose proof RADIUS_pos as RP. pose proof (angle_bound (in_degrees g) (in_degrees h)) as AB. set (a := angle _ _) in *.
  assert (S : sqrt ((RADIUS + 0 * k) ^ 2 + (RADIUS + 0 * k) ^ 2 - 2 * (RADIUS + 0 * k) * (RADIUS + 0 * k) * cos a) = 2 * RADIUS * sin (a / 2)).
  { assert (SP : 0 <= sin (a / 2)) by (apply sin_ge_0; lra). apply sqrt_unique'; [nra|]. replace (cos a) with (cos (2 * (a / 2))) by (f_equal; field). rewrite cos_2a_sin. ring. }
  rewrite S. assert (SP : 0 <= sin (a / 2)) by (apply sin_ge_0; lra). assert (SL : sin (a / 2) <= a / 2) by (apply sin_below; lra).
  assert (I : 0 < / m) by (apply Rinv_0_lt_compat; exact M). unfold Rdiv. split; [apply Rmult_le_pos; nra|]. apply Rmult_le_compat_r; nra.
Qed.
Theorem C88_index : forall g i, geo_item g i = match nth_error [glat g; glon g; galt g] (Z.to_nat i) with Some r => if (i <? 0)%Z then Raise IndexE else Ret r | None => Raise IndexE end.
Proof.
  intros c i. unfold geo_item. destruct (Z.ltb_spec i 0).
  - replace ((0 <=? i) && (i <=? 2))%Z with false by (destruct (Z.leb_spec 0 i); [lia|reflexivity]). destruct (nth_error _ _); reflexivity.
  - destruct (Z.leb_spec 0 i); [|lia]. destruct (Z.leb_spec i 2); simpl andb.
    + assert (I : i = 0%Z \/ i = 1%Z \/ i = 2%Z) by lia. destruct I as [->|[->| ->]]; reflexivity.
    + replace (nth_error _ _) with (@None R); [reflexivity|]. symmetry. apply nth_error_None. simpl. lia.
Qed.
(** Unpacking: lat, lon, alt = location *)
Theorem C88_iteration : forall g, iterate (geo_item g) 4 0 = Some (Ret [glat g; glon g; galt g]).
Proof. reflexivity. Qed.
(** ** Non-vacuity *)
Example C88_a_quarter_in_radians : geo_eq (mkGeo 0 90 10 false) (Geo (mkGeo 0 (PI / 2) 10 true)) = Ret true.
Proof.
  destruct (C88_equality (mkGeo 0 90 10 false) (mkGeo 0 (PI / 2) 10 true)) as [b [E B]]. rewrite E. f_equal. apply B. simpl. pose proof PI_pos. split; [|reflexivity]. unfold in_degrees. simpl. f_equal; field; lra.
Qed.

(** * C89: location data *)
Theorem C89_made_locations : forall (c : cart_data) (g : geo_data), make_cart c = c /\ make_geo g = g /\ data_latlon g = latlon (make_geo g).
Proof.
  intros [x y z f] [lat lon alt b]. split; [reflexivity|]. split; [reflexivity|]. unfold data_latlon, latlon, to_deg, make_geo. simpl. destruct b; reflexivity.
Qed.
(** Geodetic data is equal just if the locations made of it are. *)
Theorem C89_geodetic_data_equality : forall a b, Ret (geo_data_eq a b) = geo_eq (make_geo a) (Geo (make_geo b)).
Proof.
  intros [alat alon aalt ar] [blat blon balt br]. unfold geo_data_eq, geo_eq, make_geo, to_rad, to_deg. simpl. destruct ar, br; simpl; reflexivity.
Qed.
(** Cartesian data that is equal and of the same flag makes equal locations at one spot. *)
Theorem C89_cartesian_data_equality : forall st m k a b, is_unit (dist_units st) m -> is_unit (altitude_units st) k -> use_alt a = use_alt b -> cart_data_eq a b = true ->
  make_cart a = make_cart b /\ cart_eq st (make_cart a) (Cart (make_cart b)) = Ret true.
Proof.
  intros st m k a b U V F E. assert (X : make_cart a = make_cart b).
  { unfold cart_data_eq in E. rewrite !andb_true_iff, !Reqb_iff in E. destruct E as [[E1 E2] E3]. unfold make_cart. rewrite E1, E2, E3, F. reflexivity. }
  split; [exact X|]. rewrite X. destruct (C87_equality st m k U V) as [f [_ H]]. destruct (H (make_cart b) (make_cart b)) as [_ [_ [_ [_ R]]]]. exact R.
Qed.
(** ** Non-vacuity *)
Example C89_data : cart_data_eq (cart_data_default 1 2 3) (cart_data_default 1 2 3) = true.
Proof. unfold cart_data_eq. rewrite !andb_true_iff, !Reqb_iff. auto. Qed.

(** * C90: what does not hold *)
Definition km : stage := mkStage "km" "km".
Lemma plain : forall st c d, use_alt c = false -> use_alt d = false -> cart_eq st c (Cart d) = Ret (Rleb (Rabs (apart_by (cx c, cy c, cz c) (cx d, cy d, cz d))) 0.00001).
Proof. intros st c d C D. unfold cart_eq. rewrite C87_distance_in_one_unit by assumption. reflexivity. Qed.
Lemma on_x : forall a b, apart_by (a, 0, 0) (b, 0, 0) = Rabs (a - b).
Proof. intros a b. rewrite apart_form. apply sqrt_unique'; [apply Rabs_pos|]. unfold Rabs. destruct (Rcase_abs (a - b)); ring. Qed.
Lemma near_x : forall st a b, Rabs (a - b) <= 0.00001 -> cart_eq st (mkCart a 0 0 false) (Cart (mkCart b 0 0 false)) = Ret true.
Proof. intros st a b H. rewrite plain by reflexivity. simpl. rewrite on_x, Rabs_Rabsolu. unfold Rleb. destruct (Rle_dec _ _); [reflexivity|contradiction]. Qed.
Lemma far_x : forall st a b, 0.00001 < Rabs (a - b) -> cart_eq st (mkCart a 0 0 false) (Cart (mkCart b 0 0 false)) = Ret false.
Proof. intros st a b H. rewrite plain by reflexivity. simpl. rewrite on_x, Rabs_Rabsolu. unfold Rleb. destruct (Rle_dec _ _); [lra|reflexivity]. Qed.
Theorem C90_transitive_refuted : ~ (forall st a b c, cart_eq st a (Cart b) = Ret true -> cart_eq st b (Cart c) = Ret true -> cart_eq st a (Cart c) = Ret true).
Proof.
  intro H. specialize (H km (mkCart 0 0 0 false) (mkCart 0.00001 0 0 false) (mkCart 0.00002 0 0 false)).
  rewrite (near_x km 0 0.00001), (near_x km 0.00001 0.00002), far_x in H; [specialize (H eq_refl eq_refl); discriminate| | |]; unfold Rabs; destruct (Rcase_abs _); lra.
Qed.
(** Equal locations need not have one hash: the keys differ, and whatever tells the keys
    apart tells the hashes apart. *)
Theorem C90_cartesian_hash_refuted : ~ (forall (hash : option (R * R * R * bool) -> Z) st a b, cart_eq st a (Cart b) = Ret true -> hash (key (Cart a)) = hash (key (Cart b))).
Proof.
  intro H. specialize (H (fun k => match k with Some (x, _, _, _) => if Req_EM_T x 0 then 0%Z else 1%Z | None => 0%Z end) km (mkCart 0 0 0 false) (mkCart 0.00001 0 0 false)).
  rewrite near_x in H by (unfold Rabs; destruct (Rcase_abs _); lra). specialize (H eq_refl). simpl in H.
  destruct (Req_EM_T 0 0); [|contradiction]. destruct (Req_EM_T 0.00001 0); [lra|discriminate].
Qed.
Theorem C90_geodetic_hash_refuted : ~ (forall (hash : option (R * R * R * bool) -> Z) a b, geo_eq a (Geo b) = Ret true -> hash (key (Geo a)) = hash (key (Geo b))).
Proof.
  intro H. specialize (H (fun k => match k with Some (_, _, _, true) => 0%Z | _ => 1%Z end) (mkGeo 0 90 10 false) (mkGeo 0 (PI / 2) 10 true) C88_a_quarter_in_radians). discriminate.
Qed.
(** A cartesian location cannot be unpacked. *)
Theorem C90_iteration : forall c, iterate (cart_item c) 4 0 = Some (Raise ValueE).
Proof. reflexivity. Qed.
Theorem C90_iteration_refuted : ~ (forall c, exists n, iterate (cart_item c) n 0 = Some (Ret [cx c; cy c; cz c])).
Proof. intro H. destruct (H (mkCart 0 0 0 false)) as [[|[|[|[|n]]]] E]; discriminate. Qed.
(** == raises for objects of another kind. *)
Theorem C90_other_kinds : forall st c g, cart_eq st c Other = Raise ValueE /\ cart_eq st c (Geo g) = Raise ValueE /\ geo_eq g Other = Raise ValueE /\ geo_eq g (Cart c) = Raise ValueE.
Proof. intros. repeat split. Qed.
Theorem C90_comparable_refuted : ~ (forall g t, exists b, geo_eq g t = Ret b).
Proof. intro H. destruct (H (mkGeo 0 0 0 false) Other) as [b E]. discriminate. Qed.
(** Cartesian data of different flags counts as equal; the locations made of it differ. *)
Lemma m_km : forall x, unit_convert x "km" "m" = Ok (x * 1000).
Proof. apply (unit_of "km" 1000). right. left. reflexivity. Qed.
Theorem C90_data_equality_refuted : ~ (forall st a b, cart_data_eq a b = true -> cart_eq st (make_cart a) (Cart (make_cart b)) = Ret true).
Proof.
  intro H. specialize (H (mkStage "m" "km") (mkCart 0 0 1 true) (mkCart 0 0 1 false)).
  assert (E : cart_data_eq (mkCart 0 0 1 true) (mkCart 0 0 1 false) = true) by (unfold cart_data_eq; rewrite !andb_true_iff, !Reqb_iff; auto). specialize (H E).
  unfold cart_eq in H. rewrite (cart_sub_ok _ 1000) in H by (left; exact m_km). unfold spot in H. cbn [rbind make_cart cx cy cz use_alt] in H.
  rewrite apart_form in H. replace (sqrt ((0 - 0) ^ 2 + (0 - 0) ^ 2 + (1 * 1000 - 1) ^ 2)) with 999 in H by (symmetry; apply sqrt_unique'; [lra|ring]).
  unfold Rleb in H. rewrite Rabs_right in H by lra. destruct (Rle_dec 999 0.00001); [lra|discriminate].
Qed.
(** Nor is the location made of data with default arguments that of the same arguments. *)
Theorem C90_defaults_refuted : ~ (forall st x y z, cart_eq st (make_cart (cart_data_default x y z)) (Cart (cart_default x y z)) = Ret true).
Proof.
  intro H. specialize (H (mkStage "m" "km") 0 0 1).
  unfold cart_eq in H. rewrite (cart_sub_ok _ 1000) in H by (left; exact m_km). unfold spot in H. cbn [rbind make_cart cart_data_default cart_default cx cy cz use_alt] in H.
  rewrite apart_form in H. replace (sqrt ((0 - 0) ^ 2 + (0 - 0) ^ 2 + (1 * 1000 - 1) ^ 2)) with 999 in H by (symmetry; apply sqrt_unique'; [lra|ring]).
  unfold Rleb in H. rewrite Rabs_right in H by lra. destruct (Rle_dec 999 0.00001); [lra|discriminate].
Qed.
(** Attributes can be deleted, and _no_override can be assigned. *)
Theorem C90_deleting_refuted : ~ (forall x y z f o o', new_cart x y z f = Ret o -> delattr o "x" = Ret o' -> num o' "x" = Ret x).
Proof. intro H. specialize (H 0 0 0 false _ _ eq_refl eq_refl). discriminate. Qed.
Theorem C90_override_refuted : ~ (forall x y z f o ops, new_cart x y z f = Ret o -> num (fst (assign o ops)) "x" = Ret x).
Proof. intro H. specialize (H 0 0 0 false _ [("_no_override", Names []); ("x", Num 1)] eq_refl). simpl in H. unfold num, getattr in H. simpl in H. injection H. lra. Qed.

Print Assumptions C86_cartesian_frozen.
Print Assumptions C86_geodetic_frozen.
Print Assumptions C87_distance.
Print Assumptions C87_distance_in_one_unit.
Print Assumptions C87_metric.
Print Assumptions C87_equality.
Print Assumptions C87_index.
Print Assumptions C88_degrees_and_radians.
Print Assumptions C88_distance.
Print Assumptions C88_equality.
Print Assumptions C88_equality_is_an_equivalence.
Print Assumptions C88_equal_locations_are_interchangeable.
Print Assumptions C88_with_altitude.
Print Assumptions C88_straight_line.
Print Assumptions C88_chord_and_arc.
Print Assumptions C88_index.
Print Assumptions C88_iteration.
Print Assumptions C89_made_locations.
Print Assumptions C89_geodetic_data_equality.
Print Assumptions C89_cartesian_data_equality.
Print Assumptions C90_transitive_refuted.
Print Assumptions C90_cartesian_hash_refuted.
Print Assumptions C90_geodetic_hash_refuted.
Print Assumptions C90_iteration.
Print Assumptions C90_iteration_refuted.
Print Assumptions C90_other_kinds.
Print Assumptions C90_comparable_refuted.
Print Assumptions C90_data_equality_refuted.
Print Assumptions C90_defaults_refuted.
Print Assumptions C90_deleting_refuted.
Print Assumptions C90_override_refuted.

(** The hash is that of the key, and two locations have the same key exactly if all that was
    given for them is the same; then they are equal. *)
Theorem C88_key : forall g h, (key (Geo g) = key (Geo h) <-> g = h) /\ (key (Geo g) = key (Geo h) -> geo_eq g (Geo h) = Ret true).
Proof.
  assert (K : forall g h, key (Geo g) = key (Geo h) -> g = h) by (intros [a b c d] [e f i j] H; injection H as -> -> -> ->; reflexivity).
  intros g h. split; [split; [apply K|intros ->; reflexivity]|]. intro H. apply K in H. subst h. exact (proj1 (C88_equality_is_an_equivalence g g g)).
Qed.
Theorem C87_key : forall c d, key (Cart c) = key (Cart d) <-> c = d.
Proof. intros [a b c d] [e f i j]. split; [intro H; injection H as -> -> -> ->; reflexivity|intros ->; reflexivity]. Qed.
Print Assumptions C88_key.
Print Assumptions C87_key.
