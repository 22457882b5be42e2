(** Properties C129 and C130: motion and detection with cartesian locations whose heights may be in altitude units. *)
From Coq Require Import Reals List Bool String Lra Psatz Field.
From Verif Require Import LocModel GeoSpec LocSpec LocProofs AltModel LinSpec AltSpec AltProofs.
From Verif Require GeoModel PairModel LinModel LinProofs.
Import ListNotations.
Open Scope R_scope.
Open Scope list_scope.
Notation kind := PairModel.kind.
Notation ENTER := PairModel.ENTER. Notation EXIT := PairModel.EXIT.
Notation START_INSIDE := PairModel.START_INSIDE. Notation END_INSIDE := PairModel.END_INSIDE.

Definition units_of (st : stage) : Prop := exists k m, is_unit (altitude_units st) k /\ is_unit (dist_units st) m.
(** In the units of the stage heights in altitude units count with the factor [f]. *)
Definition counts (st : stage) (f : R) : Prop :=
  factor (altitude_units st) (dist_units st) f /\
  forall x y z, as_array st (mkCart x y z true) = Ret (x, y, z * f) /\ as_array st (mkCart x y z false) = Ret (x, y, z).

Lemma known : forall st, units_of st -> exists f, counts st f /\ forall x, GeoModel.unit_convert x (altitude_units st) (dist_units st) = GeoModel.Ok (x * f).
Proof.
  intros st [k [m [K M]]]. destruct (factor_ok _ _ _ _ K M) as [f [F U]]. exists f. split; [|exact U]. split; [exact F|].
  intros x y z. split; rewrite (array_ok st f) by (left; exact U); reflexivity.
Qed.

(** ** C129: motion *)
(** The state is where a mover is that goes through the waypoints at the speed, whatever the units of the heights; just after a waypoint it
    may be off by twice what is covered in 1e-12.  It is given in distance units. *)
Theorem C129_place : forall st, units_of st -> exists f, counts st f /\
  forall speed start ws e, 0 < speed -> ws <> [] -> let a := spot f start in let bs := map (spot f) ws in
  off a bs e -> 0 < e -> e <= lasts speed a bs + SLACK ->
  exists p, moving st speed start ws e = Gives p /\ use_alt p = false /\
    apart (spot f p) (place speed a bs e) <= 2 * speed * SLACK /\
    (settled speed a bs e -> spot f p = place speed a bs e).
Proof.
  intros st H. destruct (known st H) as [f [F U]]. exists f. split; [exact F|]. intros speed start ws e S NE a bs O E1 E2.
  unfold moving. rewrite (setup_ok st f U speed S), active_find by exact E1.
  destruct (find_ok st f U speed S ws start e 0) as [p [G [P1 [P2 P3]]]].
  - exact E1.
  - fold a. fold bs. lra.
  - exact NE.
  - destruct O as [O|O]; [left; lra|right]. unfold bs in O. destruct ws; [exact I|exact O].
  - exists p. replace (e - 0) with e in * by ring. split; [exact G|]. split; [exact P1|]. split; [exact P2|]. exact P3.
Qed.
(** Read at once it is the location it had; before the start and after the end there is an error. *)
Theorem C129_ends : forall st, units_of st -> exists f, counts st f /\
  forall speed start ws e, 0 < speed ->
  (e = 0 -> moving st speed start ws e = Gives start) /\
  (e < 0 -> moving st speed start ws e = Sim) /\
  (lasts speed (spot f start) (map (spot f) ws) + SLACK < e -> moving st speed start ws e = Sim).
Proof.
  intros st H. destruct (known st H) as [f [F U]]. exists f. split; [exact F|]. intros speed start ws e S.
  unfold moving. rewrite (setup_ok st f U speed S). split; [|split]; intro E.
  - subst e. unfold active, GeoModel.Rltb. destruct (Rlt_dec 0 0); [lra|]. rewrite LinProofs.Rzero_true by reflexivity. reflexivity.
  - unfold active, GeoModel.Rltb. destruct (Rlt_dec e 0); [reflexivity|lra].
  - pose proof (lasts_nn speed S (map (spot f) ws) (spot f start)). pose proof slack_pos. rewrite active_find by lra. apply find_over; [exact S|]. lra.
Qed.
(** At the end of the path it equals the last waypoint. *)
Theorem C129_arrives : forall st, units_of st -> exists f, counts st f /\
  forall speed start ws, 0 < speed -> ws <> [] -> let a := spot f start in let bs := map (spot f) ws in
  0 < lasts speed a bs -> off a bs (lasts speed a bs) -> settled speed a bs (lasts speed a bs) \/ speed <= 5000000 ->
  exists p, moving st speed start ws (lasts speed a bs) = Gives p /\ cart_eq st p (Cart (List.last ws start)) = Ret true.
Proof.
  intros st H. destruct (known st H) as [f [F U]]. exists f. split; [exact F|]. intros speed start ws S NE a bs L O Q.
  unfold moving. rewrite (setup_ok st f U speed S), active_find by exact L. pose proof slack_pos as SP.
  destruct (find_ok st f U speed S ws start (lasts speed a bs) 0) as [p [G [P1 [P2 P3]]]].
  - exact L.
  - fold a. fold bs. lra.
  - exact NE.
  - destruct O as [O|O]; [left; lra|right]. unfold bs in O. destruct ws; [exact I|exact O].
  - exists p. split; [exact G|]. fold a bs in P2, P3. rewrite Rminus_0_r in P2, P3.
    assert (NB : bs <> []) by (unfold bs; destruct ws; [contradiction|discriminate]).
    assert (LE : place speed a bs (lasts speed a bs) = spot f (List.last ws start)).
    { rewrite (place_end speed S) by (auto; lra). unfold bs, a. clear. induction ws as [|b ws IH]; [reflexivity|]. destruct ws; [reflexivity|]. exact IH. }
    rewrite LE in P2, P3. unfold cart_eq. rewrite (sub_ok st f U). unfold rbind. f_equal.
    assert (B : apart (spot f p) (spot f (List.last ws start)) <= 0.00001).
    { destruct Q as [Q|Q]; [rewrite (P3 Q), apart_same; lra|]. assert (speed * SLACK <= 5000000 * SLACK) by (apply Rmult_le_compat_r; lra). unfold SLACK in *. lra. }
    rewrite Rabs_right by (apply Rle_ge, apart_nn). unfold GeoModel.Rleb. destruct (Rle_dec _ _); [reflexivity|contradiction].
Qed.
(** Locations of the same places, in other units, give the same motion. *)
Theorem C129_units : forall st, units_of st -> exists f, counts st f /\
  forall speed start ws start' ws' e, 0 < speed -> 0 < e -> spot f start = spot f start' -> map (spot f) ws = map (spot f) ws' ->
  moving st speed start ws e = moving st speed start' ws' e.
Proof.
  intros st H. destruct (known st H) as [f [F U]]. exists f. split; [exact F|]. intros speed start ws start' ws' e S E A W.
  unfold moving. rewrite !(setup_ok st f U speed S), !active_find by exact E. apply find_same; assumption.
Qed.
(** A speed of zero, and waypoints: ZeroDivisionError. *)
Theorem C129_no_speed : forall st start b ws e, units_of st -> moving st 0 start (b :: ws) e = Raises ZeroE.
Proof.
  intros st start b ws e H. destruct (known st H) as [f [F U]]. unfold moving. cbn [setup]. rewrite (sub_ok st f U). unfold div. rewrite LinProofs.Rzero_true by reflexivity. reflexivity.
Qed.

(** ** C130: detection *)
(** The full statement, with the places of the locations, is that of C43_leg. *)
Definition exact_leg (f : R) (a b c : cart) (speed r : R) (l : list (cart * R * kind)) (pt : R) : Prop :=
  let A := spot f a in let B := spot f b in let C := spot f c in
  (l = [] /\ misses C r A B) \/
  exists p1 t1 k1 p2 t2 k2, l = [(p1, t1, k1); (p2, t2, k2)] /\ spot f p1 = going A B speed t1 /\ spot f p2 = going A B speed t2 /\
    pt = apart A B / speed /\ 0 <= t1 <= t2 /\ t2 <= pt /\
    (forall t, 0 <= t <= pt -> inside C r (going A B speed t) <-> t1 <= t <= t2) /\
    (k1 = START_INSIDE /\ inside C r A /\ t1 = 0 \/ k1 = ENTER /\ ~ inside C r A /\ apart (going A B speed t1) C = r) /\
    (k2 = END_INSIDE /\ inside C r B /\ t2 = pt \/ k2 = EXIT /\ ~ inside C r B /\ apart (going A B speed t2) C = r).
(** Where the coordinates of the three locations are their places -- none uses altitude units, or those that do are at height 0, or the
    units are the same -- what is reported is exact.  Missing for the full statement: other heights in altitude units; for these it is
    false (below). *)
Definition plain (f : R) (c : cart) : Prop := use_alt c = false \/ cz c = 0 \/ f = 1.
Theorem C130_plain_partial : forall st, units_of st -> exists f, counts st f /\
  forall a b c speed r, plain f a -> plain f b -> plain f c -> spot f a <> spot f b -> 0 < speed -> 0 < r ->
  match detect st a b speed c r with
  | Gives (l, pt) => exact_leg f a b c speed r l pt
  | Motion => apart (spot f a) (spot f c) = r \/ apart (spot f b) (spot f c) = r
  | _ => False
  end.
Proof.
  intros st H. destruct (known st H) as [f [F U]]. exists f. split; [exact F|]. intros a b c speed r PA PB PC NE S R.
  assert (RAW : forall x, plain f x -> tuple x = spot f x).
  { intros [x y z u] [P|[P|P]]; cbn in P; unfold spot, tuple; cbn [cx cy cz use_alt].
    - rewrite P. reflexivity.
    - rewrite P. destruct u; [rewrite Rmult_0_l|]; reflexivity.
    - rewrite P. destruct u; [rewrite Rmult_1_r|]; reflexivity. }
  pose proof (detect_raw st f U speed S a b c r) as D. rewrite !RAW in D by assumption.
  specialize (D eq_refl (iff_refl _) (iff_refl _) (fun _ => eq_refl) (fun _ => eq_refl)).
  pose proof (LinProofs.leg_ok (spot f a) (spot f b) speed (spot f c) r NE S R) as K. cbv zeta in K.
  destruct (LinModel.cartesian _ _ _ _ _) as [[l pt]|e].
  - destruct D as [l' [-> <-]]. unfold exact_leg. cbv zeta. destruct K as [[L [_ M]]|[u1 [u2 [k1 [k2 [U1 [U2 [-> [L [U3 [E1 E2]]]]]]]]]]].
    + left. split; [destruct l'; [reflexivity|discriminate]|exact M].
    + right. destruct l' as [|[[p1 t1] j1] [|[[p2 t2] j2] [|? l']]]; try discriminate.
      assert (L1 := f_equal (fun l => List.nth 0 l (spot f p1, 0, j1)) L). assert (L2 := f_equal (fun l => List.nth 1 l (spot f p1, 0, j1)) L). clear L.
      cbn [List.nth map] in L1, L2. unfold seen in L1, L2.
      assert (X1 : spot f p1 = between (spot f a) (spot f b) u1) by exact (f_equal (fun x => fst (fst x)) L1).
      assert (T1 : t1 = u1 * (apart (spot f a) (spot f b) / speed)) by exact (f_equal (fun x => snd (fst x)) L1).
      assert (J1 : j1 = k1) by exact (f_equal snd L1).
      assert (X2 : spot f p2 = between (spot f a) (spot f b) u2) by exact (f_equal (fun x => fst (fst x)) L2).
      assert (T2 : t2 = u2 * (apart (spot f a) (spot f b) / speed)) by exact (f_equal (fun x => snd (fst x)) L2).
      assert (J2 : j2 = k2) by exact (f_equal snd L2). clear L1 L2.
      pose proof (LinProofs.time_pos speed S _ _ NE) as TP. pose proof (fun u => LinProofs.going_between speed S (spot f a) (spot f b) u NE) as GB.
      exists p1, t1, j1, p2, t2, j2. rewrite T1, T2, !GB. subst j1 j2.
      split; [reflexivity|]. split; [exact X1|]. split; [exact X2|]. split; [reflexivity|].
      split; [split; [apply Rmult_le_pos; lra|apply Rmult_le_compat_r; lra]|].
      split; [rewrite <- (Rmult_1_l (apart _ _ / speed)) at 2; apply Rmult_le_compat_r; lra|]. split; [|split].
      * intros t Ht. destruct (LinProofs.going_frac speed S _ _ t NE Ht) as [u [Hu ->]]. rewrite GB, (U3 u Hu). split; intros [X Y].
        -- split; apply Rmult_le_compat_r; lra.
        -- split; apply Rmult_le_reg_r with (apart (spot f a) (spot f b) / speed); assumption.
      * unfold LinProofs.ends_at in E1. rewrite LinProofs.between_0 in E1. destruct E1 as [[X [Y ->]]|E1]; [left; split; [exact X|]; split; [exact Y|ring]|right; exact E1].
      * unfold LinProofs.ends_at in E2. rewrite LinProofs.between_1 in E2. destruct E2 as [[X [Y ->]]|E2]; [left; split; [exact X|]; split; [exact Y|ring]|right; exact E2].
  - destruct K as [-> K]. rewrite D. cbn [of_pair]. exact K.
Qed.
(** In any units: a leg with both ends in range is reported as a whole, and it is in range as a whole. *)
Lemma convex : forall c r a b u, inside c r a -> inside c r b -> 0 <= u <= 1 -> inside c r (between a b u).
Proof.
  intros c r a b u HA HB U. unfold inside in *. assert (R : 0 <= r) by (pose proof (apart_nn a c); lra). rewrite LinProofs.apart_le in * by exact R.
  assert (gap2 (between a b u) c = (1 - u) * gap2 a c + u * gap2 b c - u * (1 - u) * gap2 a b).
  { destruct a as [[a1 a2] a3], b as [[b1 b2] b3], c as [[c1 c2] c3]. cbn [between gap2]. ring. }
  assert (0 <= gap2 a b) by apply LinProofs.gap2_pos. assert (0 <= u * (1 - u)) by nra. nra.
Qed.
Theorem C130_inside_partial : forall st, units_of st -> exists f, counts st f /\
  forall a b c speed r, spot f a <> spot f b -> 0 < speed -> inside (spot f c) r (spot f a) -> inside (spot f c) r (spot f b) ->
  exists l pt, detect st a b speed c r = Gives (l, pt) /\ l <> [] /\ exact_leg f a b c speed r l pt.
Proof.
  intros st H. destruct (known st H) as [f [F U]]. exists f. split; [exact F|]. intros a b c speed r NE S HA HB.
  pose proof (LinProofs.time_pos speed S _ _ NE) as TP. pose proof (fun u => LinProofs.going_between speed S (spot f a) (spot f b) u NE) as GB.
  do 2 eexists. split; [apply (detect_both st f U speed S a b c r HA HB)|]. split; [discriminate|]. right. do 6 eexists. split; [reflexivity|].
  split; [replace 0 with (0 * (apart (spot f a) (spot f b) / speed)) by ring; rewrite GB, LinProofs.between_0; reflexivity|].
  split; [replace (apart (spot f a) (spot f b) / speed) with (1 * (apart (spot f a) (spot f b) / speed)) by ring; rewrite GB, LinProofs.between_1; reflexivity|].
  split; [reflexivity|]. split; [lra|]. split; [lra|]. split; [|split; left; auto].
  intros t Ht. split; [auto|]. intros _. destruct (LinProofs.going_frac speed S _ _ t NE Ht) as [u [Hu ->]]. rewrite GB. apply convex; assumption.
Qed.
(** In any units: when something is reported the time of the path is right, and so is which of the ends are in range. *)
Theorem C130_kinds_partial : forall st, units_of st -> exists f, counts st f /\
  forall a b c speed r l pt, 0 < speed -> detect st a b speed c r = Gives (l, pt) -> l <> [] ->
  pt = apart (spot f a) (spot f b) / speed /\ exists p t q u k1 k2, l = [(p, t, k1); (q, u, k2)] /\
    (inside (spot f c) r (spot f a) /\ k1 = START_INSIDE /\ p = a /\ t = 0 \/ ~ inside (spot f c) r (spot f a) /\ k1 = ENTER) /\
    (inside (spot f c) r (spot f b) /\ k2 = END_INSIDE /\ q = b /\ u = pt \/ ~ inside (spot f c) r (spot f b) /\ k2 = EXIT).
Proof. intros st H. destruct (known st H) as [f [F U]]. exists f. split; [exact F|]. intros. apply (detect_kinds st f U speed); assumption. Qed.

(** ** Where the statement fails *)
(** Distances in miles, heights in feet. *)
Definition mi_ft : stage := mkStage "mi" "ft".
Lemma mi_ft_units : units_of mi_ft.
Proof. exists (1000 / 0.62137119223 / 5280), (1000 / 0.62137119223). split; cbv [is_unit mi_ft altitude_units dist_units In]; auto 10. Qed.
Lemma mi_ft_factor : forall f, counts mi_ft f -> 1 / 5281 <= f <= 1 / 5279.
Proof.
  intros f [[k [m [K [M [P Q]]]]] _]. unfold is_unit in K, M. cbn [mi_ft altitude_units dist_units] in K, M.
  repeat (destruct K as [K|K]; [try discriminate K|]); try contradiction. injection K as <-.
  repeat (destruct M as [M|M]; [try discriminate M|]); try contradiction. injection M as <-.
  replace (1000 / 0.62137119223 / 5280 / (1000 / 0.62137119223)) with (1 / 5280) in Q by (field; lra).
  unfold Rabs in Q. destruct (Rcase_abs _) in Q; lra.
Qed.
Definition spot_of (f x y z : R) : spot f (mkCart x y z true) = (x, y, z * f) := eq_refl.
(** A sensor a mile up with a range of two miles: a mover that passes below it is in range, but no crossing is reported. *)
Definition tower : cart := mkCart 0 0 5280 true.
Lemma tower_out : forall x1 x2 u, ~ inside (tuple tower) 2 (between (tuple (mkCart x1 0 0 false)) (tuple (mkCart x2 0 0 false)) u).
Proof.
  intros x1 x2 u. unfold inside. rewrite LinProofs.apart_le by lra. cbn [tuple tower cx cy cz between gap2].
  pose proof (pow2_ge_0 (x1 + u * (x2 - x1) - 0)). pose proof (pow2_ge_0 (0 + u * (0 - 0) - 0)).
  replace ((0 + u * (0 - 0) - 5280) ^ 2) with 27878400 by ring. lra.
Qed.
Theorem C130_missed_refuted : exists a b, detect mi_ft a b 1 tower 2 = Gives ([], -1) /\
  forall f, counts mi_ft f -> inside (spot f tower) 2 (going (spot f a) (spot f b) 1 10).
Proof.
  exists (mkCart (-10) 0 0 false), (mkCart 10 0 0 false). split.
  - destruct (known mi_ft mi_ft_units) as [f [F U]]. apply (detect_none mi_ft f U); try lra.
    + cbn [tuple cx cy cz]. intro X. injection X. lra.
    + intros [X _]. unfold inside in X. rewrite LinProofs.apart_le in X by lra. cbn [spot tower cx cy cz use_alt gap2] in X. nra.
    + intro u. apply tower_out.
  - intros f F. apply mi_ft_factor in F. unfold inside, going. rewrite LinProofs.apart_le by lra. unfold spot, tower. cbn [cx cy cz use_alt].
    assert (apart (-10, 0, 0) (10, 0, 0) = 20) as -> by (apply LinProofs.apart_eq; cbn [gap2]; lra). cbn [between gap2].
    replace ((-10 + 10 * 1 / 20 * (10 - -10) - 0) ^ 2 + (0 + 10 * 1 / 20 * (0 - 0) - 0) ^ 2 + (0 + 10 * 1 / 20 * (0 - 0) - 5280 * f) ^ 2) with ((5280 * f) ^ 2) by field. nra.
Qed.
(** One that starts in range and leaves is not reported at all. *)
Theorem C130_leaving_refuted : exists a b, detect mi_ft a b 1 tower 2 = Gives ([], -1) /\
  forall f, counts mi_ft f -> inside (spot f tower) 2 (spot f a) /\ ~ inside (spot f tower) 2 (spot f b).
Proof.
  exists (mkCart 0 0 0 false), (mkCart 10 0 0 false).
  assert (G : forall f, counts mi_ft f -> inside (spot f tower) 2 (spot f (mkCart 0 0 0 false)) /\ ~ inside (spot f tower) 2 (spot f (mkCart 10 0 0 false))).
  { intros f F. apply mi_ft_factor in F. unfold inside. rewrite !LinProofs.apart_le by lra. cbn [spot tower cx cy cz use_alt gap2]. split; nra. }
  split; [|exact G]. destruct (known mi_ft mi_ft_units) as [f [F U]]. apply (detect_none mi_ft f U); try lra.
  - cbn [tuple cx cy cz]. intro X. injection X. lra.
  - intros [_ X]. apply (proj2 (G f F)). exact X.
  - intro u. apply tower_out.
Qed.
(** Distances in metres, heights in kilometres: a sensor six kilometres up with a range of ten metres reports a mover on the ground. *)
Definition m_km : stage := mkStage "m" "km".
Lemma m_km_units : units_of m_km.
Proof. exists 1000, 1. split; cbv [is_unit m_km altitude_units dist_units In]; auto 10. Qed.
Lemma m_km_factor : forall f, counts m_km f -> 999 <= f <= 1001.
Proof.
  intros f [[k [m [K [M [P Q]]]]] _]. unfold is_unit in K, M. cbn [m_km altitude_units dist_units] in K, M.
  repeat (destruct K as [K|K]; [try discriminate K|]); try contradiction. injection K as <-.
  repeat (destruct M as [M|M]; [try discriminate M|]); try contradiction. injection M as <-.
  unfold Rabs in Q. destruct (Rcase_abs _) in Q; lra.
Qed.
Definition plane : cart := mkCart 0 0 6 true.
Theorem C130_invented_refuted : exists a b p q, detect m_km a b 1 plane 10 = Gives ([(p, 92, ENTER); (q, 108, EXIT)], 200) /\
  forall f, counts m_km f -> misses (spot f plane) 10 (spot f a) (spot f b).
Proof.
  exists (mkCart (-100) 0 0 false), (mkCart 100 0 0 false). assert (AP : apart (-100, 0, 0) (100, 0, 0) = 200) by (apply LinProofs.apart_eq; cbn [gap2]; lra).
  assert (G : forall f, counts m_km f -> misses (spot f plane) 10 (spot f (mkCart (-100) 0 0 false)) (spot f (mkCart 100 0 0 false))).
  { intros f F. apply m_km_factor in F. intros u Hu. unfold inside. rewrite LinProofs.apart_le by lra. cbn [spot plane cx cy cz use_alt between gap2].
    replace ((0 + u * (0 - 0) - 6 * f) ^ 2) with (36 * f ^ 2) by ring. pose proof (pow2_ge_0 (-100 + u * (100 - -100) - 0)). pose proof (pow2_ge_0 (0 + u * (0 - 0) - 0)). nra. }
  destruct (known m_km m_km_units) as [f [F U]]. pose proof (G f F) as M.
  pose proof (detect_raw m_km f U 1 Rlt_0_1 (mkCart (-100) 0 0 false) (mkCart 100 0 0 false) plane 10) as D.
  assert (IA : ~ inside (spot f plane) 10 (spot f (mkCart (-100) 0 0 false))) by (specialize (M 0 ltac:(lra)); rewrite LinProofs.between_0 in M; exact M).
  assert (IB : ~ inside (spot f plane) 10 (spot f (mkCart 100 0 0 false))) by (specialize (M 1 ltac:(lra)); rewrite LinProofs.between_1 in M; exact M).
  specialize (D eq_refl).
  assert (IA' : ~ inside (tuple plane) 10 (tuple (mkCart (-100) 0 0 false))) by (unfold inside; rewrite LinProofs.apart_le by lra; cbn [tuple plane cx cy cz gap2]; lra).
  assert (IB' : ~ inside (tuple plane) 10 (tuple (mkCart 100 0 0 false))) by (unfold inside; rewrite LinProofs.apart_le by lra; cbn [tuple plane cx cy cz gap2]; lra).
  specialize (D ltac:(tauto) ltac:(tauto) ltac:(tauto) ltac:(tauto)).
  assert (NE : tuple (mkCart (-100) 0 0 false) <> tuple (mkCart 100 0 0 false)) by (cbn [tuple cx cy cz]; intro X; injection X; lra).
  pose proof (LinProofs.leg_ok _ _ 1 (tuple plane) 10 NE Rlt_0_1 ltac:(lra)) as K. cbv zeta in K.
  assert (IN : forall u, inside (tuple plane) 10 (between (tuple (mkCart (-100) 0 0 false)) (tuple (mkCart 100 0 0 false)) u) <-> 46 / 100 <= u <= 54 / 100).
  { intro u. unfold inside. rewrite LinProofs.apart_le by lra. cbn [tuple plane cx cy cz between gap2].
    replace ((-100 + u * (100 - -100) - 0) ^ 2 + (0 + u * (0 - 0) - 0) ^ 2 + (0 + u * (0 - 0) - 6) ^ 2) with ((200 * u - 100) ^ 2 + 36) by ring. split; intro; nra. }
  destruct (LinModel.cartesian _ _ _ _ _) as [[l pt]|e].
  - destruct D as [l' [D E]]. destruct K as [[_ [_ K]]|[u1 [u2 [k1 [k2 [U1 [U2 [-> [L [U3 [E1 E2]]]]]]]]]]].
    + exfalso. apply (K (1 / 2)); [lra|]. apply IN. lra.
    + assert (u1 = 46 / 100). { apply Rle_antisym; [apply (U3 (46 / 100)); [lra|]; apply IN; lra|apply (IN u1), U3; lra]. }
      assert (u2 = 54 / 100). { apply Rle_antisym; [apply (IN u2), U3; lra|apply (U3 (54 / 100)); [lra|]; apply IN; lra]. }
      unfold LinProofs.ends_at in E1, E2. rewrite LinProofs.between_0 in E1. rewrite LinProofs.between_1 in E2.
      destruct E1 as [[_ [E1 _]]|[-> _]]; [contradiction|]. destruct E2 as [[_ [E2 _]]|[-> _]]; [contradiction|].
      rewrite L in E. destruct l' as [|[[p1 t1] j1] [|[[p2 t2] j2] [|? l']]]; try discriminate.
      assert (L1 := f_equal (fun l => List.nth 0 l (spot f p1, 0, j1)) E). assert (L2 := f_equal (fun l => List.nth 1 l (spot f p1, 0, j1)) E). cbn [List.nth map] in L1, L2. unfold seen in L1, L2.
      assert (T1 := f_equal (fun x => snd (fst x)) L1). assert (J1 := f_equal snd L1). assert (T2 := f_equal (fun x => snd (fst x)) L2). assert (J2 := f_equal snd L2).
      cbn [fst snd] in T1, J1, T2, J2. exists p1, p2. split; [|exact G]. rewrite D, T1, T2, J1, J2, H, H0. unfold tuple. cbn [cx cy cz]. rewrite AP.
      repeat f_equal; lra.
  - exfalso. destruct K as [_ [K|K]]; [apply IA'|apply IB']; unfold inside; lra.
Qed.

(** ** Examples *)
(** From the ground to a point above, three miles away and 4 miles (21120 ft) up, then on at this height. *)
Definition climb : list cart := [mkCart 3 0 21120 true; mkCart 13 0 21120 true].
Example C129_climb : exists f, counts mi_ft f /\ exists p, moving mi_ft 1 (mkCart 0 0 0 false) climb 8 = Gives p /\ use_alt p = false /\
  Rabs (cx p - 6) <= 1 / 100 /\ cy p = 0 /\ Rabs (cz p - 4) <= 1 / 100.
Proof.
  destruct (C129_place mi_ft mi_ft_units) as [f [F H]]. exists f. split; [exact F|]. pose proof (mi_ft_factor f F) as FF.
  set (z := 21120 * f). assert (Z : 3.99 <= z <= 4.001) by (unfold z; lra).
  assert (A1 : 4.99 <= apart (0, 0, 0) (3, 0, z) <= 5.001).
  { set (w := apart _ _). assert (W : w ^ 2 = 9 + z ^ 2) by (unfold w, apart; rewrite pow2_sqrt; [cbn [gap2]; ring|apply LinProofs.gap2_pos]). pose proof (apart_nn (0, 0, 0) (3, 0, z)). fold w in H0. split; nra. }
  assert (A2 : apart (3, 0, z) (13, 0, z) = 10) by (apply LinProofs.apart_eq; [lra|]; cbn [gap2]; ring).
  pose proof slack_pos as SP.
  destruct (H 1 (mkCart 0 0 0 false) climb 8) as [p [E [P1 [_ P2]]]]; try lra; try discriminate.
  - left. unfold SLACK. lra.
  - unfold climb, spot. cbn [map lasts cx cy cz use_alt]. fold z. rewrite A2. lra.
  - exists p. split; [exact E|]. split; [exact P1|].
    assert (Q : spot f p = place 1 (0, 0, 0) [(3, 0, z); (13, 0, z)] 8).
    { apply P2. intros t T. unfold climb, spot in T. cbn [map arrivals cx cy cz use_alt] in T. fold z in T. rewrite A2 in T. destruct T as [<-|[<-|[]]]; [right|left]; unfold SLACK; lra. }
    cbn [place] in Q. destruct (Rle_dec 8 (apart (0, 0, 0) (3, 0, z) / 1)) as [X|X]; [lra|]. rewrite A2 in Q. destruct (Rle_dec _ (10 / 1)) as [Y|Y]; [|lra].
    unfold going in Q. rewrite A2 in Q. cbn [between] in Q. unfold spot in Q. rewrite P1 in Q. injection Q as -> -> ->. split; [|split].
    + unfold Rabs. destruct (Rcase_abs _); lra.
    + lra.
    + unfold Rabs. destruct (Rcase_abs _); lra.
Qed.
Example C130_hypotheses : exists f, counts mi_ft f /\ plain f (mkCart 0 0 0 true) /\ plain f (mkCart (-10) 0 1 false) /\
  inside (spot f (mkCart 0 0 5280 true)) 2 (spot f (mkCart 1 0 0 false)) /\ inside (spot f (mkCart 0 0 5280 true)) 2 (spot f (mkCart (-1) 0 0 false)).
Proof.
  destruct (known mi_ft mi_ft_units) as [f [F _]]. exists f. split; [exact F|]. pose proof (mi_ft_factor f F) as FF.
  split; [right; left; reflexivity|]. split; [left; reflexivity|].
  unfold inside. rewrite !LinProofs.apart_le by lra. cbn [spot cx cy cz use_alt gap2]. split; nra.
Qed.

Print Assumptions C129_place.
Print Assumptions C129_ends.
Print Assumptions C129_arrives.
Print Assumptions C129_units.
Print Assumptions C129_no_speed.
Print Assumptions C130_plain_partial.
Print Assumptions C130_inside_partial.
Print Assumptions C130_kinds_partial.
Print Assumptions C130_missed_refuted.
Print Assumptions C130_leaving_refuted.
Print Assumptions C130_invented_refuted.
