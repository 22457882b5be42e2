(** C46, C64, C65: unit conversion, printed times, waits given in other units. *)
From Coq Require Import String Ascii Qround Qabs.
From Verif Require Import Common UnitsModel UnitsSpec UnitsProofs.
Open Scope string_scope.

(** *** C46: unit conversion *)

(** Which conversions exist, for any two strings: two distances, a time to s, min or
    hr, and day to week and back.  Everything else is a ValueError. *)
Theorem C46_defined v a b :
  unit_convert v a b <> None <->
  (metres_of (lower a) <> None /\ metres_of (lower b) <> None) \/
  (seconds_of (lower a) <> None /\ below_day b) \/
  (seconds_of (lower a) = Some 86400 /\ seconds_of (lower b) = Some 604800) \/
  (seconds_of (lower a) = Some 604800 /\ seconds_of (lower b) = Some 86400).
Proof.
  unfold below_day. split.
  - intro H. destruct (unit_convert v a b) as [r|] eqn:E; [|congruence]. clear H.
    apply convert_inv in E. destruct E as (f & _ & E). pose proof (all_right _ E) as A.
    unfold right_entry in A. rewrite !seconds_normal, !metres_normal in A.
    destruct (seconds_of (lower a)) as [x|] eqn:Ea, (seconds_of (lower b)) as [y|] eqn:Eb,
      (metres_of (lower a)) as [x'|] eqn:Ma, (metres_of (lower b)) as [y'|] eqn:Mb; try discriminate A.
    + apply andb_prop in A. destruct A as [_ A]. apply orb_prop in A. destruct A as [A|A].
      * right. left. split; [discriminate|]. exists y. qbool. auto.
      * right. right. apply andb_prop in A. destruct A as [A A3]. apply andb_prop in A. destruct A as [A1 A2].
        clear - A1 A2 A3 Ea Eb. revert Ea Eb. unfold seconds_of.
        repeat match goal with
        | |- (if ?c then _ else _) = _ -> _ => destruct c; [intros [= <-]|]
        end; try (intros; discriminate);
        repeat match goal with
        | |- (if ?c then _ else _) = _ -> _ => destruct c; [intros [= <-]|]
        end; try (intros; discriminate); cbn in A1, A2, A3; try discriminate; auto.
    + left. split; discriminate.
  - rewrite convert_factor. intros [[H1 H2]|[[H1 (y & H2 & H3)]|[[H1 H2]|[H1 H2]]]].
    + destruct (metres_of (lower a)) as [x|] eqn:Ea; [|congruence]. destruct (metres_of (lower b)) as [y|] eqn:Eb; [|congruence].
      apply metres_name in Ea, Eb. destruct Ea as [-> Ea], Eb as [-> Eb].
      assert (A : forallb (fun a => forallb (fun b => match factor a b with Some _ => true | None => false end) DISTANCE_UNITS) DISTANCE_UNITS = true)
        by (vm_compute; reflexivity).
      rewrite forallb_forall in A. specialize (A _ Ea). rewrite forallb_forall in A. specialize (A _ Eb).
      destruct (factor (lower a) (lower b)); discriminate.
    + destruct (seconds_of (lower a)) as [x|] eqn:Ea; [|congruence].
      rewrite (seconds_name _ _ Ea), (seconds_name _ _ H2).
      clear H1. revert Ea H2. unfold seconds_of.
      repeat match goal with
      | |- (if ?c then _ else _) = _ -> _ => destruct c; [intros [= <-]|]
      end; try (intros; discriminate);
      repeat match goal with
      | |- (if ?c then _ else _) = _ -> _ => destruct c; [intros [= <-]|]
      end; try (intros; discriminate); try (cbv; discriminate); exfalso; revert H3; apply Qle_not_lt; lra.
    + rewrite (seconds_name _ _ H1), (seconds_name _ _ H2). cbv. discriminate.
    + rewrite (seconds_name _ _ H1), (seconds_name _ _ H2). cbv. discriminate.
Qed.

(** A time conversion that exists is exact. *)
Theorem C46_time v a b r x y :
  unit_convert v a b = Some r -> seconds_of (lower a) = Some x -> seconds_of (lower b) = Some y ->
  r == v * x / y.
Proof.
  intros H Ea Eb. apply convert_inv in H. destruct H as (f & -> & H). pose proof (all_right _ H) as A.
  unfold right_entry in A. rewrite !seconds_normal, !metres_normal, Ea, Eb in A.
  destruct (metres_of (lower a)); [discriminate|]. destruct (metres_of (lower b)); [discriminate|].
  apply andb_prop in A. destruct A as [A _]. qbool. rewrite A. unfold Qdiv. ring.
Qed.
(** A distance conversion is right to four parts in ten million. *)
Theorem C46_distance v a b x y :
  metres_of (lower a) = Some x -> metres_of (lower b) = Some y ->
  exists r, unit_convert v a b = Some r /\ near (4 # 10000000) r (v * x / y).
Proof.
  intros Ea Eb.
  destruct (unit_convert v a b) as [r|] eqn:E.
  2:{ exfalso. assert (D : unit_convert v a b <> None) by (apply C46_defined; left; rewrite Ea, Eb; split; discriminate). auto. }
  exists r. split; [reflexivity|].
  apply convert_inv in E. destruct E as (f & -> & H). pose proof (all_right _ H) as A.
  unfold right_entry in A. rewrite !seconds_normal, !metres_normal, Ea, Eb in A.
  destruct (seconds_of (lower a)); [destruct (seconds_of (lower b)); discriminate|]. destruct (seconds_of (lower b)); [discriminate|].
  apply andb_prop in A. destruct A as [A _]. apply andb_prop in A. destruct A as [A Ap]. qbool.
  assert (P : 0 <= x / y).
  { revert Ea Eb. unfold metres_of.
    repeat match goal with
    | |- (if ?c then _ else _) = _ -> _ => destruct c; [intros [= <-]|]
    end; try (intros; discriminate);
    repeat match goal with
    | |- (if ?c then _ else _) = _ -> _ => destruct c; [intros [= <-]|]
    end; try (intros; discriminate); discriminate. }
  unfold near.
  setoid_replace (v * f - v * x / y) with (v * (f - x / y)) by (unfold Qdiv; ring).
  setoid_replace (v * x / y) with (v * (x / y)) by (unfold Qdiv; ring).
  rewrite !Qabs_Qmult. rewrite (Qabs_pos (x / y)) by exact P.
  pose proof (Qabs_nonneg v) as Pv.
  setoid_replace ((4 # 10000000) * (Qabs v * (x / y))) with (((4 # 10000000) * (x / y)) * Qabs v) by ring.
  rewrite (Qmult_comm (Qabs v)). apply Qmult_le_compat_r; assumption.
Qed.
(** A unit to itself, when it exists, is the identity. *)
Theorem C46_self v u r : unit_convert v u u = Some r -> r == v.
Proof.
  intro H. apply convert_inv in H. destruct H as (f & -> & H).
  pose proof (all_back _ _ H H eq_refl eq_refl) as B. pose proof (all_right _ H) as A. cbn [snd] in B.
  assert (f == 1).
  { unfold right_entry in A. destruct (seconds_of (normal u)), (metres_of (normal u)); try discriminate A.
    - apply andb_prop in A. destruct A as [A _]. qbool. rewrite A. field. intro Z.
      rewrite A, Z in B. cbv in B. discriminate.
    - rewrite String.eqb_refl in A. cbn [negb orb] in A. apply andb_prop in A. destruct A as [_ A]. qbool. exact A. }
  rewrite H0. ring.
Qed.
(** There and back gives the value, when both conversions exist. *)
Theorem C46_back v a b r w : unit_convert v a b = Some r -> unit_convert r b a = Some w -> w == v.
Proof.
  intros H H'. apply convert_inv in H, H'. destruct H as (f & -> & H), H' as (g & -> & H').
  pose proof (all_back _ _ H H' eq_refl eq_refl) as B. cbn [snd] in B.
  setoid_replace (v * f * g) with (v * (f * g)) by ring. rewrite B. ring.
Qed.
(** For distances both exist. *)
Theorem C46_back_distance v a b :
  metres_of (lower a) <> None -> metres_of (lower b) <> None ->
  exists r w, unit_convert v a b = Some r /\ unit_convert r b a = Some w /\ w == v.
Proof.
  intros Ha Hb.
  destruct (unit_convert v a b) as [r|] eqn:E.
  2:{ exfalso. assert (D : unit_convert v a b <> None) by (apply C46_defined; auto). auto. }
  destruct (unit_convert r b a) as [w|] eqn:E'.
  2:{ exfalso. assert (D : unit_convert r b a <> None) by (apply C46_defined; auto). auto. }
  exists r, w. repeat split; auto. eapply C46_back; eauto.
Qed.
(** Two steps against one: exact for times, to seven parts in ten million for
    distances. *)
Theorem C46_two_steps_partial v a b c r w z :
  unit_convert v a b = Some r -> unit_convert r b c = Some w -> unit_convert v a c = Some z ->
  (seconds_of (lower a) <> None -> w == z) /\ near (7 # 10000000) w z.
Proof.
  intros H1 H2 H3. split.
  - intro Ha. destruct (seconds_of (lower a)) as [x|] eqn:Ea; [|congruence].
    pose proof (convert_inv _ _ _ _ H1) as (f & _ & I1). apply all_right in I1. unfold right_entry in I1.
    rewrite !seconds_normal, !metres_normal, Ea in I1. destruct (seconds_of (lower b)) as [y|] eqn:Eb; [|discriminate].
    pose proof (convert_inv _ _ _ _ H2) as (g & _ & I2). pose proof (all_right _ I2) as I2'. unfold right_entry in I2'.
    rewrite !seconds_normal, !metres_normal, Eb in I2'. destruct (seconds_of (lower c)) as [t|] eqn:Ec; [|discriminate].
    rewrite (C46_time _ _ _ _ _ _ H3 Ea Ec), (C46_time _ _ _ _ _ _ H2 Eb Ec), (C46_time _ _ _ _ _ _ H1 Ea Eb).
    assert (~ y == 0) by (revert Eb; unfold seconds_of;
      repeat match goal with |- (if ?c then _ else _) = _ -> _ => destruct c; [intros [= <-]; discriminate|] end; discriminate).
    assert (~ t == 0) by (revert Ec; unfold seconds_of;
      repeat match goal with |- (if ?c then _ else _) = _ -> _ => destruct c; [intros [= <-]; discriminate|] end; discriminate).
    field. auto.
  - apply convert_inv in H1, H2, H3. destruct H1 as (f & -> & H1), H2 as (g & -> & H2), H3 as (h & -> & H3).
    pose proof (all_two _ _ _ H1 H2 H3 eq_refl eq_refl eq_refl) as B. cbn [snd] in B. unfold near.
    setoid_replace (v * f * g - v * h) with (v * (f * g - h)) by ring. rewrite !Qabs_Qmult.
    setoid_replace ((7 # 10000000) * (Qabs v * Qabs h)) with (((7 # 10000000) * Qabs h) * Qabs v) by ring.
    rewrite (Qmult_comm (Qabs v)). apply Qmult_le_compat_r; [exact B|apply Qabs_nonneg].
Qed.
(** Capitals and the alternative names of times do not matter. *)
Theorem C46_spelling v a a' b b' :
  (lower a = lower a' \/ seconds_of (lower a) = seconds_of (lower a') /\ seconds_of (lower a) <> None) ->
  (lower b = lower b' \/ seconds_of (lower b) = seconds_of (lower b') /\ seconds_of (lower b) <> None) ->
  unit_convert v a b = unit_convert v a' b'.
Proof.
  assert (N : forall a a', (lower a = lower a' \/ seconds_of (lower a) = seconds_of (lower a') /\ seconds_of (lower a) <> None) ->
    normal a = normal a').
  { intros u u' [E|[E E']].
    - unfold normal. rewrite E. reflexivity.
    - destruct (seconds_of (lower u)) as [x|] eqn:H; [|congruence].
      rewrite (seconds_name _ _ H), (seconds_name _ _ (eq_sym E)). reflexivity. }
  intros H1 H2. rewrite !convert_factor, (N _ _ H1), (N _ _ H2). reflexivity.
Qed.
(** Conversion is linear in the value. *)
Theorem C46_linear v w k a b r s :
  unit_convert v a b = Some r -> unit_convert w a b = Some s ->
  exists t, unit_convert (v + k * w) a b = Some t /\ t == r + k * s.
Proof.
  rewrite !convert_factor. destruct (factor (normal a) (normal b)) as [f|]; [|discriminate].
  intros [= <-] [= <-]. exists ((v + k * w) * f). split; [reflexivity|]. ring.
Qed.

Example C46_example :
  (exists r, unit_convert 3 "Days" "hours" = Some r /\ r == 72) /\
  (exists r, unit_convert 10 "KM" "ft" = Some r /\ 32808 < r /\ r < 32809) /\
  unit_convert 1 "km" "hr" = None /\ unit_convert 1 "parsec" "km" = None.
Proof.
  split; [eexists; split; [vm_compute; reflexivity|reflexivity]|].
  split; [eexists; split; [vm_compute; reflexivity|split; reflexivity]|].
  split; vm_compute; reflexivity.
Qed.
Example C46_two_steps_example :
  exists r w z, unit_convert 2 "week" "day" = Some r /\ unit_convert r "day" "minutes" = Some w /\
    unit_convert 2 "week" "minutes" = Some z /\ w == 20160.
Proof. eexists _, _, _. split; [vm_compute; reflexivity|]. split; [vm_compute; reflexivity|]. split; [vm_compute; reflexivity|]. reflexivity. Qed.

(** The property asks for any two units of a kind: a day cannot be converted to
    days, nor hours to days, nor days there and back. *)
Theorem C46_days_refuted :
  unit_convert 1 "day" "day" = None /\ unit_convert 1 "week" "weeks" = None /\
  unit_convert 48 "hr" "day" = None /\ unit_convert 10080 "min" "week" = None /\
  (exists r, unit_convert 2 "day" "hr" = Some r /\ unit_convert r "hr" "day" = None).
Proof.
  repeat split; try (vm_compute; reflexivity).
  eexists. split; vm_compute; reflexivity.
Qed.
(** And two steps to equal one: a mile to nautical miles over kilometres. *)
Theorem C46_two_steps_refuted :
  exists r w z, unit_convert 1 "mi" "km" = Some r /\ unit_convert r "km" "nmi" = Some w /\
    unit_convert 1 "mi" "nmi" = Some z /\ ~ w == z.
Proof.
  eexists _, _, _. split; [vm_compute; reflexivity|]. split; [vm_compute; reflexivity|]. split; [vm_compute; reflexivity|].
  intro H. vm_compute in H. discriminate.
Qed.

(** *** C65: waits in other units *)

(** With a stage time unit, a Wait given in a unit lasts that long: the same number
    of seconds. *)
Theorem C65_lasts t u b r x y :
  make_wait (Some b) t (Some u) = Waits r ->
  seconds_of (lower u) = Some x -> seconds_of (lower b) = Some y ->
  r * y == t * x /\ 0 <= r.
Proof.
  unfold make_wait, convert_time. destruct (unit_convert t u b) as [r'|] eqn:E; [|discriminate].
  destruct (Qltb r' 0) eqn:L; [discriminate|]. intros [= <-] Ex Ey. qbool. split; [|exact L].
  rewrite (C46_time _ _ _ _ _ _ E Ex Ey).
  assert (~ y == 0) by (revert Ey; unfold seconds_of;
    repeat match goal with |- (if ?c then _ else _) = _ -> _ => destruct c; [intros [= <-]; discriminate|] end; discriminate).
  field. auto.
Qed.
(** A Wait is refused exactly for a negative duration or when the units do not
    convert. *)
Theorem C65_refused tu t u :
  (make_wait tu t u = BadUnits <-> exists a b, u = Some a /\ tu = Some b /\ unit_convert t a b = None) /\
  (make_wait tu t u = NegativeTimeout ->  t < 0).
Proof.
  unfold make_wait, convert_time. split.
  - split.
    + destruct tu as [b|], u as [a|]; try (destruct (Qltb t 0); discriminate).
      destruct (unit_convert t a b) eqn:E; [destruct (Qltb q 0); discriminate|]. eauto.
    + intros (a & b & -> & -> & ->). reflexivity.
  - destruct tu as [b|], u as [a|]; try (destruct (Qltb t 0) eqn:L; [intros; qbool; exact L|discriminate]).
    destruct (unit_convert t a b) as [q|] eqn:E; [|discriminate].
    destruct (Qltb q 0) eqn:L; [|discriminate]. intros _. qbool.
    apply convert_inv in E. destruct E as (f & -> & I). apply all_right in I.
    assert (0 < f).
    { unfold right_entry in I.
      destruct (seconds_of (normal a)) as [x|] eqn:Ea, (seconds_of (normal b)) as [y|] eqn:Eb, (metres_of (normal a)), (metres_of (normal b));
        try discriminate I.
      - apply andb_prop in I. destruct I as [I _]. qbool. rewrite I. clear - Ea Eb. revert Ea Eb. unfold seconds_of.
        repeat match goal with
        | |- (if ?c then _ else _) = _ -> _ => destruct c; [intros [= <-]|]
        end; try (intros; discriminate);
        repeat match goal with
        | |- (if ?c then _ else _) = _ -> _ => destruct c; [intros [= <-]|]
        end; try (intros; discriminate); reflexivity.
      - apply andb_prop in I. destruct I as [I _]. apply andb_prop in I. destruct I as [_ I]. qbool. exact I. }
    apply Qnot_le_lt. intro G. assert (0 <= t * f) by (apply Qmult_le_0_compat; lra). lra.
Qed.
(** Without units, or without a stage time unit, the number is used as it is. *)
Theorem C65_plain tu u t : (tu = None \/ u = None) -> 0 <= t -> make_wait tu t u = Waits t.
Proof.
  intros H P. unfold make_wait, convert_time.
  assert (L : Qltb t 0 = false) by (apply Qltb_ge; exact P).
  destruct H as [-> | ->]; [|destruct tu]; rewrite L; reflexivity.
Qed.
(** A random wait is between its bounds, in the unit given. *)
Theorem C65_random b u low high r w x y :
  random_wait (Some b) low high (Some u) r = Waits w ->
  seconds_of (lower u) = Some x -> seconds_of (lower b) = Some y -> low <= high -> 0 <= r -> r <= 1 ->
  low * x <= w * y /\ w * y <= high * x.
Proof.
  unfold random_wait. intros H Ex Ey L R0 R1.
  destruct (C65_lasts _ _ _ _ _ _ H Ex Ey) as [E _].
  assert (0 < x) by (revert Ex; unfold seconds_of;
    repeat match goal with |- (if ?c then _ else _) = _ -> _ => destruct c; [intros [= <-]; reflexivity|] end; discriminate).
  assert (A1 : 0 <= (high - low) * r) by (apply Qmult_le_0_compat; lra).
  assert (A2 : 0 <= (high - low) * (1 - r)) by (apply Qmult_le_0_compat; lra).
  rewrite E. split; apply Qmult_le_compat_r; lra.
Qed.
(** It is made whenever a Wait of its lower bound is, for every random number. *)
Theorem C65_random_made tu u low high r v : 0 <= low -> low <= high -> 0 <= r -> make_wait tu low u = Waits v ->
  exists w, random_wait tu low high u r = Waits w.
Proof.
  unfold random_wait. intros L H R E. assert (A1 : 0 <= (high - low) * r) by (apply Qmult_le_0_compat; lra).
  assert (T : 0 <= low + (high - low) * r) by lra. revert T. generalize (low + (high - low) * r). clear A1 R H. intros t T.
  destruct (C65_refused tu t u) as [B N]. destruct (make_wait tu t u) as [w| |] eqn:E2; [eauto|exfalso..].
  - specialize (N eq_refl). lra.
  - destruct (proj1 B eq_refl) as (a & b & -> & -> & X). revert E X. unfold make_wait, convert_time, unit_convert.
    destruct conversions as [c|]; [|discriminate]. destruct (lookup c (normal a)) as [l|]; [|discriminate]. destruct (lookup l (normal b)); discriminate.
Qed.
Example C65_made_ex : make_wait (Some "s") 1 (Some "min") = Waits (1 * 60) /\ exists w, random_wait (Some "s") 1 3 (Some "min") (1 # 3) = Waits w.
Proof. split; [vm_compute; reflexivity|eexists; vm_compute; reflexivity]. Qed.
Example C65_example :
  (exists r, make_wait (Some "min") 2 (Some "Hours") = Waits r /\ r == 120) /\
  (exists r, random_wait (Some "s") 1 3 (Some "min") (1 # 2) = Waits r /\ r == 120) /\
  make_wait (Some "min") (-1) (Some "s") = NegativeTimeout /\
  make_wait (Some "day") 36 (Some "hr") = BadUnits.
Proof.
  split; [eexists; split; [vm_compute; reflexivity|reflexivity]|].
  split; [eexists; split; [vm_compute; reflexivity|reflexivity]|].
  split; vm_compute; reflexivity.
Qed.
(** The stage documents the time unit as hours when it is not set (base.py:98-99), but
    then a Wait of 30 minutes lasts 30 units, and with days as the unit a Wait in
    hours is refused. *)
Theorem C65_unset_refuted :
  make_wait None 30 (Some "min") = Waits 30 /\
  (exists d h m s, pretty_now 30 None None = PClock d h m s /\ (86400 * d + 3600 * h + 60 * m + s = 108000)%Z) /\
  make_wait (Some "day") 36 (Some "hr") = BadUnits.
Proof.
  split; [reflexivity|]. split; [|vm_compute; reflexivity].
  do 4 eexists. split; vm_compute; reflexivity.
Qed.

(** *** C64: printed times *)

(** With s, min or hr (or their long names) as the unit the day and the time of day
    are those of the clock, for times before zero too. *)
Theorem C64_clock now tu daily x :
  match tu with
  | None => x = 3600
  | Some u => seconds_of (lower u) = Some x /\ x < 86400 /\ (lower u = u \/ 3 < Z.of_nat (String.length u))%Z
  end ->
  exists d h m s, pretty_now now tu daily = PClock d h m s /\
    (86400 * d + 3600 * h + 60 * m + s = Qfloor (now * x))%Z /\
    (0 <= h < 24 /\ 0 <= m < 60 /\ 0 <= s < 60)%Z.
Proof.
  intro H. set (u := match tu with None => "hr" | Some u => u end).
  assert (Hu : seconds_of (lower u) = Some x /\ x < 86400).
  { subst u. destruct tu as [u|]; [tauto|]. subst x. split; reflexivity. }
  assert (Hstd : existsb (String.eqb (match lookup TIME_ALTERNATES (lower u) with Some x => x | None => u end)) STANDARD_TIMES = true).
  { destruct tu as [w|]; [|subst u; reflexivity]. subst u. destruct H as (Hs & Hx & Hl).
    assert (Len : String.length (lower w) = String.length w) by apply length_lower.
    rewrite <- Len in Hl. destruct Hl as [Hl|Hl].
    - rewrite Hl in *. clear Len Hl. revert Hs. unfold seconds_of, TIME_ALTERNATES. cbn [lookup existsb].
      repeat match goal with
      | |- context [String.eqb w ?k] => destruct (String.eqb_spec w k); [subst; cbn; intros [= <-]; solve [reflexivity | exfalso; lra]|]
      end. discriminate.
    - revert Hs Hl. generalize (lower w). intros s. unfold seconds_of, TIME_ALTERNATES. cbn [lookup existsb].
      repeat match goal with
      | |- context [String.eqb s ?k] => destruct (String.eqb_spec s k); [subst; cbn; intros [= <-]; solve [reflexivity | intro; lia | exfalso; lra]|]
      end. discriminate. }
  assert (Hc : exists q, unit_convert now u "hr" = Some q /\ q * 3600 == now * x).
  { destruct (unit_convert now u "hr") as [q|] eqn:E.
    - exists q. split; [reflexivity|]. rewrite (C46_time _ _ _ _ _ _ E (proj1 Hu) eq_refl). field.
    - exfalso. assert (D : unit_convert now u "hr" <> None).
      { apply C46_defined. right. left. split; [rewrite (proj1 Hu); discriminate|]. exists 3600. split; reflexivity. }
      auto. }
  destruct Hc as (q & Eq & Hq).
  unfold pretty_now. fold u. rewrite Hstd, Eq.
  set (day := Qfloor (q / 24)). set (secs := Qfloor ((q - inject_Z day * 24) * 3600)).
  assert (F1 : inject_Z day <= q / 24) by apply Qfloor_le.
  assert (F2 : q / 24 < inject_Z (day + 1)) by apply Qlt_floor.
  rewrite inject_Z_plus in F2. change (inject_Z 1) with 1 in F2.
  assert (E24 : q / 24 == q * (1 # 24)) by (unfold Qdiv; reflexivity).
  rewrite E24 in F1, F2.
  assert (G1 : inject_Z secs <= (q - inject_Z day * 24) * 3600) by apply Qfloor_le.
  assert (G2 : (q - inject_Z day * 24) * 3600 < inject_Z (secs + 1)) by apply Qlt_floor.
  rewrite inject_Z_plus in G2. change (inject_Z 1) with 1 in G2.
  assert (S0 : (0 <= secs)%Z).
  { assert ((-1 < secs)%Z); [|lia]. rewrite Zlt_Qlt. change (inject_Z (-1)) with (-1 # 1). lra. }
  assert (S1 : (secs < 86400)%Z) by (rewrite Zlt_Qlt; change (inject_Z 86400) with (86400 # 1); lra).
  assert (Hf : Qfloor (now * x) = (86400 * day + secs)%Z).
  { assert (L1 : inject_Z (86400 * day + secs) <= now * x)
      by (rewrite inject_Z_plus, inject_Z_mult; change (inject_Z 86400) with (86400 # 1); rewrite <- Hq; lra).
    assert (L2 : now * x < inject_Z (86400 * day + secs + 1))
      by (rewrite !inject_Z_plus, inject_Z_mult; change (inject_Z 86400) with (86400 # 1); change (inject_Z 1) with 1; rewrite <- Hq; lra).
    pose proof (Qfloor_le (now * x)) as M1. pose proof (Qlt_floor (now * x)) as M2.
    assert ((86400 * day + secs < Qfloor (now * x) + 1)%Z) by (rewrite Zlt_Qlt; eapply Qle_lt_trans; eauto).
    assert ((Qfloor (now * x) < 86400 * day + secs + 1)%Z) by (rewrite Zlt_Qlt; eapply Qle_lt_trans; eauto).
    lia. }
  do 4 eexists. split; [reflexivity|]. rewrite Hf. clear - S0 S1.
  assert (Q1 : (0 <= secs / 3600 < 24)%Z) by (split; [apply Z.div_pos; lia|apply Z.div_lt_upper_bound; lia]).
  rewrite (Z.mod_small (secs / 3600) 24) by exact Q1.
  pose proof (Z.mod_pos_bound (secs / 60) 60 ltac:(lia)). pose proof (Z.mod_pos_bound secs 60 ltac:(lia)).
  pose proof (Z.div_mod secs 60 ltac:(lia)). pose proof (Z.div_mod (secs / 60) 60 ltac:(lia)).
  assert (D : (secs / 60 / 60 = secs / 3600)%Z) by (rewrite Z.div_div by lia; reflexivity).
  rewrite D in *. lia.
Qed.
(** With another unit and a daily count, the day and what is left of it. *)
Theorem C64_days now u n :
  seconds_of (lower u) = None -> 0 < n ->
  exists d rem, pretty_now now (Some u) (Some n) = PDays d rem u /\
    inject_Z d * n + rem == now /\ 0 <= rem /\ rem < n.
Proof.
  intros H P. unfold pretty_now.
  assert (N1 : lookup TIME_ALTERNATES (lower u) = None).
  { revert H. unfold TIME_ALTERNATES, seconds_of. generalize (lower u). intro s. cbn [lookup existsb].
    repeat match goal with
    | |- context [String.eqb s ?k] => destruct (String.eqb_spec s k); [discriminate|]
    end.
    repeat match goal with
    | |- context [String.eqb ?k s] => destruct (String.eqb_spec k s); [congruence|]
    end. reflexivity. }
  rewrite N1.
  assert (N2 : existsb (String.eqb u) STANDARD_TIMES = false).
  { cbn. destruct (String.eqb_spec u "s"); [subst; discriminate|]. destruct (String.eqb_spec u "min"); [subst; discriminate|].
    destruct (String.eqb_spec u "hr"); [subst; discriminate|]. reflexivity. }
  rewrite N2. destruct (Qeqb n 0) eqn:Z; [qbool; lra|].
  do 2 eexists. split; [reflexivity|].
  set (d := Qfloor (now / n)).
  assert (F1 : inject_Z d <= now / n) by apply Qfloor_le.
  assert (F2 : now / n < inject_Z (d + 1)) by apply Qlt_floor.
  rewrite inject_Z_plus in F2. change (inject_Z 1) with 1 in F2.
  assert (E : now / n * n == now) by (field; lra).
  assert (G1 : inject_Z d * n <= now / n * n) by (apply Qmult_le_compat_r; lra).
  assert (G2 : now / n * n < (inject_Z d + 1) * n) by (apply Qmult_lt_r; lra).
  rewrite E in G1, G2. split; [lra|]. split; lra.
Qed.
Example C64_example :
  pretty_now (53 # 2) None None = PClock 1 2 30 0 /\
  pretty_now 3725 (Some "Seconds") None = PClock 0 1 2 5 /\
  (exists r, pretty_now 17 (Some "ticks") (Some 5) = PDays 3 r "ticks" /\ r == 2).
Proof.
  split; [vm_compute; reflexivity|]. split; [vm_compute; reflexivity|].
  eexists. split; [vm_compute; reflexivity|reflexivity].
Qed.
(** unit_convert takes "HR", but the printed time then is not a clock time. *)
Theorem C64_capitals_refuted :
  (exists r, unit_convert 30 "HR" "hr" = Some r) /\ pretty_now 30 (Some "HR") None = PCount 30 "HR" /\
  pretty_now 30 (Some "HOURS") None = PClock 1 6 0 0.
Proof. split; [eexists; vm_compute; reflexivity|]. split; vm_compute; reflexivity. Qed.

Print Assumptions C46_defined.
Print Assumptions C46_time.
Print Assumptions C46_distance.
Print Assumptions C46_self.
Print Assumptions C46_back.
Print Assumptions C46_back_distance.
Print Assumptions C46_two_steps_partial.
Print Assumptions C46_spelling.
Print Assumptions C46_linear.
Print Assumptions C46_days_refuted.
Print Assumptions C46_two_steps_refuted.
Print Assumptions C65_lasts.
Print Assumptions C65_refused.
Print Assumptions C65_plain.
Print Assumptions C65_random.
Print Assumptions C65_unset_refuted.
Print Assumptions C64_clock.
Print Assumptions C64_days.
Print Assumptions C64_capitals_refuted.

Print Assumptions C65_random_made.
