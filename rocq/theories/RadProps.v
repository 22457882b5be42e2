(** Theorems about the form of the locations a geodetic state moves through. *)
From Verif Require Import Common PathModel PathSpec RadModel RadSpec RadProofs.
From Coq Require Import Qabs.

(** A stage model for the examples, with 60 units to a degree; right along parallels *)
Definition ex_distance (p q : Q * Q) : Q := 60 * (Qabs (fst q - fst p) + Qabs (snd q - snd p)).
Definition ex_bearing (p q : Q * Q) : Q := if Qleb (snd p) (snd q) then 1 else -1.
Definition ex_travel (p : Q * Q) (b d : Q) : Q * Q := (fst p, snd p + b * (d / 60)).
(** Degrees in a radian *)
Definition ex_k : Q := 573 # 10.
Definition ex_step := gstep ex_distance ex_bearing ex_travel.

(** ** C139 *)
(** Whatever is done with it, the state answers as if every latitude and longitude were in
    degrees. *)
Theorem C139_as_degrees (distance bearing : Q * Q -> Q * Q -> Q) (travel : Q * Q -> Q -> Q -> Q * Q) (s : pst gloc) (os : list (pop gloc)) :
  p_act s = None ->
  answers (gstep distance bearing travel) (mkP (p_now s) (as_deg (p_val s)) None) (map op_deg os) =
  map out_deg (answers (gstep distance bearing travel) s os).
Proof. intro A. rewrite <- (run_deg distance bearing travel os s). unfold st_deg. rewrite A. reflexivity. Qed.
(** What is read once it has moved is in degrees. *)
Theorem C139_read (distance bearing : Q * Q -> Q * Q -> Q) (travel : Q * Q -> Q -> Q -> Q * Q) (s : pst gloc) (os : list (pop gloc)) (t : track gloc) (p : gloc) :
  let s1 := grun distance bearing travel s os in
  p_act s1 = Some t -> k_start t < p_now s1 -> snd (gstep distance bearing travel s1 PRead) = PVal p -> g_rad p = false.
Proof. cbv zeta. intros A L R. exact (moved_deg _ _ _ _ _ _ A L R). Qed.
(** In degrees, waiting for the time of waypoint_time_and_dist brings it to the last
    waypoint, as far as the stage model finds its way there. *)
Theorem C139_arrival (k : Q) (distance bearing : Q * Q -> Q * Q -> Q) (travel : Q * Q -> Q -> Q -> Q * Q) :
  (forall p q, 0 <= distance p q) -> (forall p q, distance p q == distance q p) ->
  forall s0 sp pre w, let u := last pre (p_val s0) in
  (forall d, d == distance (raw u) (raw w) -> same (travel (raw u) (bearing (raw u) (raw w)) d) (raw w)) ->
  p_act s0 = None -> 0 < sp -> g_rad (p_val s0) = false -> Forall (fun g => g_rad g = false) (pre ++ [w]) ->
  sp * geo_tol < distance (raw u) (raw w) ->
  exists t d p, time_and_dist k distance (p_val s0) (pre ++ [w]) sp = Some (t, d) /\
    answers (gstep distance bearing travel) s0 [PActivate sp (pre ++ [w]); PTime (p_now s0 + t); PRead] = [POk; POk; PVal p] /\
    same (place k p) (place k w) /\ g_alt p == g_alt w.
Proof. exact (arrival k distance bearing travel). Qed.
Example C139_example :
  let s0 := mkP 5 (mkG 10 20 0 false) None in let wps := [mkG 10 22 8 false; mkG 10 21 4 false] in
  (exists t d, time_and_dist ex_k ex_distance (p_val s0) wps 20 = Some (t, d) /\ t == 9 /\ d == 180) /\
  exists p, answers ex_step s0 [PActivate 20 wps; PTime 14; PRead] = [POk; POk; PVal p] /\ same (place ex_k p) (10, 21) /\ g_alt p == 4.
Proof. split; vm_compute; [eexists; eexists; repeat split|]. eexists. repeat split. Qed.
Lemma ex_nonneg p q : 0 <= ex_distance p q.
Proof. unfold ex_distance. pose proof (Qabs_nonneg (fst q - fst p)). pose proof (Qabs_nonneg (snd q - snd p)). lra. Qed.
Lemma ex_sym p q : ex_distance p q == ex_distance q p.
Proof. unfold ex_distance. rewrite (Qabs_Qminus (fst q)), (Qabs_Qminus (snd q)). reflexivity. Qed.
(** What C139_arrival asks *)
Example C139_example_hypotheses : let u := last [mkG 10 22 8 false] (mkG 10 20 0 false) in let w := mkG 10 21 4 false in
  (forall p q, 0 <= ex_distance p q) /\ (forall p q, ex_distance p q == ex_distance q p) /\
  (forall d, d == ex_distance (raw u) (raw w) -> same (ex_travel (raw u) (ex_bearing (raw u) (raw w)) d) (raw w)) /\
  20 * geo_tol < ex_distance (raw u) (raw w).
Proof.
  split; [exact ex_nonneg|]. split; [exact ex_sym|]. split; [|reflexivity]. intros d E. assert (D : d == 60) by (rewrite E; reflexivity). unfold same, ex_travel, ex_bearing. cbn [last raw g_lat g_lon fst snd].
  replace (Qleb 22 21) with false by reflexivity. split; [reflexivity|]. rewrite D. vm_compute. reflexivity.
Qed.
(** C139_as_degrees says something of locations in radians. *)
Example C139_example_radians : let s0 := mkP 0 (mkG 0 1 0 true) None in
  let os := [PRead; PActivate 20 [mkG 0 2 0 true]; PTime 3; PRead; PRemaining] in
  exists p, answers ex_step s0 os = [PVal (mkG 0 1 0 true); POk; POk; PVal p; PRest [mkG 0 2 0 true]] /\ same (raw p) (0, 2) /\ g_rad p = false.
Proof. vm_compute. eexists. repeat split. Qed.

(** ** C140: the form should not matter *)
Section Equator.
(** Any stage model that is right along the equator: [c] units to a degree; a location at
    0, 0 and one an angle of 1 further east, in radians. *)
Variables (k : Q) (distance bearing : Q * Q -> Q * Q -> Q) (travel : Q * Q -> Q -> Q -> Q * Q) (c now sp : Q).
Definition right_along_the_equator : Prop :=
  (forall p q, 0 <= distance p q) /\
  forall p q x, same p (0, 0) -> same q (0, x) -> 0 <= x <= 180 -> distance p q == c * x /\ distance q p == c * x.
(** After the time waypoint_time_and_dist gives, the state cannot be read nor deactivated. *)
Theorem C140_wait_refuted : 1 < k -> k <= 180 -> 0 < c -> 0 < sp -> right_along_the_equator -> sp * geo_tol < c * (k - 1) ->
  exists t d, time_and_dist k distance (mkG 0 0 0 true) [mkG 0 1 0 true] sp = Some (t, d) /\
    answers (gstep distance bearing travel) (mkP now (mkG 0 0 0 true) None) [PActivate sp [mkG 0 1 0 true]; PTime (now + t); PRead; PDeactivate] = [POk; POk; PSim; PSim].
Proof. intros K1 K2 C0 S0 [N E] L. exact (wait_fails k distance bearing travel c now sp K1 K2 C0 S0 N E L). Qed.
(** At the end of its path the state is one degree further east. *)
Theorem C140_place_refuted : 1 < k -> 0 < c -> 0 < sp -> right_along_the_equator ->
  (forall d, d == distance (0, 0) (0, 1) -> same (travel (0, 0) (bearing (0, 0) (0, 1)) d) (0, 1)) -> sp * geo_tol < c ->
  exists p, answers (gstep distance bearing travel) (mkP now (mkG 0 0 0 true) None) [PActivate sp [mkG 0 1 0 true]; PTime (now + c / sp); PRead] = [POk; POk; PVal p] /\
    same (place k p) (0, 1) /\ ~ same (place k p) (place k (mkG 0 1 0 true)).
Proof. intros K1 C0 S0 [N E] R L. exact (wrong_place k distance bearing travel c now sp K1 C0 S0 N E R L). Qed.
End Equator.
(** There are such models. *)
Example C140_example : 1 < ex_k /\ ex_k <= 180 /\ right_along_the_equator ex_distance 60 /\
  (forall d, d == ex_distance (0, 0) (0, 1) -> same (ex_travel (0, 0) (ex_bearing (0, 0) (0, 1)) d) (0, 1)) /\ 20 * geo_tol < 60 /\ 20 * geo_tol < 60 * (ex_k - 1).
Proof.
  split; [reflexivity|]. split; [discriminate|]. split.
  - split; [exact ex_nonneg|]. intros p q x [P1 P2] [Q1 Q2] X. cbn [fst snd] in *. rewrite (ex_sym q p).
    assert (E : ex_distance p q == 60 * x); [|split; exact E]. unfold ex_distance. rewrite P1, P2, Q1, Q2. rewrite (Qabs_pos (x - 0)) by lra. rewrite (Qabs_pos (0 - 0)) by lra. lra.
  - split; [|split; reflexivity]. intros d E. assert (D : d == 60) by (rewrite E; reflexivity). unfold same, ex_travel, ex_bearing. cbn [fst snd]. replace (Qleb 0 1) with true by reflexivity. split; [reflexivity|]. rewrite D. vm_compute. reflexivity.
Qed.
(** The location table shows the same latitude, longitude and altitude for different places
    the state has been at. *)
Theorem C140_table_refuted : let s0 := mkP 0 (mkG 0 1 0 true) None in
  exists p, answers ex_step s0 [PRead; PActivate 20 [mkG 0 2 0 true; mkG 0 1 0 true]; PTime 6; PRead] = [PVal (mkG 0 1 0 true); POk; POk; PVal p] /\
    (let '(a, b, c) := cells p in a == 0 /\ b == 1 /\ c == 0) /\ cells (mkG 0 1 0 true) = (0, 1, 0) /\ ~ same (place ex_k p) (place ex_k (mkG 0 1 0 true)).
Proof. vm_compute. eexists. repeat split. intros [_ H]. discriminate. Qed.

Print Assumptions C139_as_degrees.
Print Assumptions C139_read.
Print Assumptions C139_arrival.
Print Assumptions C140_wait_refuted.
Print Assumptions C140_place_refuted.
Print Assumptions C140_table_refuted.
