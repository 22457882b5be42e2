(** Theorems about journeys that are interrupted and resumed (Actor.get_remaining_waypoints,
    actor.py:1204-1221, with states.py:611-625 and 805-817). *)
From Verif Require Import Common PathModel PathSpec PathProofs PathProps TripSpec TripProofs.
From Coq Require Import Qabs.

(** C141: after any number of interruptions, at any speeds, the state activated with the
    waypoints that remained is at arc length (travelled before) + speed * (time since) of
    the path as it was first given, or at most [sp * tol] beyond a corner. *)
Theorem C141_position : forall (P : Type) (dist : P -> P -> Q) along tol same,
  geometry dist along same -> 0 <= tol ->
  forall s0 wps x s rest, p_act s0 = None -> 0 < travelled dist (p_val s0) wps 1 ->
  trip dist along tol s0 wps x s rest ->
  forall sp os, 0 < sp -> Forall looks_or_assigns os ->
  let s1 := prun dist along tol (fst (pstep dist along tol s (PActivate sp rest))) os in
  let y := x + sp * (p_now s1 - p_now s) in
  p_now s < p_now s1 -> y <= path_length dist (p_val s0) wps + sp * tol ->
  exists p q i, snd (pstep dist along tol s1 PRead) = PVal p /\ same p q /\
    on_leg dist along (p_val s0) wps i y (sp * tol) q /\
    (forall j, (j < i)%nat -> travelled dist (p_val s0) wps (S j) < y) /\
    snd (pstep dist along tol s1 PRemaining) = PRest (skipn i wps).
Proof.
  intros P dist along tol same G Ht s0 wps x s rest Hi H1 T sp os Hsp Hf s1 y He Hle.
  destruct (trip_place _ _ _ _ _ G Ht _ _ _ _ _ Hi H1 T) as [I Hp].
  destruct (resumed_read _ _ _ _ _ G Ht _ _ _ _ _ _ Hp I Hsp os Hf He Hle) as (p & q & i & A & _ & B & _ & C & D & E).
  exists p, q, i. auto.
Qed.
Print Assumptions C141_position.

(** Any number of interruptions and any speeds leave no trace: where a trip without
    interruption at any one speed has come as far, it is at the same place. *)
Theorem C141_as_if_uninterrupted : forall (P : Type) (dist : P -> P -> Q) along tol same,
  geometry dist along same -> 0 <= tol ->
  forall s0 wps x s rest sp os sp0 os0, p_act s0 = None -> 0 < travelled dist (p_val s0) wps 1 ->
  trip dist along tol s0 wps x s rest -> 0 < sp -> 0 < sp0 ->
  Forall looks_or_assigns os -> Forall looks_or_assigns os0 ->
  let s1 := prun dist along tol (fst (pstep dist along tol s (PActivate sp rest))) os in
  let r1 := prun dist along tol (fst (pstep dist along tol s0 (PActivate sp0 wps))) os0 in
  p_now s < p_now s1 -> p_now s0 < p_now r1 ->
  let y := x + sp * (p_now s1 - p_now s) in
  sp0 * (p_now r1 - p_now s0) == y -> y < path_length dist (p_val s0) wps ->
  clear_of_corners dist (p_val s0) wps y (sp * tol) -> clear_of_corners dist (p_val s0) wps y (sp0 * tol) ->
  exists p q, snd (pstep dist along tol s1 PRead) = PVal p /\ snd (pstep dist along tol r1 PRead) = PVal q /\ same p q.
Proof. exact resumed_same. Qed.
Print Assumptions C141_as_if_uninterrupted.

(** Away from corners, it can be interrupted once more: the state is deactivated and there
    is a list of what remains.  While it is not active it stays where it is. *)
Theorem C141_again : forall (P : Type) (dist : P -> P -> Q) along tol same,
  geometry dist along same -> 0 <= tol ->
  forall s0 wps x s rest, p_act s0 = None -> 0 < travelled dist (p_val s0) wps 1 ->
  trip dist along tol s0 wps x s rest ->
  forall sp os os', 0 < sp -> Forall looks_or_assigns os -> Forall looks os' ->
  let s1 := prun dist along tol (fst (pstep dist along tol s (PActivate sp rest))) os in
  let y := x + sp * (p_now s1 - p_now s) in
  p_now s < p_now s1 -> y < path_length dist (p_val s0) wps ->
  clear_of_corners dist (p_val s0) wps y (sp * tol) ->
  snd (pstep dist along tol s1 PDeactivate) = POk /\
  exists rest', snd (pstep dist along tol s1 PRemaining) = PRest rest' /\ rest' <> [] /\
    trip dist along tol s0 wps y (prun dist along tol (fst (pstep dist along tol s1 PDeactivate)) os') rest'.
Proof.
  intros P dist along tol same G Ht s0 wps x s rest Hi H1 T sp os os' Hsp Hf Hf' s1 y He Hend Hc.
  destruct (trip_place _ _ _ _ _ G Ht _ _ _ _ _ Hi H1 T) as [I Hp].
  destruct (interrupted _ _ _ _ _ G Ht _ _ _ _ _ _ Hp I Hsp os os' [] Hf Hf' He Hend Hc) as (A & [l B] & _).
  split; [exact A|]. exists l. split; [exact B|].
  assert (T' : trip dist along tol s0 wps y (prun dist along tol (fst (pstep dist along tol s1 PDeactivate)) os') l)
    by (apply (trip_on _ dist along tol s0 wps x s rest sp os l os'); assumption).
  split; [|exact T'].
  destruct (trip_place _ _ _ _ _ G Ht _ _ _ _ _ Hi H1 T') as [_ Hp'].
  apply (place_length _ _ _ _ G _ _ _ _ _ Hp').
Qed.
Print Assumptions C141_again.

(** What waypoint_time_and_dist says of the rest is what is left of the path. *)
Theorem C141_time_left : forall (P : Type) (dist : P -> P -> Q) along tol same,
  geometry dist along same -> 0 <= tol ->
  forall s0 wps x s rest sp, p_act s0 = None -> 0 < travelled dist (p_val s0) wps 1 ->
  trip dist along tol s0 wps x s rest -> 0 < sp ->
  0 <= x < path_length dist (p_val s0) wps /\
  exists t d, waypoint_time_and_dist dist (p_val s) rest sp = Some (t, d) /\
    d == path_length dist (p_val s0) wps - x /\ t * sp == d.
Proof.
  intros P dist along tol same G Ht s0 wps x s rest sp Hi H1 T Hsp.
  split; [apply (trip_far _ _ _ _ _ G Ht _ _ _ s rest Hi H1 T)|].
  destruct (trip_place _ _ _ _ _ G Ht _ _ _ _ _ Hi H1 T) as [I Hp].
  destruct (place_length _ _ _ _ G _ _ _ _ _ Hp) as (L & _).
  destruct (time_and_dist _ dist (g_nonneg _ _ _ _ G) (p_val s) rest sp Hsp) as (t & d & A & B & C & _).
  exists t, d. split; [exact A|]. split; [rewrite B; exact L|exact C].
Qed.
Print Assumptions C141_time_left.

(** After that time it is at the last waypoint. *)
Theorem C141_arrival : forall (P : Type) (dist : P -> P -> Q) along tol same,
  geometry dist along same -> 0 <= tol ->
  forall s0 pre w x s rest sp os, p_act s0 = None ->
  let wps := pre ++ [w] in
  0 < travelled dist (p_val s0) wps 1 ->
  trip dist along tol s0 wps x s rest -> 0 < sp -> sp * tol < dist w (last pre (p_val s0)) ->
  Forall looks_or_assigns os ->
  let s1 := prun dist along tol (fst (pstep dist along tol s (PActivate sp rest))) os in
  x + sp * (p_now s1 - p_now s) == path_length dist (p_val s0) wps ->
  exists p, snd (pstep dist along tol s1 PRead) = PVal p /\ same p w.
Proof. exact resumed_arrival. Qed.
Print Assumptions C141_arrival.

(** Straight lines are such a geometry, for every distance that shrinks in proportion
    along them (the Euclidean one does, C142's witnesses use a rational one). *)
Theorem C141_straight : forall dist : pt -> pt -> Q,
  (forall p q, 0 <= dist p q) -> (forall p p' q, pt_eq p p' -> dist q p == dist q p') ->
  (forall p q f, 0 <= f <= 1 -> dist q (straight p q f) == (1 - f) * dist q p) ->
  geometry dist straight pt_eq.
Proof. exact straight_geometry. Qed.
Print Assumptions C141_straight.

Lemma scaled a b f : 0 <= f <= 1 -> Qabs (b - (a + f * (b - a))) == (1 - f) * Qabs (b - a).
Proof.
  intro H. assert (E : b - (a + f * (b - a)) == (1 - f) * (b - a)) by ring. rewrite E, Qabs_Qmult.
  rewrite (Qabs_pos (1 - f)); [reflexivity|lra].
Qed.
Theorem C141_grid : geometry grid straight pt_eq.
Proof.
  apply C141_straight; unfold grid.
  - intros p q. pose proof (Qabs_nonneg (px p - px q)). pose proof (Qabs_nonneg (py p - py q)). pose proof (Qabs_nonneg (pz p - pz q)). lra.
  - intros p p' q (A & B & C). rewrite A, B, C. reflexivity.
  - intros p q f Hf. cbn [straight px py pz]. rewrite !scaled by exact Hf. ring.
Qed.
Print Assumptions C141_grid.

(** ** Two interruptions of the journey of PathProps, at (4,0) and (6,1) *)
Definition leg1 : pst pt := grun (fst (gstep start0 (PActivate 2 wp0))) [PRead; PTime 7].
Definition stop1 : pst pt := grun (fst (gstep leg1 PDeactivate)) [PTime 20; PRead].
Definition leg2 : pst pt := grun (fst (gstep stop1 (PActivate 3 wp0))) [PTime 21].
Definition stop2 : pst pt := grun (fst (gstep leg2 PDeactivate)) [PTime 30].
Ltac clear_by_calc := intros n Hn; cbn in Hn; destruct n as [|[|[|n]]]; try lia; first [left; vm_compute; reflexivity | right; vm_compute; reflexivity].
Example C141_ex_trip : exists x, x == 7 /\ trip grid straight cart_tol start0 wp0 x stop2 [mkPt 6 4 0].
Proof.
  assert (T1 : trip grid straight cart_tol start0 wp0 (0 + 2 * (p_now leg1 - p_now start0)) stop1 wp0).
  { apply (trip_on _ grid straight cart_tol start0 wp0 0 start0 wp0 2 [PRead; PTime 7] wp0 [PTime 20; PRead]).
    - constructor.
    - reflexivity.
    - repeat constructor.
    - repeat constructor.
    - vm_compute; reflexivity.
    - vm_compute; reflexivity.
    - clear_by_calc.
    - vm_compute; reflexivity. }
  eexists. split; [|apply (trip_on _ grid straight cart_tol start0 wp0 _ stop1 wp0 3 [PTime 21] [mkPt 6 4 0] [PTime 30] T1)].
  - vm_compute; reflexivity.
  - reflexivity.
  - repeat constructor.
  - repeat constructor.
  - vm_compute; reflexivity.
  - vm_compute; reflexivity.
  - clear_by_calc.
  - vm_compute; reflexivity.
Qed.
Example C141_ex_place : pt_eq (p_val stop1) (mkPt 4 0 0) /\ pt_eq (p_val stop2) (mkPt 6 1 0).
Proof. vm_compute. auto 10. Qed.
Example C141_ex_end : exists p,
  snd (gstep (grun (fst (gstep stop2 (PActivate 1 [mkPt 6 4 0]))) [PTime 33]) PRead) = PVal p /\ pt_eq p (mkPt 6 4 0).
Proof. eexists. split; [vm_compute; reflexivity|]. vm_compute. auto. Qed.
Example C141_ex_left : exists t d, waypoint_time_and_dist grid (p_val stop2) [mkPt 6 4 0] 1 = Some (t, d) /\ t == 3 /\ d == 3.
Proof. eexists _, _. split; [vm_compute; reflexivity|]. vm_compute. auto. Qed.

(** C142: the same of an interruption at any time.  Exactly at a waypoint, the waypoint
    itself is said to remain, and the journey resumed with it cannot be read within the
    tolerance, nor be deactivated. *)
Theorem C142_corner_refuted : exists (s0 : pst pt) sp wps t rest t',
  let s1 := grun (fst (gstep s0 (PActivate sp wps))) [PTime t] in
  let s2 := fst (gstep s1 PDeactivate) in
  let s3 := grun (fst (gstep s2 (PActivate sp rest))) [PTime t'] in
  p_act s0 = None /\ 0 < sp /\ p_now s0 < t < t' /\ 0 < travelled grid (p_val s0) wps 1 /\
  sp * (t' - p_now s0) < path_length grid (p_val s0) wps /\
  snd (gstep s1 PRemaining) = PRest rest /\ snd (gstep s1 PDeactivate) = POk /\
  (exists w, hd_error rest = Some w /\ pt_eq w (p_val s2)) /\
  snd (gstep s3 PRead) = PZero /\ snd (gstep s3 PDeactivate) = PZero.
Proof.
  exists start0, 2, wp0, 8, wp0, (8 + (1 # 2000000000000)). cbv zeta.
  split; [reflexivity|]. split; [reflexivity|]. split; [split; reflexivity|].
  split; [vm_compute; reflexivity|]. split; [vm_compute; reflexivity|]. split; [vm_compute; reflexivity|]. split; [vm_compute; reflexivity|].
  split; [eexists; split; [reflexivity|vm_compute; auto]|]. split; vm_compute; reflexivity.
Qed.
Print Assumptions C142_corner_refuted.

(** At the last waypoint: there still is a waypoint to go to, and once the state is
    activated with it and time has passed it can be neither read nor deactivated. *)
Theorem C142_arrived_refuted : exists (s0 : pst pt) sp wps t rest t',
  let s1 := grun (fst (gstep s0 (PActivate sp wps))) [PTime t] in
  let s2 := fst (gstep s1 PDeactivate) in
  let s3 := grun (fst (gstep s2 (PActivate sp rest))) [PTime t'] in
  p_act s0 = None /\ 0 < sp /\ p_now s0 < t < t' /\ 0 < travelled grid (p_val s0) wps 1 /\
  snd (gstep s1 PRemaining) = PRest rest /\ rest <> [] /\ pt_eq (p_val s2) (last wps (p_val s0)) /\
  snd (gstep s1 PDeactivate) = POk /\ snd (gstep s2 (PActivate sp rest)) = POk /\
  snd (gstep s3 PRead) = PSim /\ snd (gstep s3 PDeactivate) = PSim.
Proof.
  exists start0, 2, wp0, 10, [mkPt 6 4 0], 11. cbv zeta.
  split; [reflexivity|]. split; [reflexivity|]. split; [split; reflexivity|].
  split; [vm_compute; reflexivity|]. split; [vm_compute; reflexivity|]. split; [discriminate|]. split; [vm_compute; auto|].
  repeat (split; [vm_compute; reflexivity|]). vm_compute; reflexivity.
Qed.
Print Assumptions C142_arrived_refuted.

(** Just beyond a waypoint (by a time within the tolerance): the state is past it, it
    is said to remain, and the rest is longer than what is left of the path. *)
Theorem C142_back_refuted : exists (s0 : pst pt) sp wps t rest,
  let step := pstep grid straight geo_tol in
  let s1 := prun grid straight geo_tol (fst (step s0 (PActivate sp wps))) [PTime t] in
  let s2 := fst (step s1 PDeactivate) in
  p_act s0 = None /\ 0 < sp /\ p_now s0 < t /\ 0 < travelled grid (p_val s0) wps 1 /\
  travelled grid (p_val s0) wps 1 < sp * (t - p_now s0) < path_length grid (p_val s0) wps /\
  snd (step s1 PRemaining) = PRest rest /\ snd (step s1 PDeactivate) = POk /\ rest = wps /\
  path_length grid (p_val s0) wps - sp * (t - p_now s0) < path_length grid (p_val s2) rest.
Proof.
  exists start0, 1000, wp0, (5 + (61 # 10000)), wp0. cbv zeta.
  split; [reflexivity|]. split; [reflexivity|]. split; [reflexivity|].
  split; [vm_compute; reflexivity|]. split; [split; vm_compute; reflexivity|]. split; [vm_compute; reflexivity|]. split; [vm_compute; reflexivity|].
  split; [reflexivity|]. vm_compute; reflexivity.
Qed.
Print Assumptions C142_back_refuted.
