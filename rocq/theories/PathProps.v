(** Theorems about motion along waypoints. *)
From Verif Require Import Common PathModel PathSpec PathProofs.
From Coq Require Import Qabs.

(** C18: for any distance and interpolation functions (hence for the straight
    lines of the Cartesian state), after any sequence of reads, waypoint
    queries, assignments and time steps, a read gives the point of the path at
    arc length speed times elapsed time, or at most [sp * tol] beyond a corner. *)
Theorem C18_position : forall (P : Type) (dist : P -> P -> Q) along tol,
  (forall p q, 0 <= dist p q) -> 0 <= tol ->
  forall s0 sp wps, p_act s0 = None -> 0 < sp ->
  forall os, Forall looks_or_assigns os ->
  let s := prun dist along tol (fst (pstep dist along tol s0 (PActivate sp wps))) os in
  0 < p_now s - p_now s0 -> wps <> [] ->
  0 < travelled dist (p_val s0) wps 1 \/ tol < p_now s - p_now s0 ->
  p_now s - p_now s0 <= path_length dist (p_val s0) wps / sp + tol ->
  exists p i, snd (pstep dist along tol s PRead) = PVal p /\
    on_leg dist along (p_val s0) wps i (sp * (p_now s - p_now s0)) (sp * tol) p /\
    forall j, (j < i)%nat -> travelled dist (p_val s0) wps (S j) + sp * tol < sp * (p_now s - p_now s0).
Proof. exact position. Qed.
Print Assumptions C18_position.

Theorem C18_start : forall (P : Type) (dist : P -> P -> Q) along tol,
  forall s0 sp wps, p_act s0 = None -> 0 < sp ->
  forall os, Forall looks os ->
  let s := prun dist along tol (fst (pstep dist along tol s0 (PActivate sp wps))) os in
  p_now s == p_now s0 -> snd (pstep dist along tol s PRead) = PVal (p_val s0).
Proof. exact start_position. Qed.
Print Assumptions C18_start.

(** How often it was read or assigned before does not matter. *)
Theorem C18_reads_do_not_matter : forall (P : Type) (dist : P -> P -> Q) along tol,
  forall s0 sp wps, p_act s0 = None -> 0 < sp ->
  let s1 := fst (pstep dist along tol s0 (PActivate sp wps)) in
  forall os1 os2, Forall looks_or_assigns os1 -> Forall looks_or_assigns os2 ->
  p_now (prun dist along tol s1 os1) = p_now (prun dist along tol s1 os2) ->
  ~ p_now (prun dist along tol s1 os1) == p_now s0 ->
  snd (pstep dist along tol (prun dist along tol s1 os1) PRead)
    = snd (pstep dist along tol (prun dist along tol s1 os2) PRead) /\
  snd (pstep dist along tol (prun dist along tol s1 os1) PRemaining)
    = snd (pstep dist along tol (prun dist along tol s1 os2) PRemaining).
Proof. exact reads_do_not_matter. Qed.
Print Assumptions C18_reads_do_not_matter.

(** Straight lines: exactly when the path time has elapsed it is at the last
    waypoint (whose leg takes longer than the tolerance). *)
Theorem C18_arrival : forall (dist : pt -> pt -> Q) tol,
  (forall p q, 0 <= dist p q) -> 0 <= tol ->
  forall s0 sp pre w os, p_act s0 = None -> 0 < sp ->
  sp * tol < dist w (last pre (p_val s0)) -> Forall looks_or_assigns os ->
  let wps := pre ++ [w] in
  let s := prun dist straight tol (fst (pstep dist straight tol s0 (PActivate sp wps))) os in
  p_now s - p_now s0 == path_length dist (p_val s0) wps / sp ->
  exists p, snd (pstep dist straight tol s PRead) = PVal p /\ pt_eq p w.
Proof. exact at_the_end. Qed.
Print Assumptions C18_arrival.

(** Deactivating during the motion leaves it where it was. *)
Theorem C18_deactivated_stays : forall (P : Type) (dist : P -> P -> Q) along tol,
  (forall p q, 0 <= dist p q) -> 0 <= tol ->
  forall s0 sp wps, p_act s0 = None -> 0 < sp ->
  forall os os', Forall looks_or_assigns os -> Forall looks os' ->
  let s := prun dist along tol (fst (pstep dist along tol s0 (PActivate sp wps))) os in
  0 < p_now s - p_now s0 -> wps <> [] ->
  0 < travelled dist (p_val s0) wps 1 \/ tol < p_now s - p_now s0 ->
  p_now s - p_now s0 <= path_length dist (p_val s0) wps / sp + tol ->
  snd (pstep dist along tol s PDeactivate) = POk /\
  snd (pstep dist along tol (prun dist along tol (fst (pstep dist along tol s PDeactivate)) os') PRead)
    = snd (pstep dist along tol s PRead) /\
  exists p, snd (pstep dist along tol s PRead) = PVal p.
Proof. exact stops. Qed.
Print Assumptions C18_deactivated_stays.

(** The waypoints reported as remaining: those not passed yet. *)
Theorem C18_remaining : forall (P : Type) (dist : P -> P -> Q) along tol,
  (forall p q, 0 <= dist p q) -> 0 <= tol ->
  forall s0 sp wps, p_act s0 = None -> 0 < sp ->
  forall os, Forall looks_or_assigns os ->
  let s := prun dist along tol (fst (pstep dist along tol s0 (PActivate sp wps))) os in
  0 < p_now s - p_now s0 -> wps <> [] ->
  0 < travelled dist (p_val s0) wps 1 \/ tol < p_now s - p_now s0 ->
  p_now s - p_now s0 <= path_length dist (p_val s0) wps / sp + tol ->
  exists i, snd (pstep dist along tol s PRemaining) = PRest (skipn i wps) /\ (i < length wps)%nat /\
    (forall j, (j < i)%nat -> travelled dist (p_val s0) wps (S j) + sp * tol < sp * (p_now s - p_now s0)) /\
    sp * (p_now s - p_now s0) <= travelled dist (p_val s0) wps (S i) + sp * tol.
Proof. exact remaining. Qed.
Print Assumptions C18_remaining.

(** Past the path time: every read and every deactivation raises, for ever. *)
Theorem C18_overdue_stuck : forall (P : Type) (dist : P -> P -> Q) along tol,
  (forall p q, 0 <= dist p q) ->
  forall s0 sp wps, p_act s0 = None -> 0 < sp ->
  forall os os', Forall looks_or_assigns os ->
  let s := prun dist along tol (fst (pstep dist along tol s0 (PActivate sp wps))) os in
  0 < p_now s - p_now s0 -> path_length dist (p_val s0) wps / sp + tol < p_now s - p_now s0 ->
  snd (pstep dist along tol (prun dist along tol s os') PRead) = PSim /\
  snd (pstep dist along tol (prun dist along tol s os') PDeactivate) = PSim.
Proof. exact overdue_forever. Qed.
Print Assumptions C18_overdue_stuck.

(** ** Concrete motion: two axis-parallel legs, speed 2 *)
Definition grid (p q : pt) : Q := Qabs (px p - px q) + Qabs (py p - py q) + Qabs (pz p - pz q).
Definition o0 : pt := mkPt 0 0 0.
Definition start0 : pst pt := mkP 5 o0 None.
Definition wp0 : list pt := [mkPt 6 0 0; mkPt 6 4 0].
Definition gstep := pstep grid straight cart_tol.
Definition grun := prun grid straight cart_tol.

Example C18_ex_end : exists p,
  snd (gstep (grun (fst (gstep start0 (PActivate 2 wp0))) [PRead; PTime 7; PRead; PTime 10]) PRead) = PVal p /\
  pt_eq p (mkPt 6 4 0).
Proof. eexists. split; [vm_compute; reflexivity|]. vm_compute. auto. Qed.
Example C18_ex_mid : exists p,
  snd (gstep (grun (fst (gstep start0 (PActivate 2 wp0))) [PRead; PTime 7; PAssign o0; PTime 9]) PRead) = PVal p /\
  pt_eq p (mkPt 6 2 0).
Proof. eexists. split; [vm_compute; reflexivity|]. vm_compute. auto. Qed.
Example C18_ex_rest :
  snd (gstep (grun (fst (gstep start0 (PActivate 2 wp0))) [PTime 9]) PRemaining) = PRest [mkPt 6 4 0].
Proof. vm_compute. reflexivity. Qed.

(** "once the path time has elapsed it is at the last waypoint" fails while the
    state is still active: reading raises. *)
Theorem C18_overdue_refuted : exists (s0 : pst pt) sp wps t,
  p_act s0 = None /\ 0 < sp /\ path_length grid (p_val s0) wps / sp < t - p_now s0 /\
  snd (gstep (grun (fst (gstep s0 (PActivate sp wps))) [PTime t]) PRead) = PSim.
Proof. exists start0, 2, wp0, 11. vm_compute. repeat split; reflexivity. Qed.
Print Assumptions C18_overdue_refuted.

(** A first waypoint at the current location: a read within the tolerance
    divides by zero. *)
Theorem C18_zero_leg_refuted : exists (s0 : pst pt) sp wps t,
  p_act s0 = None /\ 0 < sp /\ p_now s0 < t /\ t - p_now s0 <= path_length grid (p_val s0) wps / sp /\
  snd (gstep (grun (fst (gstep s0 (PActivate sp wps))) [PTime t]) PRead) = PZero.
Proof. exists start0, 2, [o0; mkPt 6 0 0], (5 + (1 # 2000000000000)). vm_compute. repeat split; congruence. Qed.
Print Assumptions C18_zero_leg_refuted.

(** C60: the geodetic state, for every stage model: from the start of the leg
    along the leg's bearing, the distance still to be covered, the altitude in
    proportion. *)
Theorem C60_geodetic_position : forall (LL : Type) (gdist bearing : LL -> LL -> Q) travel,
  (forall p q, 0 <= gdist p q) ->
  let dist := geo_dist gdist in let along := geo_along gdist bearing travel in
  forall s0 sp wps, p_act s0 = None -> 0 < sp ->
  forall os, Forall looks_or_assigns os ->
  let s := prun dist along geo_tol (fst (pstep dist along geo_tol s0 (PActivate sp wps))) os in
  geo_tol < p_now s - p_now s0 -> wps <> [] ->
  p_now s - p_now s0 <= path_length dist (p_val s0) wps / sp + geo_tol ->
  exists u v i f moved,
    nth_error (p_val s0 :: wps) i = Some u /\ nth_error wps i = Some v /\
    snd (pstep dist along geo_tol s PRead)
      = PVal (travel (fst u) (bearing (fst u) (fst v)) moved, snd u + (snd v - snd u) * f) /\
    travelled dist (p_val s0) wps i + moved == sp * (p_now s - p_now s0) /\
    moved == f * gdist (fst u) (fst v) /\ 0 < f /\ moved <= gdist (fst u) (fst v) + sp * geo_tol.
Proof.
  intros LL gdist bearing travel Hnn dist along s0 sp wps Hi Hsp os Hf s He Hw Hle.
  assert (T0 : 0 <= geo_tol) by (unfold geo_tol; lra).
  assert (He' : 0 < p_now s - p_now s0) by (unfold geo_tol in He; lra).
  destruct (position _ dist along geo_tol (fun p q => Hnn (fst q) (fst p)) T0 s0 sp wps Hi Hsp os Hf He' Hw (or_intror He) Hle)
    as (p & i & A & (u & v & f & Hu & Hv & Ep & Hfp & Harc & Hsl) & _).
  exists u, v, i, f, (f * gdist (fst u) (fst v)). split; [exact Hu|]. split; [exact Hv|].
  split; [subst p; exact A|]. split; [exact Harc|]. split; [reflexivity|]. split; [exact Hfp|].
  rewrite (travelled_S _ dist wps (p_val s0) i u v Hu Hv) in Hsl. fold s in Harc, Hsl.
  unfold dist, geo_dist in Harc, Hsl. lra.
Qed.
Print Assumptions C60_geodetic_position.

(** The tolerance is absolute: on a leg shorter than it, the state goes past
    the waypoint by a multiple of the leg. *)
Definition line (p q : Q) : Q := Qabs (q - p).
Definition gline := geo_dist line.
Definition gmove := geo_along line (fun p q => if Qltb p q then 1 else -1)%Q (fun p b d => p + b * d).
Theorem C60_short_leg_refuted : exists (s0 : pst (Q * Q)) sp wps t p,
  p_act s0 = None /\ 0 < sp /\
  snd (pstep gline gmove geo_tol (prun gline gmove geo_tol (fst (pstep gline gmove geo_tol s0 (PActivate sp wps))) [PTime t]) PRead)
    = PVal p /\
  (* the path never leaves 0..1, the state is at 9 *)
  (forall w, In w (p_val s0 :: wps) -> 0 <= fst w <= 1) /\ fst p == 9.
Proof.
  exists (mkP 0 (0, 0) None), 100000, [(1, 0); (0, 0)], (9 # 100000). eexists.
  split; [reflexivity|]. split; [reflexivity|]. split; [vm_compute; reflexivity|].
  split; [|vm_compute; reflexivity].
  intros w [<-|[<-|[<-|[]]]]; cbn; lra.
Qed.
Print Assumptions C60_short_leg_refuted.

(** C52 *)
Theorem C52_sum_of_legs : forall (P : Type) (dist : P -> P -> Q), (forall p q, 0 <= dist p q) ->
  forall a wps sp, 0 < sp -> exists t d,
  waypoint_time_and_dist dist a wps sp = Some (t, d) /\
  d == path_length dist a wps /\ t * sp == d /\ 0 <= d /\ 0 <= t.
Proof. exact time_and_dist. Qed.
Print Assumptions C52_sum_of_legs.

Theorem C52_additive : forall (P : Type) (dist : P -> P -> Q) a w1 w2 sp t1 d1 t2 d2 t d, 0 < sp ->
  waypoint_time_and_dist dist a w1 sp = Some (t1, d1) ->
  waypoint_time_and_dist dist (last w1 a) w2 sp = Some (t2, d2) ->
  waypoint_time_and_dist dist a (w1 ++ w2) sp = Some (t, d) ->
  d == d1 + d2 /\ t == t1 + t2.
Proof. exact time_and_dist_joined. Qed.
Print Assumptions C52_additive.

(** Waiting for the time it gives, the Cartesian state is at the last waypoint. *)
Theorem C52_is_the_travel_time : forall (dist : pt -> pt -> Q) tol,
  (forall p q, 0 <= dist p q) -> 0 <= tol ->
  forall s0 sp pre w t d, p_act s0 = None -> 0 < sp ->
  sp * tol < dist w (last pre (p_val s0)) ->
  waypoint_time_and_dist dist (p_val s0) (pre ++ [w]) sp = Some (t, d) ->
  exists p, snd (pstep dist straight tol
                  (fst (pstep dist straight tol (fst (pstep dist straight tol s0 (PActivate sp (pre ++ [w]))))
                          (PTime (p_now s0 + t)))) PRead) = PVal p /\ pt_eq p w.
Proof.
  intros dist tol Hnn Ht s0 sp pre w t d Hi Hsp Hl Hw.
  pose proof (arrival_time _ dist _ _ _ _ _ Hsp Hw) as Harr.
  destruct (time_and_dist _ dist Hnn (p_val s0) (pre ++ [w]) sp Hsp) as (t' & d' & E & _ & _ & _ & Hpos).
  rewrite Hw in E. injection E as <- <-.
  apply (at_the_end dist tol Hnn Ht s0 sp pre w [PTime (p_now s0 + t)] Hi Hsp Hl); [repeat constructor|].
  destruct (moving_start _ dist straight tol s0 sp (pre ++ [w]) Hsp Hi) as (_ & _ & _ & En).
  cbn [prun]. revert En. generalize (fst (pstep dist straight tol s0 (PActivate sp (pre ++ [w])))). intros s1 En.
  cbn [pstep]. rewrite En.
  assert (X : Qleb (p_now s0) (p_now s0 + t) = true) by (apply Qleb_le; lra). rewrite X. cbn [fst p_now]. lra.
Qed.
Print Assumptions C52_is_the_travel_time.

Example C52_ex : exists t d, waypoint_time_and_dist grid o0 wp0 2 = Some (t, d) /\ t == 5 /\ d == 10.
Proof. eexists _, _. split; [vm_compute; reflexivity|]. split; vm_compute; reflexivity. Qed.

(** A state that is not active is what was last assigned. *)
Theorem C18_assigned : forall (P : Type) (dist : P -> P -> Q) along tol s p, p_act s = None ->
  snd (pstep dist along tol (fst (pstep dist along tol s (PAssign p))) PRead) = PVal p.
Proof. intros P dist along tol s p A. cbn [pstep fst]. unfold pread. cbn. rewrite A. reflexivity. Qed.
Print Assumptions C18_assigned.
(** With speed zero and a waypoint the activation raises ZeroDivisionError, and so does
    every read and deactivation after it, until for ever. *)
Theorem C18_speed_zero : forall (P : Type) (dist : P -> P -> Q) along tol s w wps, p_act s = None ->
  let s1 := fst (pstep dist along tol s (PActivate 0 (w :: wps))) in
  snd (pstep dist along tol s (PActivate 0 (w :: wps))) = PZero /\
  forall os, snd (pstep dist along tol (prun dist along tol s1 os) PRead) = PZero /\ snd (pstep dist along tol (prun dist along tol s1 os) PDeactivate) = PZero.
Proof.
  intros P dist along tol s w wps A.
  assert (S1 : pstep dist along tol s (PActivate 0 (w :: wps)) = (mkP (p_now s) (p_val s) (Some (mkT (p_now s) 0 (w :: wps) None)), PZero)) by (cbn [pstep]; rewrite A; reflexivity).
  rewrite S1. cbn [fst snd]. split; [reflexivity|].
  assert (G : forall os s1, (exists t0, p_act s1 = Some (mkT t0 0 (w :: wps) None)) -> exists t0, p_act (prun dist along tol s1 os) = Some (mkT t0 0 (w :: wps) None)).
  { assert (R : forall s1 t0, p_act s1 = Some (mkT t0 0 (w :: wps) None) -> pread dist along tol s1 = (s1, PZero)).
    { intros s1 t0 E. unfold pread. rewrite E. reflexivity. }
    induction os as [|o os IH]; intros s1 (t0 & E); [exists t0; exact E|]. cbn [prun]. apply IH. exists t0.
    destruct o; cbn [pstep]; rewrite ?(R _ _ E), ?E; cbn [fst p_act k_legs]; try exact E; try reflexivity. match goal with |- context [Qleb ?a ?b] => destruct (Qleb a b) end; [reflexivity|exact E]. }
  intro os. destruct (G os (mkP (p_now s) (p_val s) (Some (mkT (p_now s) 0 (w :: wps) None))) (ex_intro _ (p_now s) eq_refl)) as [t0 E].
  cbn [pstep]. unfold pread. rewrite E. cbn. auto.
Qed.
Print Assumptions C18_speed_zero.
(** Without waypoints any speed will do, and the state stays; once time has passed it raises. *)
Theorem C18_no_waypoints : forall (P : Type) (dist : P -> P -> Q) along tol s sp, p_act s = None ->
  snd (pstep dist along tol s (PActivate sp [])) = POk /\
  snd (pstep dist along tol (fst (pstep dist along tol s (PActivate sp []))) PRead) = PVal (p_val s) /\
  forall t, p_now s < t -> snd (pstep dist along tol (prun dist along tol (fst (pstep dist along tol s (PActivate sp []))) [PTime t]) PRead) = PSim.
Proof.
  intros P dist along tol s sp A. cbn [pstep]. rewrite A.
  assert (Z : Qltb (p_now s - p_now s) 0 = false) by (apply Qltb_ge; lra). assert (Y : Qeqb (p_now s - p_now s) 0 = true) by (apply Qeqb_eq; lra).
  assert (R : pread dist along tol (mkP (p_now s) (p_val s) (Some (mkT (p_now s) sp [] None))) = (mkP (p_now s) (p_val s) (Some (mkT (p_now s) sp [] (Some []))), PVal (p_val s))).
  { unfold pread. cbn [p_act do_setup k_legs k_speed k_wps p_now p_val k_start negb]. rewrite andb_false_r. cbn [setup]. rewrite Z, Y. reflexivity. }
  rewrite R. cbn [fst snd]. split; [reflexivity|]. split.
  - unfold pread. cbn [p_act do_setup k_legs p_now p_val k_start]. rewrite Z, Y. reflexivity.
  - intros t T. cbn [prun pstep p_now]. assert (T1 : Qleb (p_now s) t = true) by (apply Qleb_le; lra). rewrite T1. cbn [fst]. unfold pread. cbn [p_act do_setup k_legs p_now p_val k_start].
    assert (T2 : Qltb (t - p_now s) 0 = false) by (apply Qltb_ge; lra). assert (T3 : Qeqb (t - p_now s) 0 = false) by (destruct (Qeqb (t - p_now s) 0) eqn:X; [qbool; lra|reflexivity]).
    rewrite T2, T3. reflexivity.
Qed.
Print Assumptions C18_no_waypoints.
