From Verif Require Import Common PathModel PathSpec PathProofs RadModel RadSpec.

(** The end of the path, for any geometry *)
Lemma at_last (P : Type) (dist : P -> P -> Q) along tol (dist_nonneg : forall p q, 0 <= dist p q) (tol_nonneg : 0 <= tol) s0 sp pre w os :
  p_act s0 = None -> 0 < sp -> sp * tol < dist w (last pre (p_val s0)) -> Forall looks_or_assigns os ->
  let wps := pre ++ [w] in
  let s := prun dist along tol (fst (pstep dist along tol s0 (PActivate sp wps))) os in
  p_now s - p_now s0 == path_length dist (p_val s0) wps / sp ->
  exists f, snd (pstep dist along tol s PRead) = PVal (along (last pre (p_val s0)) w f) /\ f == 1.
Proof.
  intros Hi Hsp Hlast Hf wps s Hend.
  assert (Hpl : path_length dist (p_val s0) wps == path_length dist (p_val s0) pre + dist w (last pre (p_val s0))).
  { unfold wps. rewrite path_length_app. unfold path_length at 2. cbn. lra. }
  assert (Hnn : 0 <= path_length dist (p_val s0) pre) by (apply travelled_nonneg; exact dist_nonneg).
  assert (Hst : 0 <= sp * tol) by (apply Qmult_le_0_compat; lra).
  assert (mulsp : forall x, sp * (x / sp) == x) by (intros; field; lra).
  assert (He : 0 < p_now s - p_now s0).
  { rewrite Hend. apply Qlt_shift_div_l; [exact Hsp|]. lra. }
  assert (Htol : tol < p_now s - p_now s0).
  { rewrite Hend. apply Qlt_shift_div_l; [exact Hsp|]. lra. }
  destruct (position P dist along tol dist_nonneg tol_nonneg s0 sp wps Hi Hsp os Hf He) as (p & i & A & B & C).
  { unfold wps. destruct pre; discriminate. }
  { right. exact Htol. }
  { unfold s in Hend. rewrite Hend. lra. }
  fold s in B, C.
  destruct B as (u & v & f & Hu & Hv & -> & _ & Harc & Hsl). rewrite Hend, mulsp in Harc, Hsl.
  assert (Hlen : length wps = S (length pre)) by (unfold wps; rewrite app_length; cbn; lia).
  assert (Hil : (i < length wps)%nat) by (apply nth_error_Some; congruence).
  assert (Hpre : travelled dist (p_val s0) wps (length pre) == path_length dist (p_val s0) pre).
  { unfold wps, path_length. clear. generalize (p_val s0). induction pre as [|x pre IH]; intro q; [cbn; lra|].
    cbn [length app travelled]. rewrite IH. lra. }
  assert (Hi' : i = length pre).
  { destruct (Nat.eq_dec i (length pre)) as [E|E]; [exact E|exfalso].
    pose proof (travelled_le P dist dist_nonneg wps (p_val s0) (S i) (length pre) ltac:(lia)) as Hle. lra. }
  subst i.
  assert (Hv' : v = w).
  { unfold wps in Hv. rewrite nth_error_app2 in Hv by lia. rewrite Nat.sub_diag in Hv. cbn in Hv. congruence. }
  subst v.
  assert (Hu' : u = last pre (p_val s0)).
  { unfold wps in Hu. clear - Hu. revert Hu. generalize (p_val s0) as q. induction pre as [|x pre IH]; intros q Hu.
    - cbn in *. congruence.
    - cbn [app length] in Hu. change (nth_error (x :: pre ++ [w]) (length pre) = Some u) in Hu. apply IH in Hu.
      subst u. destruct pre; [reflexivity|]. cbn [last]. clear. revert p. induction pre; intro p; [reflexivity|]. cbn [last]. apply IHpre. }
  subst u. exists f. split; [exact A|].
  rewrite Hpre, Hpl in Harc. clear - Harc Hlast Hst.
  assert (E : (f - 1) * dist w (last pre (p_val s0)) == 0) by lra.
  apply Qmult_integral in E. destruct E; lra.
Qed.

Section Rad.
Variable k : Q.
Variables distance bearing : Q * Q -> Q * Q -> Q.
Variable travel : Q * Q -> Q -> Q -> Q * Q.
Notation leg_dist := (leg_dist distance).
Notation leg_point := (leg_point distance bearing travel).
Notation gstep := (gstep distance bearing travel).

(** ** The numbers are taken as degrees *)
Definition leg_deg (l : leg gloc) : leg gloc := mkLeg (l_time l) (l_dist l) (as_deg (l_start l)) (as_deg (l_end l)).
Definition track_deg (t : track gloc) : track gloc := mkT (k_start t) (k_speed t) (map as_deg (k_wps t)) (option_map (map leg_deg) (k_legs t)).
Definition st_deg (s : pst gloc) : pst gloc := mkP (p_now s) (as_deg (p_val s)) (option_map track_deg (p_act s)).
Lemma setup_deg sp : forall wps c, setup leg_dist sp (as_deg c) (map as_deg wps) = map leg_deg (setup leg_dist sp c wps).
Proof. induction wps as [|w wps IH]; intro c; [reflexivity|]. cbn [setup map]. rewrite IH. reflexivity. Qed.
Lemma index_deg tol : forall legs e t i, get_index tol (map leg_deg legs) e t i = option_map (fun x => (leg_deg (fst (fst x)), snd (fst x), snd x)) (get_index tol legs e t i).
Proof.
  induction legs as [|l legs IH]; intros e t i; [reflexivity|]. cbn [map get_index leg_deg l_time]. destruct (Qleb e (t + l_time l + tol)); [reflexivity|apply IH].
Qed.
Lemma point_deg p q f : leg_point (as_deg p) (as_deg q) f = as_deg (leg_point p q f) /\ as_deg (leg_point p q f) = leg_point p q f.
Proof. unfold RadModel.leg_point, raw, as_deg. cbn. destruct (travel _ _ _). split; reflexivity. Qed.
Lemma do_setup_deg s t : do_setup leg_dist (st_deg s) (track_deg t) = option_map track_deg (do_setup leg_dist s t).
Proof.
  unfold do_setup. cbn [track_deg k_legs k_speed k_wps]. destruct (k_legs t) as [l|] eqn:L; cbn [option_map]; [unfold track_deg; rewrite L; reflexivity|].
  replace (match map as_deg (k_wps t) with [] => true | _ => false end) with (match k_wps t with [] => true | _ => false end) by (destruct (k_wps t); reflexivity).
  destruct (Qeqb (k_speed t) 0 && negb _); [reflexivity|]. cbn [option_map]. unfold track_deg. cbn [k_start k_speed k_wps k_legs option_map st_deg p_now p_val]. rewrite setup_deg. reflexivity.
Qed.
Lemma read_deg s : pread leg_dist leg_point geo_tol (st_deg s) = (st_deg (fst (pread leg_dist leg_point geo_tol s)), out_deg (snd (pread leg_dist leg_point geo_tol s))).
Proof.
  destruct s as [now v [t|]]; [|reflexivity]. pose proof (do_setup_deg (mkP now v (Some t)) t) as E.
  change (st_deg (mkP now v (Some t))) with (mkP now (as_deg v) (Some (track_deg t))) in *. unfold pread. cbn [p_act p_now p_val]. rewrite E. clear E.
  destruct (do_setup leg_dist (mkP now v (Some t)) t) as [t'|]; cbn [option_map]; [|reflexivity].
  change (k_start (track_deg t)) with (k_start t).
  destruct (Qltb (now - k_start t) 0); [reflexivity|]. destruct (Qeqb (now - k_start t) 0); [reflexivity|].
  replace (match k_legs (track_deg t') with Some l => l | None => [] end) with (map leg_deg (match k_legs t' with Some l => l | None => [] end)) by (unfold track_deg; cbn [k_legs]; destruct (k_legs t'); reflexivity).
  rewrite index_deg. destruct (get_index geo_tol _ _ 0 0) as [[[l i] t0]|]; cbn [option_map fst snd]; [|reflexivity].
  cbn [leg_deg l_time l_start l_end]. destruct (Qeqb (l_time l) 0); [reflexivity|].
  destruct (point_deg (l_start l) (l_end l) ((now - k_start t - t0) / l_time l)) as [P1 P2]. rewrite P1. reflexivity.
Qed.
Lemma step_deg s o : gstep (st_deg s) (op_deg o) = (st_deg (fst (gstep s o)), out_deg (snd (gstep s o))).
Proof.
  unfold RadModel.gstep. destruct o as [sp wps| | | |p|t]; cbn [op_deg pstep].
  - destruct s as [now v [t|]]; [reflexivity|]. cbn [st_deg p_act p_now p_val option_map].
    pose proof (read_deg (mkP now v (Some (mkT now sp wps None)))) as E. change (st_deg (mkP now v (Some (mkT now sp wps None)))) with (mkP now (as_deg v) (Some (mkT now sp (map as_deg wps) None))) in E. rewrite E.
    destruct (pread leg_dist leg_point geo_tol (mkP now v (Some (mkT now sp wps None)))) as [s1 r]. cbn [fst snd]. destruct r; reflexivity.
  - destruct s as [now v [t|]] eqn:S; [|reflexivity]. cbn [st_deg p_act option_map].
    pose proof (read_deg s) as E. rewrite S in E. change (st_deg (mkP now v (Some t))) with (mkP now (as_deg v) (Some (track_deg t))) in *. rewrite E.
    destruct (pread leg_dist leg_point geo_tol (mkP now v (Some t))) as [s1 r]. cbn [fst snd]. destruct r; reflexivity.
  - apply read_deg.
  - destruct s as [now v [t|]]; [|reflexivity]. cbn [st_deg p_act option_map p_now]. cbn [track_deg k_legs]. destruct (k_legs t) as [legs|] eqn:L; cbn [option_map]; [|cbn [fst snd]; unfold st_deg, track_deg; cbn [p_now p_val p_act option_map]; rewrite ?L; reflexivity].
    rewrite index_deg. cbn [k_start track_deg]. destruct (get_index geo_tol legs (now - k_start t) 0 0) as [[[l i] t0]|]; cbn [option_map fst snd]; unfold st_deg, track_deg; cbn [p_now p_val p_act option_map k_legs k_wps]; rewrite L; cbn [option_map out_deg]; [|reflexivity].
    rewrite skipn_map. reflexivity.
  - reflexivity.
  - cbn [st_deg p_now]. destruct (Qleb (p_now s) t); reflexivity.
Qed.
Lemma run_deg : forall os s, answers gstep (st_deg s) (map op_deg os) = map out_deg (answers gstep s os).
Proof. induction os as [|o os IH]; intro s; [reflexivity|]. cbn [map answers]. rewrite step_deg. cbn [fst snd]. rewrite IH. reflexivity. Qed.
Lemma moved_deg s t p : p_act s = Some t -> k_start t < p_now s -> snd (gstep s PRead) = PVal p -> g_rad p = false.
Proof.
  intros A L R. unfold RadModel.gstep in R. cbn [pstep] in R. unfold pread in R. rewrite A in R. destruct (do_setup _ _ _) as [t'|]; [|discriminate]. cbn zeta in R.
  assert (N : Qeqb (p_now s - k_start t) 0 = false). { destruct (Qeqb _ 0) eqn:E; [|reflexivity]. apply Qeqb_eq in E. lra. }
  destruct (Qltb (p_now s - k_start t) 0); [discriminate|]. rewrite N in R. destruct (get_index _ _ _ _ _) as [[[l i] t0]|]; [|discriminate]. destruct (Qeqb (l_time l) 0); [discriminate|].
  cbn [snd] in R. injection R as <-. unfold RadModel.leg_point. destruct (travel _ _ _). reflexivity.
Qed.

Lemma tick s t : Qleb (p_now s) t = true -> pstep leg_dist leg_point geo_tol s (PTime t) = (mkP t (p_val s) (p_act s), POk).
Proof. intro X. cbn [pstep]. rewrite X. reflexivity. Qed.

(** ** In degrees *)
Lemma minus_deg a b : g_rad a = false -> g_rad b = false -> minus k distance a b = distance (raw a) (raw b).
Proof. intros A B. unfold minus, to_degrees. rewrite A, B. reflexivity. Qed.
Lemma length_deg : (forall p q, distance p q == distance q p) -> forall wps a, g_rad a = false -> Forall (fun w => g_rad w = false) wps ->
  path_length (minus k distance) a wps == path_length leg_dist a wps.
Proof.
  intros Sym wps. unfold path_length. induction wps as [|w wps IH]; intros a A F; [cbn; reflexivity|]. inversion F; subst. cbn [length travelled].
  rewrite IH by assumption. rewrite minus_deg by assumption. unfold RadModel.leg_dist. rewrite (Sym (raw w) (raw a)). reflexivity.
Qed.
Lemma arrival : (forall p q, 0 <= distance p q) -> (forall p q, distance p q == distance q p) ->
  forall s0 sp pre w, let u := last pre (p_val s0) in
  (forall d, d == distance (raw u) (raw w) -> same (travel (raw u) (bearing (raw u) (raw w)) d) (raw w)) -> p_act s0 = None -> 0 < sp -> g_rad (p_val s0) = false -> Forall (fun g => g_rad g = false) (pre ++ [w]) ->
  sp * geo_tol < distance (raw u) (raw w) ->
  exists t d p, time_and_dist k distance (p_val s0) (pre ++ [w]) sp = Some (t, d) /\
    answers gstep s0 [PActivate sp (pre ++ [w]); PTime (p_now s0 + t); PRead] = [POk; POk; PVal p] /\
    same (place k p) (place k w) /\ g_alt p == g_alt w.
Proof.
  intros Hnn Sym s0 sp pre w u0 Reach Hi Hsp Hr Hf Hl.
  subst u0. assert (Ln : forall p q, 0 <= leg_dist p q) by (intros; unfold RadModel.leg_dist; apply Hnn).
  assert (Mn : forall p q, 0 <= minus k distance p q) by (intros; unfold minus; apply Hnn).
  destruct (PathProofs.time_and_dist _ _ Mn (p_val s0) (pre ++ [w]) sp Hsp) as (t & d & E & D & T & _ & T0).
  rewrite (length_deg Sym _ _ Hr Hf) in D.
  destruct (moving_start _ leg_dist leg_point geo_tol s0 sp (pre ++ [w]) Hsp Hi) as (O & _ & _ & En).
  assert (Tl : 0 <= geo_tol) by (unfold geo_tol; lra).
  assert (X : Qleb (p_now s0) (p_now s0 + t) = true) by (apply Qleb_le; lra).
  assert (G : pstep leg_dist leg_point geo_tol (fst (pstep leg_dist leg_point geo_tol s0 (PActivate sp (pre ++ [w])))) (PTime (p_now s0 + t)) =
              (mkP (p_now s0 + t) (p_val (fst (pstep leg_dist leg_point geo_tol s0 (PActivate sp (pre ++ [w]))))) (p_act (fst (pstep leg_dist leg_point geo_tol s0 (PActivate sp (pre ++ [w]))))), POk)).
  { apply tick. rewrite En. exact X. }
  destruct (at_last _ leg_dist leg_point geo_tol Ln Tl s0 sp pre w [PTime (p_now s0 + t)] Hi Hsp) as (f & R & F1).
  - exact Hl.
  - repeat constructor.
  - cbn [prun]. rewrite G. cbn [fst p_now]. assert (t == path_length leg_dist (p_val s0) (pre ++ [w]) / sp); [|lra].
    rewrite <- D, <- T. field. lra.
  - exists t, d, (leg_point (last pre (p_val s0)) w f). split; [exact E|]. cbn [prun] in R. cbn [answers]. unfold RadModel.gstep.
    rewrite G in *. cbn [fst snd] in *. rewrite R. split; [f_equal; exact O|].
    assert (Rw : g_rad w = false) by (apply Forall_app in Hf; destruct Hf as [_ Hw]; inversion Hw; assumption).
    unfold RadModel.leg_point. destruct (travel _ _ _) as [lat lon] eqn:Tr. unfold place. rewrite Rw. cbn [g_rad g_lat g_lon g_alt].
    assert (Q1 : same (lat, lon) (raw w)). { rewrite <- Tr. apply Reach. rewrite F1. lra. }
    destruct Q1 as [Q1 Q2]. cbn [fst snd raw] in Q1, Q2. unfold same. cbn [fst snd]. rewrite Q1, Q2, F1. repeat split; lra.
Qed.

(** ** In radians, along the equator *)
Definition origin (now : Q) : pst gloc := mkP now (mkG 0 0 0 true) None.
Definition east : gloc := mkG 0 1 0 true.
Section Equator.
Variables c now sp : Q.
Hypothesis Hk : 1 < k. Hypothesis Hk2 : k <= 180. Hypothesis Hc : 0 < c. Hypothesis Hsp : 0 < sp.
Hypothesis nonneg : forall p q, 0 <= distance p q.
Hypothesis equator : forall p q x, same p (0, 0) -> same q (0, x) -> 0 <= x <= 180 -> distance p q == c * x /\ distance q p == c * x.
Lemma raw_leg : leg_dist east (p_val (origin now)) == c.
Proof. unfold RadModel.leg_dist. cbn [origin p_val]. destruct (equator (raw (mkG 0 0 0 true)) (raw east) 1) as [E _]; [split; reflexivity|split; reflexivity|lra|]. rewrite E. lra. Qed.
Lemma real_leg : minus k distance east (p_val (origin now)) == c * k.
Proof.
  unfold minus. cbn [origin p_val]. destruct (equator (raw (to_degrees k (mkG 0 0 0 true))) (raw (to_degrees k east)) k) as [_ E].
  - unfold same, raw, to_degrees. cbn. split; lra.
  - unfold same, raw, to_degrees. cbn. split; lra.
  - lra.
  - exact E.
Qed.
Lemma wait_fails : sp * geo_tol < c * (k - 1) -> exists t d, time_and_dist k distance (p_val (origin now)) [east] sp = Some (t, d) /\
  answers gstep (origin now) [PActivate sp [east]; PTime (now + t); PRead; PDeactivate] = [POk; POk; PSim; PSim].
Proof.
  intro L. assert (Ln : forall p q, 0 <= leg_dist p q) by (intros; unfold RadModel.leg_dist; apply nonneg).
  assert (Mn : forall p q, 0 <= minus k distance p q) by (intros; unfold minus; apply nonneg).
  destruct (PathProofs.time_and_dist _ _ Mn (p_val (origin now)) [east] sp Hsp) as (t & d & E & D & T & _ & T0).
  exists t, d. split; [exact E|].
  assert (D2 : t * sp == c * k). { rewrite T, D. unfold path_length. cbn [length travelled]. rewrite real_leg. lra. }
  destruct (moving_start _ leg_dist leg_point geo_tol (origin now) sp [east] Hsp eq_refl) as (O & _ & _ & En). cbn [origin p_now] in En.
  assert (X : Qleb now (now + t) = true) by (apply Qleb_le; lra).
  assert (G : pstep leg_dist leg_point geo_tol (fst (pstep leg_dist leg_point geo_tol (origin now) (PActivate sp [east]))) (PTime (now + t)) =
              (mkP (now + t) (p_val (fst (pstep leg_dist leg_point geo_tol (origin now) (PActivate sp [east])))) (p_act (fst (pstep leg_dist leg_point geo_tol (origin now) (PActivate sp [east])))), POk)).
  { apply tick. rewrite En. exact X. }
  assert (Tp : 0 < t). { destruct (Qlt_le_dec 0 t) as [Y|Y]; [exact Y|]. assert (0 < c * k) by (apply Qmult_lt_0_compat; lra). assert (t * sp <= 0 * sp) by (apply Qmult_le_compat_r; lra). lra. }
  assert (PL : path_length leg_dist (p_val (origin now)) [east] / sp + geo_tol < t).
  { assert (PE : path_length leg_dist (p_val (origin now)) [east] == c) by (unfold path_length; cbn [length travelled]; rewrite raw_leg; lra).
    apply (Qmult_lt_r _ _ sp Hsp). rewrite D2, PE. assert (Y : (c / sp + geo_tol) * sp == c + sp * geo_tol) by (field; lra). rewrite Y. lra. }
  destruct (overdue_forever _ leg_dist leg_point geo_tol Ln (origin now) sp [east] eq_refl Hsp [PTime (now + t)] []) as [R1 R2].
  - repeat constructor.
  - cbn [prun]. rewrite G. cbn [fst p_now origin]. lra.
  - cbn [prun]. rewrite G. cbn [fst p_now]. cbn [origin p_now] in *. lra.
  - destruct (overdue_forever _ leg_dist leg_point geo_tol Ln (origin now) sp [east] eq_refl Hsp [PTime (now + t)] [PRead]) as [_ R3].
    + repeat constructor.
    + cbn [prun]. rewrite G. cbn [fst p_now origin]. lra.
    + cbn [prun]. rewrite G. cbn [fst p_now]. cbn [origin p_now] in *. lra.
    + cbn [prun] in R1, R2, R3. cbn [answers]. unfold RadModel.gstep. rewrite G in *. cbn [fst snd] in *. rewrite R1, R3. f_equal. exact O.
Qed.
Lemma wrong_place : (forall d, d == distance (0, 0) (0, 1) -> same (travel (0, 0) (bearing (0, 0) (0, 1)) d) (0, 1)) -> sp * geo_tol < c ->
  exists p, answers gstep (origin now) [PActivate sp [east]; PTime (now + c / sp); PRead] = [POk; POk; PVal p] /\
    same (place k p) (0, 1) /\ ~ same (place k p) (place k east).
Proof.
  intros Reach L. assert (Ln : forall p q, 0 <= leg_dist p q) by (intros; unfold RadModel.leg_dist; apply nonneg).
  assert (Tl : 0 <= geo_tol) by (unfold geo_tol; lra).
  assert (C0 : 0 <= c / sp) by (apply Qle_shift_div_l; lra).
  destruct (moving_start _ leg_dist leg_point geo_tol (origin now) sp [east] Hsp eq_refl) as (O & _ & _ & En). cbn [origin p_now] in En.
  assert (X : Qleb now (now + c / sp) = true) by (apply Qleb_le; lra).
  assert (G : pstep leg_dist leg_point geo_tol (fst (pstep leg_dist leg_point geo_tol (origin now) (PActivate sp [east]))) (PTime (now + c / sp)) =
              (mkP (now + c / sp) (p_val (fst (pstep leg_dist leg_point geo_tol (origin now) (PActivate sp [east])))) (p_act (fst (pstep leg_dist leg_point geo_tol (origin now) (PActivate sp [east])))), POk)).
  { apply tick. rewrite En. exact X. }
  assert (Q0 : sp * geo_tol < leg_dist east (last [] (p_val (origin now)))) by (cbn [last]; rewrite raw_leg; exact L).
  assert (PE : path_length leg_dist (p_val (origin now)) [east] == c) by (unfold path_length; cbn [length travelled]; rewrite raw_leg; lra).
  destruct (at_last _ leg_dist leg_point geo_tol Ln Tl (origin now) sp [] east [PTime (now + c / sp)] eq_refl Hsp Q0) as (f & R & F1).
  { repeat constructor. }
  { cbn [app prun]. rewrite G. cbn [fst p_now]. rewrite PE. cbn [origin p_now]. lra. }
  exists (leg_point (mkG 0 0 0 true) east f). cbn [app prun last origin p_val] in R. cbn [answers]. unfold RadModel.gstep. unfold origin in *. rewrite G in *. cbn [fst snd] in *. rewrite R. split; [f_equal; exact O|].
  unfold RadModel.leg_point. destruct (travel _ _ _) as [lat lon] eqn:Tr.
  assert (Q1 : same (lat, lon) (raw east)). { rewrite <- Tr. apply Reach. rewrite F1. change (raw (mkG 0 0 0 true)) with (0%Q, 0%Q). change (raw east) with (0%Q, 1%Q). lra. }
  destruct Q1 as [Q1 Q2]. cbn [fst snd raw east g_lat g_lon] in Q1, Q2. unfold same, place. cbn [g_rad g_lat g_lon fst snd east]. rewrite Q1, Q2. split; [split; lra|]. intros [_ Y]. lra.
Qed.
End Equator.
End Rad.
