(** Proofs about interrupted and resumed journeys. *)
From Verif Require Import Common PathModel PathSpec PathProofs TripSpec.
From Coq Require Import Qminmax.

Section TripProofs.
Variable P : Type.
Variable dist : P -> P -> Q.
Variable along : P -> P -> Q -> P.
Variable tol : Q.
Variable same : P -> P -> Prop.
Hypothesis geo : geometry dist along same.
Hypothesis tol_nonneg : 0 <= tol.
Local Notation pread := (pread dist along tol).
Local Notation pstep := (pstep dist along tol).
Local Notation prun := (prun dist along tol).
Local Notation travelled := (travelled dist).
Local Notation path_length := (path_length dist).
Local Notation nonneg := (g_nonneg _ _ _ _ geo).

Lemma travelled_0 a wps : travelled a wps 0 == 0.
Proof. destruct wps; cbn; lra. Qed.

(** The rest of a path. *)
Lemma travelled_skip : forall i wps a u m, nth_error (a :: wps) i = Some u ->
  travelled a wps (i + m) == travelled a wps i + travelled u (skipn i wps) m.
Proof.
  induction i as [|i IH]; intros wps a u m Hu; cbn in Hu.
  - injection Hu as <-. cbn [plus skipn]. rewrite travelled_0. lra.
  - destruct wps as [|w wps]; [destruct i; discriminate|]. cbn [plus skipn]. cbn [PathSpec.travelled].
    rewrite (IH wps w u m Hu). lra.
Qed.
Lemma skipn_cons : forall i (wps : list P) v, nth_error wps i = Some v -> skipn i wps = v :: skipn (S i) wps.
Proof.
  induction i as [|i IH]; intros wps v H; destruct wps as [|w wps]; try discriminate.
  - injection H as <-. reflexivity.
  - cbn in H. cbn [skipn]. rewrite (IH wps v H). reflexivity.
Qed.
Lemma nth_skip : forall i (wps : list P) n, nth_error (skipn i wps) n = nth_error wps (i + n).
Proof. induction i as [|i IH]; intros wps n; destruct wps; cbn; try reflexivity; [destruct n; reflexivity|apply IH]. Qed.

(** From a place on leg [i]: the lengths of the rest. *)
Lemma place_lengths a wps x p i u v f : nth_error (a :: wps) i = Some u -> nth_error wps i = Some v ->
  same p (along u v f) -> 0 <= f <= 1 -> travelled a wps i + f * dist v u == x ->
  dist v p == (1 - f) * dist v u /\
  forall m, travelled p (skipn i wps) (S m) == travelled a wps (i + S m) - x.
Proof.
  intros Hu Hv Hp Hf Hx.
  assert (D : dist v p == (1 - f) * dist v u).
  { rewrite (g_dist _ _ _ _ geo _ _ v Hp). apply (g_shrinks _ _ _ _ geo). exact Hf. }
  split; [exact D|]. intro m. rewrite (travelled_skip i wps a u (S m) Hu). rewrite (skipn_cons i wps v Hv).
  cbn [PathSpec.travelled]. rewrite D, <- Hx. lra.
Qed.
Lemma place_length a wps x p rest : place dist along same a wps x p rest ->
  path_length p rest == path_length a wps - x /\ x < path_length a wps /\ rest <> [] /\
  0 < travelled p rest 1.
Proof.
  intros (i & u & v & f & Hu & Hv & Hp & Hf & Hx & Hlt & ->).
  destruct (place_lengths _ _ _ _ _ _ _ _ Hu Hv Hp Hf Hx) as [D L].
  assert (Hi : (i < length wps)%nat) by (apply nth_error_Some; congruence).
  unfold PathSpec.path_length. rewrite skipn_length.
  replace (length wps - i)%nat with (S (length wps - i - 1)) by lia. rewrite L.
  replace (i + S (length wps - i - 1))%nat with (length wps) by lia.
  split; [reflexivity|]. split.
  - pose proof (travelled_le _ dist nonneg wps a (S i) (length wps) ltac:(lia)). lra.
  - split; [rewrite (skipn_cons i wps v Hv); discriminate|]. rewrite (L 0%nat).
    replace (i + 1)%nat with (S i) by lia. lra.
Qed.

(** A leg of the rest is a leg of the path. *)
Lemma leg_of_path a wps x p rest k s slack q : place dist along same a wps x p rest ->
  on_leg dist along p rest k s slack q ->
  exists i q', same q q' /\ on_leg dist along a wps i (x + s) slack q' /\ skipn i wps = skipn k rest /\
    (i + length rest = length wps + k)%nat /\
    forall m, travelled p rest (S m) + x == travelled a wps (i - k + S m).
Proof.
  intros (i & u & v & f & Hu & Hv & Hp & Hf & Hx & Hlt & ->) (u' & v' & g & Hu' & Hv' & -> & Hg & Hs & Hsl).
  destruct (place_lengths _ _ _ _ _ _ _ _ Hu Hv Hp Hf Hx) as [D L].
  assert (Hi : (i < length wps)%nat) by (apply nth_error_Some; congruence).
  exists (i + k)%nat.
  assert (Sk : skipn (i + k) wps = skipn k (skipn i wps)).
  { clear. revert wps. induction i as [|i IH]; intro wps; [reflexivity|]. destruct wps; cbn; [destruct k; reflexivity|apply IH]. }
  assert (Hvk : nth_error wps (i + k) = Some v') by (rewrite nth_skip in Hv'; exact Hv').
  assert (HS : forall m, travelled p (skipn i wps) (S m) + x == travelled a wps (i + k - k + S m)).
  { intro m. rewrite L. replace (i + k - k + S m)%nat with (i + S m)%nat by lia. lra. }
  destruct k as [|k].
  - cbn in Hu'. injection Hu' as <-. rewrite (skipn_cons i wps v Hv) in Hv'. cbn in Hv'. injection Hv' as <-.
    exists (along u v (f + g * (1 - f))). split.
    { apply (g_trans _ _ _ _ geo) with (along (along u v f) v g).
      - apply (g_along _ _ _ _ geo); [exact Hp|reflexivity].
      - apply (g_rest _ _ _ _ geo); [exact Hf|lra]. }
    split.
    { exists u, v, (f + g * (1 - f)). rewrite !Nat.add_0_r. split; [exact Hu|]. split; [exact Hv|]. split; [reflexivity|].
      rewrite travelled_0 in Hs. rewrite L in Hsl. replace (i + 1)%nat with (S i) in Hsl by lia.
      split; [|split].
      - destruct (Qlt_le_dec 0 f) as [Y|Y]; [|assert (f == 0) by lra; rewrite H; lra].
        assert (0 <= g * (1 - f)) by (apply Qmult_le_0_compat; lra). lra.
      - rewrite D in Hs. rewrite <- Hs, <- Hx. ring.
      - lra. }
    split; [rewrite Sk; reflexivity|]. split; [rewrite skipn_length; lia|exact HS].
  - assert (Hur : nth_error (a :: wps) (i + S k) = Some u').
    { replace (i + S k)%nat with (S (i + k)) by lia. cbn [nth_error]. cbn [nth_error] in Hu'. rewrite nth_skip in Hu'. exact Hu'. }
    exists (along u' v' g). split; [apply (g_refl _ _ _ _ geo)|]. split.
    { exists u', v', g. split; [exact Hur|]. split; [exact Hvk|]. split; [reflexivity|]. split; [exact Hg|].
      rewrite L in Hs. rewrite L in Hsl. replace (i + S (S k))%nat with (S (i + S k)) in Hsl by lia. split; lra. }
    split; [exact Sk|]. split; [rewrite skipn_length; lia|exact HS].
Qed.

(** Activated again at a place. *)
Section Resumed.
Variables (a : P) (wps rest : list P) (x sp : Q) (s : pst P).
Hypothesis Hplace : place dist along same a wps x (p_val s) rest.
Hypothesis idle : p_act s = None.
Hypothesis Hsp : 0 < sp.

Lemma resumed_read os : Forall looks_or_assigns os ->
  let s1 := prun (fst (pstep s (PActivate sp rest))) os in
  p_now s < p_now s1 ->
  x + sp * (p_now s1 - p_now s) <= path_length a wps + sp * tol ->
  exists p q i, snd (pread s1) = PVal p /\ p_val (fst (pread s1)) = p /\ same p q /\
    p_act s1 <> None /\
    on_leg dist along a wps i (x + sp * (p_now s1 - p_now s)) (sp * tol) q /\
    (forall j, (j < i)%nat -> travelled a wps (S j) < x + sp * (p_now s1 - p_now s)) /\
    snd (pstep s1 PRemaining) = PRest (skipn i wps).
Proof.
  intros Hf s1 He0 Hle. assert (He : 0 < p_now s1 - p_now s) by lra.
  destruct (place_length _ _ _ _ _ Hplace) as (PL & Hx & Hne & H1).
  destruct (moving_start _ dist along tol s sp rest Hsp idle) as (_ & M & _ & _).
  destruct (run_keeps _ dist along tol _ _ _ _ os _ M Hf) as [Hm _]. fold s1 in Hm.
  assert (Hle' : p_now s1 - p_now s <= path_length (p_val s) rest / sp + tol).
  { rewrite PL. apply Qmult_le_l with sp; [exact Hsp|].
    assert (E : sp * ((path_length a wps - x) / sp + tol) == path_length a wps - x + sp * tol) by (field; lra).
    rewrite E. lra. }
  destruct (read_position _ dist along tol nonneg tol_nonneg _ _ _ _ s1 Hsp Hm He Hne (or_introl H1) Hle')
    as (p & k & R1 & R2 & OL & Hj & Rem).
  destruct (leg_of_path _ _ _ _ _ _ _ _ _ Hplace OL) as (i & q & Sq & OL' & Sk & Len & Tr).
  exists p, q, i. split; [exact R1|]. split; [exact R2|]. split; [exact Sq|]. split; [destruct Hm as [Ha _]; rewrite Ha; discriminate|].
  split; [exact OL'|]. split; [|rewrite Sk; exact Rem].
  intros j Hlt.
  assert (Hmove : 0 < sp * (p_now s1 - p_now s)) by (apply Qmult_lt_0_compat; lra).
  assert (Htol : 0 <= sp * tol) by (apply Qmult_le_0_compat; lra).
  destruct Hplace as (i0 & u & v & f & Hu & Hv & Hp & Hf0 & Hx0 & Hlt0 & ->).
  assert (Ei : i = (i0 + k)%nat).
  { assert (Hi0 : (i0 < length wps)%nat) by (apply nth_error_Some; congruence). rewrite skipn_length in Len. lia. }
  subst i.
  destruct (Nat.lt_ge_cases j i0) as [C|C].
  - pose proof (travelled_le _ dist nonneg wps a (S j) i0 ltac:(lia)) as T.
    assert (0 <= f * dist v u) by (apply Qmult_le_0_compat; [lra|apply nonneg]). lra.
  - specialize (Hj (j - i0)%nat ltac:(lia)). pose proof (Tr (j - i0)%nat) as T.
    replace (i0 + k - k + S (j - i0))%nat with (S j) in T by lia. lra.
Qed.

(** Where an interruption leaves it. *)
Lemma interrupted os os' rest' : Forall looks_or_assigns os -> Forall looks os' ->
  let s1 := prun (fst (pstep s (PActivate sp rest))) os in
  let x' := x + sp * (p_now s1 - p_now s) in
  p_now s < p_now s1 -> x' < path_length a wps -> clear_of_corners dist a wps x' (sp * tol) ->
  snd (pstep s1 PDeactivate) = POk /\ (exists l, snd (pstep s1 PRemaining) = PRest l) /\
  (snd (pstep s1 PRemaining) = PRest rest' ->
   let s2 := prun (fst (pstep s1 PDeactivate)) os' in
   p_act s2 = None /\ place dist along same a wps x' (p_val s2) rest').
Proof.
  intros Hf Hf' s1 x' He Hend Hclear.
  assert (Htol : 0 <= sp * tol) by (apply Qmult_le_0_compat; lra).
  destruct (resumed_read os Hf He ltac:(fold s1 x'; lra)) as (p & q & i & R1 & R2 & Sq & Act & OL & Hj & Rem).
  fold s1 in R1, R2, Act, OL, Hj, Rem. fold x' in OL, Hj.
  assert (De : pstep s1 PDeactivate = (mkP (p_now (fst (pread s1))) p None, POk)).
  { cbn [PathModel.pstep]. destruct (p_act s1); [|congruence]. destruct (pread s1) as [s1' r]. cbn in R1, R2. subst r. cbn. rewrite R2. reflexivity. }
  split; [rewrite De; reflexivity|]. split; [eexists; exact Rem|]. intros Er s2.
  rewrite Rem in Er. injection Er as <-.
  destruct (frozen_after _ dist along tol os' (fst (pstep s1 PDeactivate)) ltac:(rewrite De; reflexivity) Hf') as [F1 F2].
  split; [exact F1|]. unfold s2. rewrite F2, De. cbn [fst p_val].
  destruct OL as (u & v & f & Hu & Hv & -> & Hf0 & Hs & Hsl).
  pose proof (travelled_S _ dist wps a i u v Hu Hv) as TS.
  assert (Hi : (i < length wps)%nat) by (apply nth_error_Some; congruence).
  assert (Hlt : x' < travelled a wps (S i)) by (destruct (Hclear (S i) ltac:(lia)); [assumption|lra]).
  exists i, u, v, f. split; [exact Hu|]. split; [exact Hv|]. split; [exact Sq|]. split; [|split; [exact Hs|split; [exact Hlt|reflexivity]]].
  split; [lra|]. destruct (Qlt_le_dec 1 f) as [Y|Y]; [|exact Y]. exfalso.
  assert (0 <= (f - 1) * dist v u) by (apply Qmult_le_0_compat; [lra|apply nonneg]). lra.
Qed.
End Resumed.

(** A trip is always at a place of the path. *)
Lemma trip_place s0 wps x s rest : p_act s0 = None -> 0 < travelled (p_val s0) wps 1 ->
  trip dist along tol s0 wps x s rest ->
  p_act s = None /\ place dist along same (p_val s0) wps x (p_val s) rest.
Proof.
  intros Hi H1 T. induction T as [|x s rest sp os rest' os' T IH Hsp Hf Hf' s1 x' He Hend Hclear Hrem].
  - split; [exact Hi|]. destruct wps as [|w wps]; [cbn in H1; lra|].
    exists 0%nat, (p_val s0), w, 0. split; [reflexivity|]. split; [reflexivity|].
    split; [apply (g_sym _ _ _ _ geo), (g_from _ _ _ _ geo)|]. split; [lra|]. split; [cbn; lra|]. split; [exact H1|reflexivity].
  - destruct IH as [IH1 IH2].
    destruct (interrupted _ _ _ _ _ _ IH2 IH1 Hsp os os' rest' Hf Hf' He Hend Hclear) as (_ & _ & G). apply G. exact Hrem.
Qed.

(** How far a trip has come. *)
Lemma trip_far s0 wps x s rest : p_act s0 = None -> 0 < travelled (p_val s0) wps 1 ->
  trip dist along tol s0 wps x s rest -> 0 <= x < path_length (p_val s0) wps.
Proof.
  intros Hi H1 T. destruct (trip_place _ _ _ _ _ Hi H1 T) as [_ Hp]. pose proof (place_length _ _ _ _ _ Hp) as (_ & L & _ & _).
  split; [|exact L]. destruct Hp as (i & u & v & f & Hu & Hv & _ & Hf & Hx & _).
  pose proof (travelled_nonneg _ dist nonneg wps (p_val s0) i).
  assert (0 <= f * dist v u) by (apply Qmult_le_0_compat; [lra|apply nonneg]). lra.
Qed.

(** Clear of corners the leg and the place on it are determined. *)
Lemma same_leg a wps s slack i j p q : 0 <= slack -> 0 < s -> clear_of_corners dist a wps s slack ->
  on_leg dist along a wps i s slack p -> (forall k, (k < i)%nat -> travelled a wps (S k) < s) ->
  on_leg dist along a wps j s slack q -> (forall k, (k < j)%nat -> travelled a wps (S k) < s) ->
  same p q.
Proof.
  intros Hsl Hs Hc (u & v & f & Hu & Hv & -> & Hf & Hx & Hle) Hi (u' & v' & g & Hu' & Hv' & -> & Hg & Hx' & Hle') Hj.
  assert (Li : (i < length wps)%nat) by (apply nth_error_Some; congruence).
  assert (Lj : (j < length wps)%nat) by (apply nth_error_Some; congruence).
  assert (Ci : s < travelled a wps (S i)) by (destruct (Hc (S i) ltac:(lia)); [assumption|lra]).
  assert (Cj : s < travelled a wps (S j)) by (destruct (Hc (S j) ltac:(lia)); [assumption|lra]).
  assert (E : i = j).
  { destruct (Nat.lt_trichotomy i j) as [C|[C|C]]; [|exact C|]; exfalso.
    - pose proof (Hj i C). lra.
    - pose proof (Hi j C). lra. }
  subst j. rewrite Hu in Hu'. injection Hu' as <-. rewrite Hv in Hv'. injection Hv' as <-.
  apply (g_along _ _ _ _ geo); [apply (g_refl _ _ _ _ geo)|].
  assert (D : 0 < dist v u).
  { pose proof (nonneg v u). destruct (Qlt_le_dec 0 (dist v u)) as [Y|Y]; [exact Y|]. exfalso.
    assert (Z : dist v u == 0) by lra. pose proof (travelled_S _ dist wps a i u v Hu Hv). rewrite Z in *. lra. }
  apply Qmult_inj_r with (dist v u); lra.
Qed.

Lemma resumed_same s0 wps x s rest sp os sp0 os0 : p_act s0 = None -> 0 < travelled (p_val s0) wps 1 ->
  trip dist along tol s0 wps x s rest -> 0 < sp -> 0 < sp0 -> Forall looks_or_assigns os -> Forall looks_or_assigns os0 ->
  let s1 := prun (fst (pstep s (PActivate sp rest))) os in
  let r1 := prun (fst (pstep s0 (PActivate sp0 wps))) os0 in
  p_now s < p_now s1 -> p_now s0 < p_now r1 ->
  let y := x + sp * (p_now s1 - p_now s) in
  sp0 * (p_now r1 - p_now s0) == y -> y < path_length (p_val s0) wps ->
  clear_of_corners dist (p_val s0) wps y (sp * tol) -> clear_of_corners dist (p_val s0) wps y (sp0 * tol) ->
  exists p q, snd (pstep s1 PRead) = PVal p /\ snd (pstep r1 PRead) = PVal q /\ same p q.
Proof.
  intros Hi H1 T Hsp Hsp0 Hf Hf0 s1 r1 He He0 y Ey Hend C1 C0.
  destruct (trip_place _ _ _ _ _ Hi H1 T) as [I P1].
  assert (T0 := trip_start _ dist along tol s0 wps). destruct (trip_place _ _ _ _ _ Hi H1 T0) as [_ P0].
  assert (Htol : 0 <= sp * tol) by (apply Qmult_le_0_compat; lra).
  assert (Htol0 : 0 <= sp0 * tol) by (apply Qmult_le_0_compat; lra).
  destruct (resumed_read _ _ _ _ _ _ P1 I Hsp os Hf He ltac:(fold s1 y; lra)) as (p & q & i & R1 & _ & Sq & _ & OL & Hj & _).
  destruct (resumed_read _ _ _ _ _ _ P0 Hi Hsp0 os0 Hf0 He0 ltac:(fold r1; lra)) as (p' & q' & i' & R1' & _ & Sq' & _ & OL' & Hj' & _).
  fold s1 y in OL, Hj. fold r1 in OL', Hj'. exists p, p'. split; [exact R1|]. split; [exact R1'|].
  apply (g_trans _ _ _ _ geo) with q; [exact Sq|]. apply (g_sym _ _ _ _ geo). apply (g_trans _ _ _ _ geo) with q'; [exact Sq'|].
  destruct (trip_far _ _ _ _ _ Hi H1 T) as [Hx _].
  assert (Hy : 0 < y) by (assert (0 < sp * (p_now s1 - p_now s)) by (apply Qmult_lt_0_compat; lra); unfold y; lra).
  assert (W : forall i s s' k q, s == s' -> k <= Qmax (sp * tol) (sp0 * tol) -> on_leg dist along (p_val s0) wps i s k q ->
    on_leg dist along (p_val s0) wps i s' (Qmax (sp * tol) (sp0 * tol)) q).
  { intros i2 a1 a2 k q2 Ea Hk (u & v & f & A1 & A2 & A3 & A4 & A5 & A6). exists u, v, f.
    split; [exact A1|]. split; [exact A2|]. split; [exact A3|]. split; [exact A4|]. split; lra. }
  apply (same_leg (p_val s0) wps y (Qmax (sp * tol) (sp0 * tol)) i' i).
  - pose proof (Q.le_max_l (sp * tol) (sp0 * tol)). lra.
  - exact Hy.
  - intros n Hn. destruct (C1 n Hn) as [A|A]; [left; exact A|]. destruct (C0 n Hn) as [B|B]; [left; exact B|]. right.
    destruct (Q.max_spec (sp * tol) (sp0 * tol)) as [[_ ->]|[_ ->]]; assumption.
  - apply W with (0 + sp0 * (p_now r1 - p_now s0)) (sp0 * tol); [lra|apply Q.le_max_r|exact OL'].
  - intros k Hk. pose proof (Hj' k Hk). lra.
  - apply W with y (sp * tol); [reflexivity|apply Q.le_max_l|exact OL].
  - intros k Hk. pose proof (Hj k Hk). lra.
Qed.

(** The end of the path. *)
Lemma resumed_arrival s0 pre w x s rest sp os : p_act s0 = None ->
  let wps := pre ++ [w] in
  0 < travelled (p_val s0) wps 1 ->
  trip dist along tol s0 wps x s rest -> 0 < sp -> sp * tol < dist w (last pre (p_val s0)) -> Forall looks_or_assigns os ->
  let s1 := prun (fst (pstep s (PActivate sp rest))) os in
  x + sp * (p_now s1 - p_now s) == path_length (p_val s0) wps ->
  exists p, snd (pstep s1 PRead) = PVal p /\ same p w.
Proof.
  intros Hi wps H1 T Hsp Hlast Hf s1 Hend. destruct (trip_place _ _ _ _ _ Hi H1 T) as [I P1].
  destruct (trip_far _ _ _ _ _ Hi H1 T) as [_ Hx].
  assert (Htol : 0 <= sp * tol) by (apply Qmult_le_0_compat; lra).
  assert (He : p_now s < p_now s1).
  { destruct (Qlt_le_dec (p_now s) (p_now s1)) as [Y|Y]; [exact Y|]. exfalso.
    assert (0 <= sp * (p_now s - p_now s1)) by (apply Qmult_le_0_compat; lra). lra. }
  destruct (resumed_read _ _ _ _ _ _ P1 I Hsp os Hf He ltac:(fold s1; lra)) as (p & q & i & R1 & _ & Sq & _ & OL & Hj & _).
  fold s1 in OL, Hj. exists p. split; [exact R1|]. apply (g_trans _ _ _ _ geo) with q; [exact Sq|].
  destruct OL as (u & v & f & Hu & Hv & -> & Hf0 & Hs & Hsl).
  assert (Li : (i < length wps)%nat) by (apply nth_error_Some; congruence).
  assert (Ll : length wps = S (length pre)) by (unfold wps; rewrite app_length; cbn; lia).
  assert (PL : path_length (p_val s0) wps == travelled (p_val s0) wps (length pre) + dist w (last pre (p_val s0))).
  { unfold wps. rewrite (path_length_app _ dist pre [w] (p_val s0)).
    pose proof (travelled_skip (length pre) (pre ++ [w]) (p_val s0) (last pre (p_val s0)) 0) as K. 
    assert (E : travelled (p_val s0) (pre ++ [w]) (length pre) == path_length (p_val s0) pre).
    { clear. unfold PathSpec.path_length. generalize (p_val s0). induction pre as [|b pre IH]; intro a; [reflexivity|]. cbn. rewrite IH. reflexivity. }
    rewrite E. unfold PathSpec.path_length at 2. cbn. lra. }
  assert (Ei : i = length pre).
  { destruct (Nat.lt_ge_cases i (length pre)) as [C|C]; [|lia]. exfalso.
    pose proof (travelled_le _ dist nonneg wps (p_val s0) (S i) (length pre) ltac:(lia)). lra. }
  subst i. assert (Ev : v = w).
  { unfold wps in Hv. rewrite nth_error_app2 in Hv by lia. rewrite Nat.sub_diag in Hv. cbn in Hv. congruence. }
  subst v. assert (Eu : u = last pre (p_val s0)).
  { unfold wps in Hu. clear -Hu. revert Hu. generalize (p_val s0). induction pre as [|b pre IH]; intros a Hu; [cbn in *; congruence|].
    cbn [length nth_error app] in Hu. apply IH in Hu. rewrite Hu. destruct pre; [reflexivity|]. clear. revert p b a. induction pre as [|c pre IH]; intros; [reflexivity|]. cbn [last] in *. apply IH. }
  subst u. assert (Ef : f == 1) by (apply Qmult_inj_r with (dist w (last pre (p_val s0))); lra).
  apply (g_trans _ _ _ _ geo) with (along (last pre (p_val s0)) w 1); [|apply (g_to _ _ _ _ geo)].
  apply (g_along _ _ _ _ geo); [apply (g_refl _ _ _ _ geo)|exact Ef].
Qed.
End TripProofs.

(** Straight lines and a distance that is homogeneous along them. *)
Lemma straight_geometry (dist : pt -> pt -> Q) :
  (forall p q, 0 <= dist p q) -> (forall p p' q, pt_eq p p' -> dist q p == dist q p') ->
  (forall p q f, 0 <= f <= 1 -> dist q (straight p q f) == (1 - f) * dist q p) ->
  geometry dist straight pt_eq.
Proof.
  intros Hn Hd Hs. constructor; try assumption; unfold pt_eq, straight; cbn.
  - intro p. split; [|split]; reflexivity.
  - intros p q (A & B & C). split; [|split]; symmetry; assumption.
  - intros p q r (A & B & C) (A' & B' & C'). split; [|split]; etransitivity; eassumption.
  - intros p p' q f f' (A & B & C) E. rewrite A, B, C, E. split; [|split]; reflexivity.
  - intros p q. split; [|split]; ring.
  - intros p q. split; [|split]; ring.
  - intros p q f g _ _. split; [|split]; ring.
Qed.
