(** Proofs: with floats, too, the rehearsal of a tidy task does what the run does. *)
From Coq Require Import Lqa Qabs Qreduction.
From Verif Require Import Common StateModel ActiveModel KnowledgeModel PredModel PredSpec PredProofs RndModel RndSpec RndProofs RpdModel RpdSpec.
Lemma rnd64_canon x : rnd64 x = Qred (rnd64 x).
Proof.
  unfold rnd64. destruct (Qeqb x 0); [reflexivity|]. cbv zeta. set (v := inject_Z _ * _). destruct (Qltb x 0).
  - rewrite Qred_opp. f_equal. apply Qred_complete. symmetry. apply Qred_correct.
  - apply Qred_complete. symmetry. apply Qred_correct.
Qed.
Lemma rnd64_clock : clock_rounding rnd64.
Proof.
  split; [exact rnd64_mono|intro; apply rnd64_exact, rnd64_float|]. intros x y E. rewrite (rnd64_canon x), (rnd64_canon y). apply Qred_complete. exact E.
Qed.
Section P.
Variable rnd : Q -> Q.
Hypothesis R : clock_rounding rnd.
Variable act : actor -> aop -> actor * aout.
Hypothesis K : keeps_clock act.
Local Notation f_schedule := (f_schedule rnd).
Local Notation f_exec := (f_exec act).
Local Notation f_prun := (f_prun rnd act).
Local Notation f_rehearse_on := (f_rehearse_on rnd act).
Definition ticked (w : world) : Prop := rnd (now w) == now w.
Lemma later_rnd c d : rnd c == c -> 0 <= d -> later c (rnd (c + d)) = rnd (c + d).
Proof. intros E H. unfold later. replace (Qleb c (rnd (c + d))) with true; [reflexivity|]. symmetry. apply Qleb_le. rewrite <- E at 1. apply (c_mono _ R). lra. Qed.
Lemma pick_rnd any c l : forall m, pick any (rnd (c + m)) (map (fun d => rnd (c + d)) l) = rnd (c + pick any m l).
Proof.
  induction l as [|x l IH]; intro m; cbn; [reflexivity|].
  assert (X : (if (if any then Qltb (rnd (c + x)) (rnd (c + m)) else Qltb (rnd (c + m)) (rnd (c + x))) then rnd (c + x) else rnd (c + m)) = rnd (c + if (if any then Qltb x m else Qltb m x) then x else m)).
  { destruct any.
    - destruct (Qltb x m) eqn:E; [apply Qltb_lt in E|apply Qltb_ge in E].
      + destruct (Qltb (rnd (c + x)) (rnd (c + m))) eqn:F; [reflexivity|]. apply Qltb_ge in F. apply (c_canon _ R). apply Qle_antisym; [exact F|apply (c_mono _ R); lra].
      + assert (Qltb (rnd (c + x)) (rnd (c + m)) = false) as -> by (apply Qltb_ge, (c_mono _ R); lra). reflexivity.
    - destruct (Qltb m x) eqn:E; [apply Qltb_lt in E|apply Qltb_ge in E].
      + destruct (Qltb (rnd (c + m)) (rnd (c + x))) eqn:F; [reflexivity|]. apply Qltb_ge in F. apply (c_canon _ R). apply Qle_antisym; [apply (c_mono _ R); lra|exact F].
      + assert (Qltb (rnd (c + m)) (rnd (c + x)) = false) as -> by (apply Qltb_ge, (c_mono _ R); lra). reflexivity. }
  rewrite X. apply IH.
Qed.
Lemma best_rnd any c l : best any (map (fun d => rnd (c + d)) l) = option_map (fun d => rnd (c + d)) (best any l).
Proof. destruct l as [|x l]; cbn; [reflexivity|]. rewrite pick_rnd. reflexivity. Qed.
Lemma pick_least l : forall m, pick true m l <= m /\ forall x, In x l -> pick true m l <= x.
Proof.
  induction l as [|y l IH]; intro m; cbn; [split; [lra|contradiction]|]. destruct (Qltb y m) eqn:E; [apply Qltb_lt in E|apply Qltb_ge in E].
  - destruct (IH y) as [A B]. split; [lra|]. intros x [<-|H]; auto.
  - destruct (IH m) as [A B]. split; [lra|]. intros x [<-|H]; [lra|auto].
Qed.
Lemma pick_most l : forall m, m <= pick false m l /\ forall x, In x l -> x <= pick false m l.
Proof.
  induction l as [|y l IH]; intro m; cbn; [split; [lra|contradiction]|]. destruct (Qltb m y) eqn:E; [apply Qltb_lt in E|apply Qltb_ge in E].
  - destruct (IH y) as [A B]. split; [lra|]. intros x [<-|H]; auto.
  - destruct (IH m) as [A B]. split; [lra|]. intros x [<-|H]; [lra|auto].
Qed.
Lemma best_most l t x : best false l = Some t -> In x l -> x <= t.
Proof. destruct l as [|y l]; cbn; [discriminate|]. intros [= <-] [<-|H]; destruct (pick_most l y) as [A B]; auto. Qed.

Lemma f_schedule_keeps w i : shows_all (f_schedule w i) = shows_all w /\ now (f_schedule w i) = now w /\ List.length (wd_heap (f_schedule w i)) = List.length (wd_heap w).
Proof. unfold RpdModel.f_schedule. destruct (nth_error (wd_heap w) i) as [x|]; [|auto]. destruct (w_fire x); [auto|]. cbn. rewrite upd_len. auto. Qed.
Definition f_fired (t : Q) (x y : wait) : Prop :=
  exists s, y = mkW (w_time x) (w_rtime x) (Some (rnd (t + w_time x), s)) (w_proc x) (w_reh x) (w_done x).
Lemma f_schedule_nth w i j x : nth_error (wd_heap w) j = Some x ->
  (j <> i -> nth_error (wd_heap (f_schedule w i)) j = Some x) /\
  (j = i -> w_fire x = None -> exists y, nth_error (wd_heap (f_schedule w i)) j = Some y /\ f_fired (now w) x y).
Proof.
  intro H. split.
  - intro N. unfold RpdModel.f_schedule. destruct (nth_error (wd_heap w) i) as [z|]; [|auto].
    destruct (w_fire z); [auto|]. cbn. rewrite upd_nth. destruct (Nat.eqb i j) eqn:E; [apply Nat.eqb_eq in E; congruence|exact H].
  - intros -> F. unfold RpdModel.f_schedule. rewrite H, F. cbn. rewrite upd_nth, Nat.eqb_refl, H.
    eexists. split; [reflexivity|]. eexists. reflexivity.
Qed.
Lemma f_schedules_keep l : forall w, shows_all (fold_left f_schedule l w) = shows_all w /\ now (fold_left f_schedule l w) = now w
  /\ List.length (wd_heap (fold_left f_schedule l w)) = List.length (wd_heap w).
Proof.
  induction l as [|i l IH]; intro w; cbn; [auto|].
  destruct (IH (f_schedule w i)) as (A & B & C). destruct (f_schedule_keeps w i) as (A' & B' & C'). rewrite A, B, C. auto.
Qed.
Lemma f_schedules_nth l : NoDup l -> forall w j x, nth_error (wd_heap w) j = Some x ->
  (~ In j l -> nth_error (wd_heap (fold_left f_schedule l w)) j = Some x) /\
  (In j l -> w_fire x = None -> exists y, nth_error (wd_heap (fold_left f_schedule l w)) j = Some y /\ f_fired (now w) x y).
Proof.
  induction 1 as [|i l Hi Hn IH]; intros w j x H; cbn.
  - split; [auto|contradiction].
  - destruct (f_schedule_nth w i j x H) as [S1 S2]. split.
    + intro N. apply IH; [apply S1; intros ->; apply N; auto|intro; apply N; auto].
    + intros [->|Hj] F.
      * destruct (S2 eq_refl F) as (y & Hy & Fy). exists y. split; [|exact Fy]. apply (IH (f_schedule w j) j y Hy). exact Hi.
      * assert (N0 : j <> i) by (intros ->; contradiction).
        destruct (IH (f_schedule w i) j x (S1 N0)) as [_ G]. destruct (G Hj F) as (y & Hy & Fy).
        exists y. split; [exact Hy|]. destruct (f_schedule_keeps w i) as (_ & B & _). rewrite B in Fy. exact Fy.
Qed.
Lemma f_after n free cur w g l cur' t s c g' :
  hrel n free cur (wd_heap w) g -> NoDup l -> incl l free -> incl cur' l ->
  List.length g' = n ->
  (forall j, ~ In j l -> nth_error g' j = nth_error g j) ->
  (forall j y, In j l -> nth_error g j = Some y -> nth_error g' j = Some (finish1 (c j) (start1 y))) ->
  (forall j x f k, In j cur' -> nth_error (wd_heap (fold_left f_schedule l w)) j = Some x -> w_fire x = Some (f, k) -> dueb t s f k = c j) ->
  hrel n (left_over l free) cur' (map (due t s) (wd_heap (fold_left f_schedule l w))) g'.
Proof.
  intros (L1 & L2 & B & Rl) Hd Hi Hc L3 G1 G2 C.
  destruct (f_schedules_keep l w) as (_ & _ & Kp).
  split; [rewrite map_length, Kp; exact L1|]. split; [exact L3|]. split.
  - intros i I. apply B. apply in_or_app. right. apply in_app_or in I. destruct I as [I|I]; [apply Hi, Hc, I|apply left_over_in in I; apply I].
  - intros j x' y' Hx Hy.
    rewrite map_nth in Hx. destruct (nth_error (wd_heap (fold_left f_schedule l w)) j) as [x1|] eqn:E1; [|discriminate].
    injection Hx as <-.
    assert (Hj : (j < n)%nat) by (rewrite <- L3; apply nth_error_Some; congruence).
    destruct (nth_error (wd_heap w) j) as [x|] eqn:Ex; [|exfalso; apply nth_error_None in Ex; lia].
    destruct (nth_error g j) as [y|] eqn:Ey; [|exfalso; apply nth_error_None in Ey; lia].
    destruct (Rl j x y Ex Ey) as (Bs & Fr & Cu).
    destruct (f_schedules_nth l Hd w j x Ex) as [N1 N2].
    destruct (in_dec Nat.eq_dec j l) as [I|I].
    + destruct (Fr (Hi j I)) as (F1 & F2 & F3). destruct (N2 I F1) as (z & Ez & s0 & ->).
      rewrite E1 in Ez. injection Ez as ->.
      rewrite (G2 j y I Ey) in Hy. injection Hy as <-.
      destruct Bs as (B1 & B2 & B3 & B4 & B5).
      unfold due. cbn [w_fire]. split; [|split].
      * destruct (_ || _); repeat split; cbn; auto.
      * intro I'. apply left_over_in in I'. destruct I' as [_ I']. contradiction.
      * intro I'. pose proof (C j _ (rnd (now w + w_time x)) s0 I' E1 eq_refl) as Cj. unfold dueb in Cj. rewrite Cj.
        destruct (c j); repeat split; cbn; auto; try discriminate.
    + rewrite N1 in E1 by exact I. injection E1 as <-. rewrite G1, Ey in Hy by exact I. injection Hy as <-.
      destruct Bs as (B1 & B2 & B3 & B4 & B5). split; [|split].
      * unfold due. destruct (w_fire x) as [[f k]|]; [|repeat split; auto].
        destruct (_ || _); repeat split; auto.
      * intro I'. apply left_over_in in I'. destruct (Fr (proj1 I')) as (F1 & F2 & F3).
        unfold due. rewrite F1. repeat split; auto.
      * intro I'. exfalso. apply I. apply Hc. exact I'.
Qed.
Lemma f_fires_eq n free cur w g l : hrel n free cur (wd_heap w) g -> NoDup l -> incl l free ->
  forall m, incl m l ->
  flat_map (fun i => match fire_of (fold_left f_schedule l w) i with Some (f, _) => [f] | None => [] end) m
  = map (fun d => rnd (now w + d)) (map (time_at g) m).
Proof.
  intros H Hd Hi. induction m as [|i m IH]; intro Hm; cbn; [reflexivity|].
  rewrite IH by (intros z Z; apply Hm; right; exact Z).
  assert (I : In i l) by (apply Hm; left; reflexivity).
  destruct (free_nth _ _ _ _ _ i H (Hi i I)) as (x & y & Ex & Ey & (B1 & _) & (F1 & _)).
  destruct (f_schedules_nth l Hd w i x Ex) as [_ N2]. destruct (N2 I F1) as (z & Ez & s0 & ->).
  unfold fire_of. rewrite Ez. cbn [w_fire app].
  assert (Et : time_at g i = w_time x) by (unfold time_at; rewrite Ey; symmetry; exact B1). rewrite Et. reflexivity.
Qed.
Lemma f_yield_step n free cur w v e :
  wrel n free cur w v -> ticked w -> ids e <> [] -> NoDup (ids e) -> incl (ids e) free ->
  exists h t, rehearse_event (wd_heap v) e = (h, Some t) /\
    wrel n (left_over (ids e) free) (askable e) (fst (f_wait_for rnd w e)) (at_time (rnd (now v + t)) (with_heap v h (wd_seq v))).
Proof.
  intros (S & Rh & H) Tk Ne Hd Hi.
  pose proof (shows_now _ _ S) as Nw. unfold ticked in Tk.
  assert (multi : forall (l : list nat) (any : bool), ids e = l -> l <> [] -> askable e = (if any then [] else l) ->
    exists t, best any (map (time_at (wd_heap v)) l) = Some t /\
    let g' := fold_left (fun h it => on (fst it) (finish1 (Qleb (snd it) t)) h) (map (fun i => (i, time_at (wd_heap v) i)) l)
                (fold_left (fun h i => on i start1 h) l (wd_heap v)) in
    let w1 := fold_left f_schedule l w in
    later (now w1) (rnd (now w + t)) = rnd (now v + t) /\
    wrel n (left_over l free) (askable e) (at_time (rnd (now v + t)) (with_heap w1 (map (due (rnd (now v + t)) None) (wd_heap w1)) (wd_seq w1)))
      (at_time (rnd (now v + t)) (with_heap v g' (wd_seq v)))).
  { intros l any El Nl Ea. rewrite El in *. rewrite Ea.
    destruct (best any (map (time_at (wd_heap v)) l)) as [t|] eqn:Eb; [|exfalso; destruct l; [congruence|discriminate]].
    exists t. split; [reflexivity|]. cbn zeta.
    destruct (f_schedules_keep l w) as (K1 & K2 & K3).
    assert (P : 0 <= t).
    { apply best_in in Eb. apply in_map_iff in Eb. destruct Eb as (i & <- & I).
      destruct (free_nth _ _ _ _ _ i H (Hi i I)) as (x & y & Ex & Ey & (_ & _ & B3 & _) & _).
      unfold time_at. rewrite Ey. exact B3. }
    split; [rewrite K2, <- Nw; apply later_rnd; assumption|].
    assert (Mf : map fst (map (fun i => (i, time_at (wd_heap v) i)) l) = l) by (rewrite map_map; cbn; apply map_id).
    assert (Dd : NoDup (map fst (map (fun i => (i, time_at (wd_heap v) i)) l))) by (rewrite Mf; exact Hd).
    split; [apply shows_at; rewrite K1; exact S|]. split; [exact Rh|].
    cbn [wd_heap with_heap at_time].
    apply (f_after n free cur w (wd_heap v) l (if any then [] else l) (rnd (now v + t)) None (fun j => Qleb (time_at (wd_heap v) j) t)); auto.
    - destruct any; [intros z []|apply incl_refl].
    - rewrite finishes_len, starts_len. apply H.
    - intros j J. rewrite (proj1 (finishes_nth t _ Dd _ j)) by (rewrite Mf; exact J).
      apply (proj1 (starts_nth l Hd (wd_heap v) j)). exact J.
    - intros j y J Ey. rewrite (proj2 (finishes_nth t _ Dd _ j) (time_at (wd_heap v) j)) by (apply in_map_iff; exists j; auto).
      rewrite (proj2 (starts_nth l Hd (wd_heap v) j) J), Ey. reflexivity.
    - intros j x f k J Ex Ef. destruct any; [destruct J|].
      destruct (free_nth _ _ _ _ _ j H (Hi j J)) as (x0 & y & Ex0 & Ey & (B1 & _) & (F1 & _)).
      destruct (f_schedules_nth l Hd w j x0 Ex0) as [_ N2]. destruct (N2 J F1) as (z & Ez & s0 & ->).
      rewrite Ex in Ez. injection Ez as ->. cbn in Ef. injection Ef as <- <-.
      assert (Le : time_at (wd_heap v) j <= t) by (apply (best_most _ _ _ Eb); apply in_map; exact J).
      unfold dueb. rewrite due_at, Nw. assert (Qleb (time_at (wd_heap v) j) t = true) as -> by (apply Qleb_le; exact Le).
      unfold time_at in Le. rewrite Ey in Le. apply Qleb_le. apply (c_mono _ R). rewrite B1. lra. }
  destruct e as [i|l|l]; cbn [ids] in *.
  - clear multi. assert (I : In i free) by (apply Hi; left; reflexivity).
    destruct (free_nth _ _ _ _ _ i H I) as (x & y & Ex & Ey & (B1 & B2 & B3 & B4 & B5) & (F1 & F2 & F3)).
    destruct (f_schedules_nth [i] Hd w i x Ex) as [_ N2]. destruct (N2 (or_introl eq_refl) F1) as (z & Ez & s0 & ->).
    destruct (f_schedules_keep [i] w) as (K1 & K2 & K3).
    assert (St : nth_error (on i start1 (wd_heap v)) i = Some (start1 y)) by (rewrite on_nth, Nat.eqb_refl, Ey; reflexivity).
    exists (on i (finish1 true) (on i start1 (wd_heap v))), (w_time y). split.
    + unfold rehearse_event. cbn [ids fold_left]. unfold rtime_of. rewrite St. cbn. rewrite B2. reflexivity.
    + unfold f_wait_for. cbn [ids]. set (w1 := fold_left f_schedule [i] w) in *.
      unfold fire_of. rewrite Ez. cbn [w_fire w_proc]. rewrite F2. cbn [fst].
      assert (Lt : later (now w1) (rnd (now w + w_time x)) = rnd (now v + w_time y)).
      { rewrite K2, <- Nw, B1. apply later_rnd; assumption. }
      rewrite Lt. split; [apply shows_at; rewrite K1; exact S|]. split; [exact Rh|].
      cbn [wd_heap with_heap at_time].
      apply (f_after n free cur w (wd_heap v) [i] [i] (rnd (now v + w_time y)) (Some s0) (fun _ => true)); auto.
      * apply incl_refl.
      * rewrite !on_len. apply H.
      * intros j J. assert (E : Nat.eqb i j = false) by (apply Nat.eqb_neq; intros ->; apply J; left; reflexivity).
        rewrite !on_nth, E. reflexivity.
      * intros j y0 [<-|[]] E0. rewrite !on_nth, Nat.eqb_refl, E0. reflexivity.
      * intros j x0 f k [<-|[]] E0 Ef. unfold w1 in Ez. rewrite Ez in E0. injection E0 as <-. cbn in Ef. injection Ef as <- <-.
        unfold dueb. rewrite Nat.leb_refl, due_at, Nw, B1. apply Qleb_le. lra.
  - destruct (multi l true eq_refl Ne eq_refl) as (t & Eb & Lt & W).
    eexists. exists t. split.
    + unfold rehearse_event. cbn [ids]. rewrite nodups_id by exact Hd.
      rewrite (times_eq n free cur (wd_heap w) (wd_heap v) l H Hd Hi l (incl_refl l)).
      assert (Ms : map snd (map (fun i => (i, time_at (wd_heap v) i)) l) = map (time_at (wd_heap v)) l) by (rewrite map_map; reflexivity).
      rewrite Ms, Eb. reflexivity.
    + unfold f_wait_for. cbn [ids fst].
      rewrite (f_fires_eq n free cur w (wd_heap v) l H Hd Hi l (incl_refl l)), best_rnd, Eb. cbn [option_map].
      rewrite Lt. exact W.
  - destruct (multi l false eq_refl Ne eq_refl) as (t & Eb & Lt & W).
    eexists. exists t. split.
    + unfold rehearse_event. cbn [ids]. rewrite nodups_id by exact Hd.
      rewrite (times_eq n free cur (wd_heap w) (wd_heap v) l H Hd Hi l (incl_refl l)).
      assert (Ms : map snd (map (fun i => (i, time_at (wd_heap v) i)) l) = map (time_at (wd_heap v)) l) by (rewrite map_map; reflexivity).
      rewrite Ms, Eb. reflexivity.
    + unfold f_wait_for. cbn [ids fst].
      rewrite (f_fires_eq n free cur w (wd_heap v) l H Hd Hi l (incl_refl l)), best_rnd, Eb. cbn [option_map].
      rewrite Lt. exact W.
Qed.
Lemma f_exec_step n free cur w v o : wrel n free cur w v ->
  (forall k, o = SK (NCreateEvent k) -> snd (f_exec w o) <> OK NSimError) ->
  snd (f_exec w o) = snd (f_exec v o) /\ wrel n free cur (fst (f_exec w o)) (fst (f_exec v o)).
Proof.
  intros (S & Rh & H) G. unfold shows_all in S. injection S as A D E.
  destruct o as [o|o].
  - assert (X : forall o, match o with ATime _ => False | _ => True end -> forall w, f_exec w (SA o) = let '(a, r) := act (wd_actor w) o in (mkWd a (wd_kn w) (wd_heap w) (wd_seq w), OA r)).
    { intros [] Hn u; try reflexivity; contradiction. }
    destruct (match o with ATime _ => true | _ => false end) eqn:T.
    + destruct o; try discriminate. cbn. split; [reflexivity|]. split; [unfold shows_all; congruence|]. split; auto.
    + assert (N : match o with ATime _ => False | _ => True end) by (destruct o; try exact I; discriminate).
      rewrite !(X o N), A. destruct (act (wd_actor v) o) as [a r]. cbn. split; [reflexivity|].
      split; [unfold shows_all; cbn; congruence|]. split; auto.
  - assert (X : (exists i, o = NProcessed i) \/ forall w, f_exec w (SK o) = let '(k, r) := nstep (wd_kn w) o in (mkWd (wd_actor w) k (wd_heap w) (wd_seq w), OK r)).
    { destruct o; try (right; intro; reflexivity). left. eexists. reflexivity. }
    destruct X as [[i ->]|X]; [cbn; split; [reflexivity|]; split; [unfold shows_all; congruence|]; split; auto|].
    rewrite !X in *. clear X.
    destruct (nstep_same (wd_kn w) (wd_kn v) o D E Rh) as (P1 & P2 & P3 & P4).
    { intros k ->. specialize (G k eq_refl). destruct (nstep (wd_kn w) (NCreateEvent k)) as [k1 r]. cbn in *. intros ->. apply G. reflexivity. }
    destruct (nstep (wd_kn w) o) as [k1 r1], (nstep (wd_kn v) o) as [k2 r2]. cbn in *. subst r2.
    split; [reflexivity|]. split; [unfold shows_all; cbn; congruence|]. split; auto.
Qed.
Lemma f_exec_now w o : now (fst (f_exec w o)) = now w.
Proof.
  destruct o as [o|o].
  - destruct o as [i t r|i t|l t|t|i|i v|t]; [| | | | | |reflexivity]; cbn [RpdModel.f_exec];
      (match goal with |- context [act ?a ?o] => pose proof (K a o Logic.I) as E; destruct (act a o) end; cbn in *; auto).
  - destruct o; try reflexivity; cbn [RpdModel.f_exec]; match goal with |- context [nstep ?k ?o] => destruct (nstep k o) end; auto.
Qed.
Lemma new_wait_now w d r : now (fst (new_wait w d r)) = now w.
Proof. unfold new_wait. destruct (Qltb d 0); reflexivity. Qed.
Lemma f_predicts n free cur p : tidy_f n free cur p -> forall w v, wrel n free cur w v -> ticked w ->
  granted (snd (f_prun p w)) -> outcome (f_prun p w) = outcome (f_rehearse_on p v) /\
  exists m, wrel m [] [] (fst (fst (f_prun p w))) (fst (fst (f_rehearse_on p v))) /\ ticked (fst (fst (f_prun p w))).
Proof.
  assert (weak : forall n free cur w v, wrel n free cur w v -> wrel n [] [] w v).
  { intros ? ? ? w v (S & Rh & (L1 & L2 & B & Rl)). split; [exact S|]. split; [exact Rh|].
    repeat split; auto; try contradiction; apply (Rl _ _ _ H H0). }
  induction 1 as [n free cur|n free cur|n free cur o k Hk IH|n free cur k Hk IH|n free cur d r k Hr Hs IHs Hn IHn|n free cur i k Hi Hk IH|n free cur e k Ne Hd Hi Ha Hk IH];
    intros w v W Tk G; cbn [RpdModel.f_prun RpdModel.f_rehearse_on] in *.
  - split; [unfold outcome; cbn; destruct W as (-> & _); reflexivity|]. exists n. split; [apply (weak _ _ _ _ _ W)|exact Tk].
  - split; [unfold outcome; cbn; destruct W as (-> & _); reflexivity|]. exists n. split; [apply (weak _ _ _ _ _ W)|exact Tk].
  - destruct (f_exec_step n free cur w v o W) as [Eo W1].
    { intros j ->. intro Bad. destruct (f_exec w (SK (NCreateEvent j))) as [w1 r1]. cbn in Bad. subst r1.
      destruct (f_prun (k (OK NSimError)) w1) as [[w2 e] l]. cbn in G. apply (proj2 (G (now w) (NCreateEvent j) NSimError (or_introl eq_refl)) j); reflexivity. }
    pose proof (shows_now _ _ (proj1 W)) as Nw. pose proof (f_exec_now w o) as En.
    destruct (f_exec w o) as [w1 r1], (f_exec v o) as [v1 r2]. cbn [fst snd] in Eo, W1, En. subst r2.
    assert (T1 : ticked w1) by (unfold ticked; rewrite En; exact Tk).
    specialize (IH r1 w1 v1 W1 T1). destruct (f_prun (k r1) w1) as [[w2 e] l]. destruct (f_rehearse_on (k r1) v1) as [[v2 e'] l'].
    cbn in *. pose proof (IH (granted_tl _ _ G)) as [P Q]. unfold outcome in *. cbn in *. split; [congruence|exact Q].
  - pose proof (shows_now _ _ (proj1 W)) as Nw. rewrite <- Nw.
    specialize (IH (now w) w v W Tk). destruct (f_prun (k (now w)) w) as [[w2 e] l]. destruct (f_rehearse_on (k (now w)) v) as [[v2 e'] l'].
    cbn in *. pose proof (IH (granted_tl _ _ G)) as [P Q]. unfold outcome in *. cbn in *. split; [congruence|exact Q].
  - destruct (new_step n free cur w v d r W Hr) as [Ei Cases]. pose proof (new_wait_now w d r) as En.
    destruct (new_wait w d r) as [w1 i1], (new_wait v d r) as [v1 i2]. cbn [fst snd] in Ei, Cases, En. subst i2.
    assert (T1 : ticked w1) by (unfold ticked; rewrite En; exact Tk).
    destruct Cases as [[-> W1]|[-> W1]].
    + specialize (IHs w1 v1 W1 T1). destruct (f_prun (k (Some n)) w1) as [[w2 e] l]. destruct (f_rehearse_on (k (Some n)) v1) as [[v2 e'] l'].
      cbn in *. pose proof (IHs (granted_tl _ _ G)) as [P Q]. unfold outcome in *. cbn in *. split; [congruence|exact Q].
    + specialize (IHn w1 v1 W1 T1). destruct (f_prun (k None) w1) as [[w2 e] l]. destruct (f_rehearse_on (k None) v1) as [[v2 e'] l'].
      cbn in *. pose proof (IHn (granted_tl _ _ G)) as [P Q]. unfold outcome in *. cbn in *. split; [congruence|exact Q].
  - rewrite <- (done_step n free cur w v i W Hi).
    specialize (IH (is_done w i) w v W Tk). destruct (f_prun (k (is_done w i)) w) as [[w2 e] l]. destruct (f_rehearse_on (k (is_done w i)) v) as [[v2 e'] l'].
    cbn in *. pose proof (IH (granted_tl _ _ G)) as [P Q]. unfold outcome in *. cbn in *. split; [congruence|exact Q].
  - pose proof (shows_now _ _ (proj1 W)) as Nw.
    destruct (f_yield_step n free cur w v e W Tk Ne Hd Hi) as (h & t & E & W1). rewrite E.
    destruct (f_wait_for rnd w e) as [w1 a]. cbn [fst] in W1. rewrite (Ha a) in *.
    assert (T1 : ticked w1).
    { unfold ticked. rewrite (shows_now _ _ (proj1 W1)). unfold now, at_time. cbn [wd_actor a_now]. apply (c_idem _ R). }
    specialize (IH w1 _ W1 T1). destruct (f_prun (k ANone) w1) as [[w2 en] l].
    destruct (f_rehearse_on (k ANone) (at_time (rnd (now v + t)) (with_heap v h (wd_seq v)))) as [[v2 e'] l'].
    cbn in *. pose proof (IH (granted_tl _ _ G)) as [P Q]. unfold outcome in *. cbn in *. split; [congruence|exact Q].
Qed.
Lemma f_chain_predicts ps : (forall n p, In p ps -> tidy_f n [] [] p) -> forall m w v, wrel m [] [] w v -> ticked w ->
  granted (snd (chain f_prun ps w)) -> outcome (chain f_prun ps w) = outcome (chain f_rehearse_on ps v).
Proof.
  induction ps as [|p ps IH]; intros T m w v W Tk G; cbn [chain] in *.
  - unfold outcome. cbn. destruct W as (-> & _). reflexivity.
  - assert (Gp : granted (snd (f_prun p w))).
    { intros t n r I. apply (G t n r). destruct (f_prun p w) as [[w1 e] l]. cbn in I. destruct e; cbn; [|exact I].
      destruct (chain f_prun ps w1) as [[w2 e2] l2]. cbn. apply in_or_app. left. exact I. }
    destruct (f_predicts m [] [] p (T m p (or_introl eq_refl)) w v W Tk Gp) as [P (m1 & W1 & T1)].
    destruct (f_prun p w) as [[w1 e] l], (f_rehearse_on p v) as [[v1 e1] l1]. unfold outcome in P. cbn in P, W1, T1.
    injection P as P1 P2 P3 <- <-. destruct e; [|unfold outcome; cbn; destruct W1 as (-> & _); reflexivity].
    assert (G1 : granted (snd (chain f_prun ps w1))).
    { intros t n r I. apply (G t n r). destruct (chain f_prun ps w1) as [[w2 e2] l2]. cbn. apply in_or_app. right. exact I. }
    specialize (IH (fun n q Iq => T n q (or_intror Iq)) m1 w1 v1 W1 T1 G1).
    destruct (chain f_prun ps w1) as [[w2 e2] l2], (chain f_rehearse_on ps v1) as [[v2 e3] l3].
    unfold outcome in *. cbn in *. injection IH as A B C -> ->. unfold shows_all. rewrite A, B, C. reflexivity.
Qed.
End P.
