(** Proofs: the rehearsal of a tidy task does what the run does. *)
From Coq Require Import Lqa.
From Verif Require Import Common StateModel ActiveModel KnowledgeModel PredModel PredSpec.
From Verif Require ActiveProofs.

Definition upd_nth := @ActiveProofs.upd_nth.

(** ** The relation between the two worlds *)
Definition base (x y : wait) : Prop :=
  w_time x = w_time y /\ w_rtime y = w_time y /\ 0 <= w_time y /\ w_reh x = false /\ w_fire y = None.
Definition isfree (x y : wait) : Prop := w_fire x = None /\ w_proc x = false /\ w_reh y = false.
Definition iscur (x y : wait) : Prop := w_fire x <> None /\ w_reh y = true /\ w_proc x = w_done y.
Definition hrel (n : nat) (free cur : list nat) (h g : list wait) : Prop :=
  List.length h = n /\ List.length g = n /\
  (forall i, In i (cur ++ free) -> (i < n)%nat) /\
  (forall i x y, nth_error h i = Some x -> nth_error g i = Some y ->
     base x y /\ (In i free -> isfree x y) /\ (In i cur -> iscur x y)).
Definition shows_all (w : world) : actor * list (key * kval Z) * list (kev Z) := (wd_actor w, n_dict (wd_kn w), n_events (wd_kn w)).
Definition wrel (n : nat) (free cur : list nat) (w v : world) : Prop :=
  shows_all w = shows_all v /\ n_rehearsing (wd_kn v) = true /\ hrel n free cur (wd_heap w) (wd_heap v).

(** ** Heaps *)
Lemma map_nth {X Y} (f : X -> Y) l i : nth_error (map f l) i = option_map f (nth_error l i).
Proof. revert i. induction l as [|x l IH]; intros [|i]; cbn; auto. Qed.
Lemma upd_len {X} i (x : X) l : List.length (upd i x l) = List.length l.
Proof. revert i. induction l as [|y l IH]; intros [|i]; cbn; auto. Qed.

Lemma schedule_keeps w i : shows_all (schedule w i) = shows_all w /\ now (schedule w i) = now w /\ List.length (wd_heap (schedule w i)) = List.length (wd_heap w)
  /\ wd_kn (schedule w i) = wd_kn w /\ wd_actor (schedule w i) = wd_actor w.
Proof.
  unfold schedule. destruct (nth_error (wd_heap w) i) as [x|]; [|auto].
  destruct (w_fire x); [auto|]. cbn. rewrite upd_len. auto.
Qed.
Definition fired (t : Q) (x y : wait) : Prop :=
  exists s, y = mkW (w_time x) (w_rtime x) (Some (t + w_time x, s)) (w_proc x) (w_reh x) (w_done x).
Lemma schedule_nth w i j x : nth_error (wd_heap w) j = Some x ->
  (j <> i -> nth_error (wd_heap (schedule w i)) j = Some x) /\
  (j = i -> w_fire x = None -> exists y, nth_error (wd_heap (schedule w i)) j = Some y /\ fired (now w) x y).
Proof.
  intro H. split.
  - intro N. unfold schedule. destruct (nth_error (wd_heap w) i) as [z|]; [|auto].
    destruct (w_fire z); [auto|]. cbn. rewrite upd_nth. destruct (Nat.eqb i j) eqn:E; [apply Nat.eqb_eq in E; congruence|exact H].
  - intros -> F. unfold schedule. rewrite H, F. cbn. rewrite upd_nth, Nat.eqb_refl, H.
    eexists. split; [reflexivity|]. eexists. reflexivity.
Qed.
Lemma schedules_keep l : forall w, shows_all (fold_left schedule l w) = shows_all w /\ now (fold_left schedule l w) = now w
  /\ List.length (wd_heap (fold_left schedule l w)) = List.length (wd_heap w) /\ wd_kn (fold_left schedule l w) = wd_kn w
  /\ wd_actor (fold_left schedule l w) = wd_actor w.
Proof.
  induction l as [|i l IH]; intro w; cbn; [auto|].
  destruct (IH (schedule w i)) as (A & B & C & D & E). destruct (schedule_keeps w i) as (A' & B' & C' & D' & E').
  rewrite A, B, C, D, E. auto.
Qed.
Lemma schedules_nth l : NoDup l -> forall w j x, nth_error (wd_heap w) j = Some x ->
  (~ In j l -> nth_error (wd_heap (fold_left schedule l w)) j = Some x) /\
  (In j l -> w_fire x = None -> exists y, nth_error (wd_heap (fold_left schedule l w)) j = Some y /\ fired (now w) x y).
Proof.
  induction 1 as [|i l Hi Hn IH]; intros w j x H; cbn.
  - split; [auto|contradiction].
  - destruct (schedule_nth w i j x H) as [S1 S2]. split.
    + intro N. apply IH; [apply S1; intros ->; apply N; auto|intro; apply N; auto].
    + intros [->|Hj] F.
      * destruct (S2 eq_refl F) as (y & Hy & Fy). exists y. split; [|exact Fy].
        apply (IH (schedule w j) j y Hy). exact Hi.
      * assert (j <> i) by (intros ->; contradiction).
        destruct (IH (schedule w i) j x (S1 H0)) as [_ G]. destruct (G Hj F) as (y & Hy & Fy).
        exists y. split; [exact Hy|]. destruct (schedule_keeps w i) as (_ & B & _). rewrite B in Fy. exact Fy.
Qed.

Lemma on_len i f h : List.length (on i f h) = List.length h.
Proof. unfold on. destruct (nth_error h i); [apply upd_len|reflexivity]. Qed.
Lemma on_nth i f h j : nth_error (on i f h) j = if Nat.eqb i j then option_map f (nth_error h j) else nth_error h j.
Proof.
  unfold on. destruct (nth_error h i) as [x|] eqn:H.
  - rewrite upd_nth. destruct (Nat.eqb i j) eqn:E; [|reflexivity]. apply Nat.eqb_eq in E. subst. rewrite H. reflexivity.
  - destruct (Nat.eqb i j) eqn:E; [|reflexivity]. apply Nat.eqb_eq in E. subst. rewrite H. reflexivity.
Qed.
Lemma starts_len l : forall h, List.length (fold_left (fun h i => on i start1 h) l h) = List.length h.
Proof. induction l as [|i l IH]; intro h; cbn; [reflexivity|]. rewrite IH, on_len. reflexivity. Qed.
Lemma starts_nth l : NoDup l -> forall h j,
  (~ In j l -> nth_error (fold_left (fun h i => on i start1 h) l h) j = nth_error h j) /\
  (In j l -> nth_error (fold_left (fun h i => on i start1 h) l h) j = option_map start1 (nth_error h j)).
Proof.
  induction 1 as [|i l Hi Hn IH]; intros h j; cbn; [split; [auto|contradiction]|].
  destruct (IH (on i start1 h) j) as [A B]. rewrite on_nth in A, B. split.
  - intro N. rewrite A by auto. destruct (Nat.eqb i j) eqn:E; [apply Nat.eqb_eq in E; subst; exfalso; auto|reflexivity].
  - intros [->|H].
    + rewrite A, Nat.eqb_refl by exact Hi. reflexivity.
    + rewrite B by exact H. destruct (Nat.eqb i j) eqn:E; [apply Nat.eqb_eq in E; subst; contradiction|reflexivity].
Qed.
Lemma finishes_len t l : forall h : list wait,
  List.length (fold_left (fun h (it : nat * Q) => on (fst it) (finish1 (Qleb (snd it) t)) h) l h) = List.length h.
Proof. induction l as [|i l IH]; intro h; cbn; [reflexivity|]. rewrite IH, on_len. reflexivity. Qed.
Lemma finishes_nth t (l : list (nat * Q)) : NoDup (map fst l) -> forall h j,
  (~ In j (map fst l) -> nth_error (fold_left (fun h it => on (fst it) (finish1 (Qleb (snd it) t)) h) l h) j = nth_error h j) /\
  (forall q, In (j, q) l -> nth_error (fold_left (fun h it => on (fst it) (finish1 (Qleb (snd it) t)) h) l h) j = option_map (finish1 (Qleb q t)) (nth_error h j)).
Proof.
  induction l as [|[i p] l IH]; cbn; intros Hd h j; [split; [auto|contradiction]|].
  inversion Hd as [|? ? Hi Hn]; subst.
  destruct (IH Hn (on i (finish1 (Qleb p t)) h) j) as [A B]. rewrite on_nth in A, B. split.
  - intro N. rewrite A by auto. destruct (Nat.eqb i j) eqn:E; [apply Nat.eqb_eq in E; subst; exfalso; auto|reflexivity].
  - intros q [E|H].
    + injection E as -> ->. rewrite A, Nat.eqb_refl by exact Hi. reflexivity.
    + rewrite (B q H). destruct (Nat.eqb i j) eqn:E; [|reflexivity].
      apply Nat.eqb_eq in E. subst. exfalso. apply Hi. apply in_map_iff. exists (j, q). auto.
Qed.

(** ** Least and greatest *)
Lemma qltb_shift c a b : Qltb (c + a) (c + b) = Qltb a b.
Proof. destruct (Qltb a b) eqn:E; [apply Qltb_lt in E; apply Qltb_lt; lra|apply Qltb_ge in E; apply Qltb_ge; lra]. Qed.
Lemma qeqb_shift c a b : Qeqb (c + a) (c + b) = Qeqb a b.
Proof. destruct (Qeqb a b) eqn:E; [apply Qeqb_eq in E; apply Qeqb_eq; lra|apply Qeqb_neq in E; apply Qeqb_neq; lra]. Qed.
Lemma pick_shift any c l : forall m, pick any (c + m) (map (Qplus c) l) = c + pick any m l.
Proof.
  induction l as [|x l IH]; intro m; cbn; [reflexivity|].
  rewrite !qltb_shift. destruct (if any then Qltb x m else Qltb m x); apply IH.
Qed.
Lemma best_shift any c l : best any (map (Qplus c) l) = option_map (Qplus c) (best any l).
Proof. destruct l as [|x l]; cbn; [reflexivity|]. rewrite pick_shift. reflexivity. Qed.
Lemma pick_in any l : forall m, pick any m l = m \/ In (pick any m l) l.
Proof.
  induction l as [|x l IH]; intro m; cbn; [auto|].
  destruct (if any then Qltb x m else Qltb m x); [destruct (IH x) as [->|H]|destruct (IH m) as [->|H]]; auto.
Qed.
Lemma best_in any l t : best any l = Some t -> In t l.
Proof. destruct l as [|x l]; cbn; [discriminate|]. intros [= <-]. destruct (pick_in any l x) as [->|H]; auto. Qed.
Lemma later_shift c d : 0 <= d -> later c (c + d) = c + d.
Proof. intro H. unfold later. replace (Qleb c (c + d)) with true; [reflexivity|]. symmetry. apply Qleb_le. lra. Qed.
Lemma due_at f t : Qltb f t || (Qeqb f t && true) = Qleb f t.
Proof.
  rewrite andb_true_r. destruct (Qleb f t) eqn:E.
  - apply Qleb_le in E. apply orb_true_iff. destruct (Qeqb f t) eqn:F; [auto|].
    left. apply Qltb_lt. apply Qeqb_neq in F. apply Qle_lteq in E. destruct E; [assumption|contradiction].
  - apply Qleb_gt in E. apply orb_false_iff. split; [apply Qltb_ge; lra|apply Qeqb_neq; lra].
Qed.

Lemma filter_nodup (f : nat -> bool) l : NoDup l -> NoDup (filter f l).
Proof. apply NoDup_filter. Qed.
Lemma nodups_id l : NoDup l -> nodups l = l.
Proof.
  induction 1 as [|i l Hi Hn IH]; cbn; [reflexivity|]. rewrite IH. f_equal.
  clear IH Hn. induction l as [|j l IH]; cbn; [reflexivity|].
  destruct (Nat.eqb j i) eqn:E; [apply Nat.eqb_eq in E; subst; exfalso; apply Hi; left; reflexivity|].
  cbn. rewrite IH; [reflexivity|]. intro. apply Hi. right. assumption.
Qed.

(** ** Statements *)
Lemma nstep_same (s r : kst Z) o : n_dict s = n_dict r -> n_events s = n_events r -> n_rehearsing r = true ->
  (forall n, o = NCreateEvent n -> snd (nstep s o) <> NSimError) ->
  snd (nstep s o) = snd (nstep r o) /\ n_dict (fst (nstep s o)) = n_dict (fst (nstep r o))
  /\ n_events (fst (nstep s o)) = n_events (fst (nstep r o)) /\ n_rehearsing (fst (nstep r o)) = true.
Proof.
  destruct s as [d ev b], r as [d' ev' b']. cbn. intros <- <- -> G.
  destruct o.
  9: { cbn in G |- *. specialize (G n eq_refl). unfold set_know in *.
       destruct (kmem n d), b; cbn in *; auto; congruence. }
  all: cbn.
  all: repeat first
    [ match goal with |- context [let '(_, _) := ?e in _] => destruct e as [? ?] eqn:? end
    | match goal with |- context [match ?e with _ => _ end] => destruct e eqn:? end ]; cbn; auto.
Qed.

(** ** A yield *)
Definition left_over (l free : list nat) : list nat := filter (fun i => negb (existsb (Nat.eqb i) l)) free.
Lemma left_over_in l free i : In i (left_over l free) <-> In i free /\ ~ In i l.
Proof.
  unfold left_over. rewrite filter_In. split; intros [H N]; split; auto.
  - intro I. apply negb_true_iff in N. enough (existsb (Nat.eqb i) l = true) by congruence.
    apply existsb_exists. exists i. split; [exact I|apply Nat.eqb_refl].
  - apply negb_true_iff. destruct (existsb (Nat.eqb i) l) eqn:E; [|reflexivity].
    apply existsb_exists in E. destruct E as (k & K & E). apply Nat.eqb_eq in E. subst. contradiction.
Qed.
Definition dueb (t : Q) (s : option nat) (f : Q) (n : nat) : bool :=
  Qltb f t || (Qeqb f t && match s with None => true | Some k => Nat.leb n k end).
Lemma after n free cur w g l t s c g' :
  hrel n free cur (wd_heap w) g -> NoDup l -> incl l free ->
  List.length g' = n ->
  (forall j, ~ In j l -> nth_error g' j = nth_error g j) ->
  (forall j y, In j l -> nth_error g j = Some y -> nth_error g' j = Some (finish1 (c j) (start1 y))) ->
  (forall j x f k, In j l -> nth_error (wd_heap (fold_left schedule l w)) j = Some x -> w_fire x = Some (f, k) -> dueb t s f k = c j) ->
  hrel n (left_over l free) l (map (due t s) (wd_heap (fold_left schedule l w))) g'.
Proof.
  intros (L1 & L2 & B & R) Hd Hi L3 G1 G2 C.
  destruct (schedules_keep l w) as (_ & _ & K & _).
  split; [rewrite map_length, K; exact L1|]. split; [exact L3|]. split.
  - intros i I. apply B. apply in_or_app. right. apply in_app_or in I. destruct I as [I|I]; [apply Hi, I|apply left_over_in in I; apply I].
  - intros j x' y' Hx Hy.
    rewrite map_nth in Hx. destruct (nth_error (wd_heap (fold_left schedule l w)) j) as [x1|] eqn:E1; [|discriminate].
    injection Hx as <-.
    assert (Hj : (j < n)%nat) by (rewrite <- L3; apply nth_error_Some; congruence).
    destruct (nth_error (wd_heap w) j) as [x|] eqn:Ex; [|exfalso; apply nth_error_None in Ex; lia].
    destruct (nth_error g j) as [y|] eqn:Ey; [|exfalso; apply nth_error_None in Ey; lia].
    destruct (R j x y Ex Ey) as (Bs & Fr & Cu).
    destruct (schedules_nth l Hd w j x Ex) as [N1 N2].
    destruct (in_dec Nat.eq_dec j l) as [I|I].
    + destruct (Fr (Hi j I)) as (F1 & F2 & F3). destruct (N2 I F1) as (z & Ez & s0 & ->).
      rewrite E1 in Ez. injection Ez as ->.
      pose proof (C j _ (now w + w_time x) s0 I E1 eq_refl) as Cj. unfold dueb in Cj.
      rewrite (G2 j y I Ey) in Hy. injection Hy as <-.
      destruct Bs as (B1 & B2 & B3 & B4 & B5).
      unfold due. cbn [w_fire]. rewrite Cj. split; [|split].
      * destruct (c j); repeat split; cbn; auto.
      * intro I'. apply left_over_in in I'. destruct I' as [_ I']. contradiction.
      * intros _. destruct (c j); repeat split; cbn; auto; try discriminate.
    + rewrite N1 in E1 by exact I. injection E1 as <-. rewrite G1, Ey in Hy by exact I. injection Hy as <-.
      destruct Bs as (B1 & B2 & B3 & B4 & B5). split; [|split].
      * unfold due. destruct (w_fire x) as [[f k]|]; [|repeat split; auto].
        destruct (_ || _); repeat split; auto.
      * intro I'. apply left_over_in in I'. destruct (Fr (proj1 I')) as (F1 & F2 & F3).
        unfold due. rewrite F1. repeat split; auto.
      * intro I'. contradiction.
Qed.

Lemma shows_at t w v : shows_all w = shows_all v -> forall h n g m,
  shows_all (at_time t (with_heap w h n)) = shows_all (at_time t (with_heap v g m)).
Proof. unfold shows_all, at_time. cbn. intros E h n g m. injection E as A B C. rewrite A, B, C. reflexivity. Qed.
Lemma shows_now w v : shows_all w = shows_all v -> now w = now v.
Proof. unfold shows_all, now. intro E. injection E as A B C. rewrite A. reflexivity. Qed.

(** The Waits yielded: their times in the two worlds *)
Lemma free_nth n free cur h g i : hrel n free cur h g -> In i free ->
  exists x y, nth_error h i = Some x /\ nth_error g i = Some y /\ base x y /\ isfree x y.
Proof.
  intros (L1 & L2 & B & R) I. assert (L : (i < n)%nat) by (apply B, in_or_app; auto).
  destruct (nth_error h i) as [x|] eqn:Ex; [|exfalso; apply nth_error_None in Ex; lia].
  destruct (nth_error g i) as [y|] eqn:Ey; [|exfalso; apply nth_error_None in Ey; lia].
  destruct (R i x y Ex Ey) as (Bs & Fr & _). exists x, y. auto.
Qed.
Definition time_at (g : list wait) (i : nat) : Q := match nth_error g i with Some y => w_time y | None => 0 end.
Lemma fires_eq n free cur w g l : hrel n free cur (wd_heap w) g -> NoDup l -> incl l free ->
  forall m, incl m l ->
  flat_map (fun i => match fire_of (fold_left schedule l w) i with Some (f, _) => [f] | None => [] end) m
  = map (Qplus (now w)) (map (time_at g) m).
Proof.
  intros H Hd Hi. induction m as [|i m IH]; intro Hm; cbn; [reflexivity|].
  rewrite IH by (intros z Z; apply Hm; right; exact Z).
  assert (I : In i l) by (apply Hm; left; reflexivity).
  destruct (free_nth _ _ _ _ _ i H (Hi i I)) as (x & y & Ex & Ey & (B1 & _) & (F1 & _)).
  destruct (schedules_nth l Hd w i x Ex) as [_ N2]. destruct (N2 I F1) as (z & Ez & s0 & ->).
  unfold fire_of. rewrite Ez. cbn [w_fire app].
  assert (Et : time_at g i = w_time x) by (unfold time_at; rewrite Ey; symmetry; exact B1). rewrite Et. reflexivity.
Qed.
Lemma times_eq n free cur h g l : hrel n free cur h g -> NoDup l -> incl l free ->
  forall m, incl m l ->
  flat_map (fun i => match rtime_of (fold_left (fun h i => on i start1 h) l g) i with Some t => [(i, t)] | None => [] end) m
  = map (fun i => (i, time_at g i)) m.
Proof.
  intros H Hd Hi. induction m as [|i m IH]; intro Hm; cbn; [reflexivity|].
  rewrite IH by (intros z Z; apply Hm; right; exact Z).
  assert (I : In i l) by (apply Hm; left; reflexivity).
  destruct (free_nth _ _ _ _ _ i H (Hi i I)) as (x & y & Ex & Ey & (B1 & B2 & _) & _).
  unfold rtime_of. rewrite (proj2 (starts_nth l Hd g i) I), Ey. cbn [option_map app].
  assert (Et : time_at g i = w_rtime (start1 y)) by (unfold time_at; rewrite Ey; symmetry; exact B2). rewrite Et. reflexivity.
Qed.

Lemma yield_step n free cur w v e :
  wrel n free cur w v -> ids e <> [] -> NoDup (ids e) -> incl (ids e) free ->
  exists h t, rehearse_event (wd_heap v) e = (h, Some t) /\
    wrel n (left_over (ids e) free) (ids e) (fst (wait_for w e)) (at_time (now v + t) (with_heap v h (wd_seq v))).
Proof.
  intros (S & Rh & H) Ne Hd Hi.
  pose proof (shows_now _ _ S) as Nw.
  assert (multi : forall l any, ids e = l -> l <> [] ->
    exists t, best any (map (time_at (wd_heap v)) l) = Some t /\
    let g' := fold_left (fun h it => on (fst it) (finish1 (Qleb (snd it) t)) h) (map (fun i => (i, time_at (wd_heap v) i)) l)
                (fold_left (fun h i => on i start1 h) l (wd_heap v)) in
    let w1 := fold_left schedule l w in
    later (now w1) (now w + t) = now v + t /\
    wrel n (left_over l free) l (at_time (now v + t) (with_heap w1 (map (due (now v + t) None) (wd_heap w1)) (wd_seq w1)))
      (at_time (now v + t) (with_heap v g' (wd_seq v)))).
  { intros l any El Nl. rewrite El in *.
    destruct (best any (map (time_at (wd_heap v)) l)) as [t|] eqn:Eb; [|exfalso; destruct l; [congruence|discriminate]].
    exists t. split; [reflexivity|]. cbn zeta.
    destruct (schedules_keep l w) as (K1 & K2 & K3 & K4 & K5).
    assert (P : 0 <= t).
    { apply best_in in Eb. apply in_map_iff in Eb. destruct Eb as (i & <- & I).
      destruct (free_nth _ _ _ _ _ i H (Hi i I)) as (x & y & Ex & Ey & (_ & _ & B3 & _) & _).
      unfold time_at. rewrite Ey. exact B3. }
    split; [rewrite K2, <- Nw; apply later_shift; exact P|].
    assert (Mf : map fst (map (fun i => (i, time_at (wd_heap v) i)) l) = l).
    { rewrite map_map. cbn. apply map_id. }
    assert (Dd : NoDup (map fst (map (fun i => (i, time_at (wd_heap v) i)) l))) by (rewrite Mf; exact Hd).
    split; [apply shows_at; rewrite K1; exact S|]. split; [exact Rh|].
    cbn [wd_heap with_heap at_time].
    apply (after n free cur w (wd_heap v) l (now v + t) None (fun j => Qleb (time_at (wd_heap v) j) t)); auto.
    - rewrite finishes_len, starts_len. apply H.
    - intros j J. rewrite (proj1 (finishes_nth t _ Dd _ j)) by (rewrite Mf; exact J).
      apply (proj1 (starts_nth l Hd (wd_heap v) j)). exact J.
    - intros j y J Ey. rewrite (proj2 (finishes_nth t _ Dd _ j) (time_at (wd_heap v) j)) by (apply in_map_iff; exists j; auto).
      rewrite (proj2 (starts_nth l Hd (wd_heap v) j) J), Ey. reflexivity.
    - intros j x f k J Ex Ef.
      destruct (free_nth _ _ _ _ _ j H (Hi j J)) as (x0 & y & Ex0 & Ey & (B1 & _) & (F1 & _)).
      destruct (schedules_nth l Hd w j x0 Ex0) as [_ N2]. destruct (N2 J F1) as (z & Ez & s0 & ->).
      rewrite Ex in Ez. injection Ez as ->. cbn in Ef. injection Ef as <- <-.
      unfold dueb. rewrite due_at, Nw. unfold time_at. rewrite Ey, B1.
      destruct (Qleb (w_time y) t) eqn:E; [apply Qleb_le in E; apply Qleb_le; lra|apply Qleb_gt in E; apply Qleb_gt; lra]. }
  destruct e as [i|l|l]; cbn [ids] in *.
  - clear multi. assert (I : In i free) by (apply Hi; left; reflexivity).
    destruct (free_nth _ _ _ _ _ i H I) as (x & y & Ex & Ey & (B1 & B2 & B3 & B4 & B5) & (F1 & F2 & F3)).
    destruct (schedules_nth [i] Hd w i x Ex) as [_ N2]. destruct (N2 (or_introl eq_refl) F1) as (z & Ez & s0 & ->).
    destruct (schedules_keep [i] w) as (K1 & K2 & K3 & K4 & K5).
    assert (St : nth_error (on i start1 (wd_heap v)) i = Some (start1 y)) by (rewrite on_nth, Nat.eqb_refl, Ey; reflexivity).
    exists (on i (finish1 true) (on i start1 (wd_heap v))), (w_time y). split.
    + unfold rehearse_event. cbn [ids fold_left]. unfold rtime_of. rewrite St. cbn. rewrite B2. reflexivity.
    + unfold wait_for. cbn [ids]. set (w1 := fold_left schedule [i] w) in *.
      unfold fire_of. rewrite Ez. cbn [w_fire w_proc]. rewrite F2. cbn [fst].
      assert (Lt : later (now w1) (now w + w_time x) = now v + w_time y).
      { rewrite K2, <- Nw, B1. apply later_shift. exact B3. }
      rewrite Lt. split; [apply shows_at; rewrite K1; exact S|]. split; [exact Rh|].
      cbn [wd_heap with_heap at_time].
      apply (after n free cur w (wd_heap v) [i] (now v + w_time y) (Some s0) (fun _ => true)); auto.
      * rewrite !on_len. apply H.
      * intros j J. assert (E : Nat.eqb i j = false) by (apply Nat.eqb_neq; intros ->; apply J; left; reflexivity).
        rewrite !on_nth, E. reflexivity.
      * intros j y0 [<-|[]] E0. rewrite !on_nth, Nat.eqb_refl, E0. reflexivity.
      * intros j x0 f k [<-|[]] E0 Ef. unfold w1 in Ez. rewrite Ez in E0. injection E0 as <-. cbn in Ef. injection Ef as <- <-.
        unfold dueb. rewrite Nat.leb_refl, due_at, Nw, B1. apply Qleb_le. lra.
  - destruct (multi l true eq_refl Ne) as (t & Eb & Lt & W).
    eexists. exists t. split.
    + unfold rehearse_event. cbn [ids]. rewrite nodups_id by exact Hd.
      rewrite (times_eq n free cur (wd_heap w) (wd_heap v) l H Hd Hi l (incl_refl l)).
      assert (Ms : map snd (map (fun i => (i, time_at (wd_heap v) i)) l) = map (time_at (wd_heap v)) l) by (rewrite map_map; reflexivity).
      rewrite Ms, Eb. reflexivity.
    + unfold wait_for. cbn [ids fst].
      rewrite (fires_eq n free cur w (wd_heap v) l H Hd Hi l (incl_refl l)), best_shift, Eb. cbn [option_map].
      rewrite Lt. exact W.
  - destruct (multi l false eq_refl Ne) as (t & Eb & Lt & W).
    eexists. exists t. split.
    + unfold rehearse_event. cbn [ids]. rewrite nodups_id by exact Hd.
      rewrite (times_eq n free cur (wd_heap w) (wd_heap v) l H Hd Hi l (incl_refl l)).
      assert (Ms : map snd (map (fun i => (i, time_at (wd_heap v) i)) l) = map (time_at (wd_heap v)) l) by (rewrite map_map; reflexivity).
      rewrite Ms, Eb. reflexivity.
    + unfold wait_for. cbn [ids fst].
      rewrite (fires_eq n free cur w (wd_heap v) l H Hd Hi l (incl_refl l)), best_shift, Eb. cbn [option_map].
      rewrite Lt. exact W.
Qed.

(** ** Statements, new Waits, questions *)
Lemma exec_step n free cur w v o : wrel n free cur w v ->
  (forall k, o = SK (NCreateEvent k) -> snd (exec w o) <> OK NSimError) ->
  snd (exec w o) = snd (exec v o) /\ wrel n free cur (fst (exec w o)) (fst (exec v o)).
Proof.
  intros (S & Rh & H) G. unfold shows_all in S. injection S as A D E.
  destruct o as [o|o].
  - assert (X : forall o, match o with ATime _ => False | _ => True end -> forall w, exec w (SA o) = let '(a, r) := astep (wd_actor w) o in (mkWd a (wd_kn w) (wd_heap w) (wd_seq w), OA r)).
    { intros [] Hn u; try reflexivity; contradiction. }
    destruct (match o with ATime _ => true | _ => false end) eqn:T.
    + destruct o; try discriminate. cbn. split; [reflexivity|]. split; [unfold shows_all; congruence|]. split; auto.
    + assert (N : match o with ATime _ => False | _ => True end) by (destruct o; try exact I; discriminate).
      rewrite !(X o N), A. destruct (astep (wd_actor v) o) as [a r]. cbn. split; [reflexivity|].
      split; [unfold shows_all; cbn; congruence|]. split; auto.
  - assert (X : (exists i, o = NProcessed i) \/ forall w, exec w (SK o) = let '(k, r) := nstep (wd_kn w) o in (mkWd (wd_actor w) k (wd_heap w) (wd_seq w), OK r)).
    { destruct o; try (right; intro; reflexivity). left. eexists. reflexivity. }
    destruct X as [[i ->]|X]; [cbn; split; [reflexivity|]; split; [unfold shows_all; congruence|]; split; auto|].
    rewrite !X in *. clear X.
    destruct (nstep_same (wd_kn w) (wd_kn v) o D E Rh) as (P1 & P2 & P3 & P4).
    { intros k ->. specialize (G k eq_refl). destruct (nstep (wd_kn w) (NCreateEvent k)) as [k1 r]. cbn in *. intros ->. apply G. reflexivity. }
    destruct (nstep (wd_kn w) o) as [k1 r1], (nstep (wd_kn v) o) as [k2 r2]. cbn in *. subst r2.
    split; [reflexivity|]. split; [unfold shows_all; cbn; congruence|]. split; auto.
Qed.
Lemma new_step n free cur w v d r : wrel n free cur w v -> (r = None \/ r = Some d) ->
  snd (new_wait w d r) = snd (new_wait v d r) /\
  ((snd (new_wait w d r) = Some n /\ wrel (S n) (n :: free) cur (fst (new_wait w d r)) (fst (new_wait v d r))) \/
   (snd (new_wait w d r) = None /\ wrel n free cur (fst (new_wait w d r)) (fst (new_wait v d r)))).
Proof.
  intros (S & Rh & H) Hr. unfold new_wait. destruct (Qltb d 0) eqn:Ed; cbn [fst snd].
  - split; [reflexivity|]. right. split; [reflexivity|]. split; auto.
  - apply Qltb_ge in Ed. destruct H as (L1 & L2 & B & R).
    split; [congruence|]. left. split; [congruence|]. split; [exact S|]. split; [exact Rh|].
    cbn [wd_heap with_heap].
    assert (Er : match r with None => d | Some x => x end = d) by (destruct Hr; subst; reflexivity). rewrite Er.
    split; [rewrite app_length, L1; cbn; lia|]. split; [rewrite app_length, L2; cbn; lia|]. split.
    + intros i I. apply in_app_or in I. destruct I as [I|[<-|I]]; [|lia|].
      * specialize (B i (in_or_app _ _ _ (or_introl I))). lia.
      * specialize (B i (in_or_app _ _ _ (or_intror I))). lia.
    + intros i x y Hx Hy. destruct (Nat.lt_ge_cases i n) as [Li|Li].
      * rewrite nth_error_app1 in Hx, Hy by lia. destruct (R i x y Hx Hy) as (P & F & C).
        split; [exact P|]. split; [|exact C]. intros [->|I]; [lia|auto].
      * assert (i = n).
        { assert (i < List.length (wd_heap w ++ [mkW d d None false false false]))%nat by (apply nth_error_Some; congruence).
          rewrite app_length, L1 in H. cbn in H. lia. }
        subst i. rewrite nth_error_app2 in Hx, Hy by lia. rewrite L1, Nat.sub_diag in Hx. rewrite L2, Nat.sub_diag in Hy.
        cbn in Hx, Hy. injection Hx as <-. injection Hy as <-.
        split; [repeat split; auto|]. split; [repeat split; auto|].
        intro I. specialize (B n (in_or_app _ _ _ (or_introl I))). lia.
Qed.
Lemma done_step n free cur w v i : wrel n free cur w v -> In i (cur ++ free) -> is_done w i = is_done v i.
Proof.
  intros (S & Rh & (L1 & L2 & B & R)) I. unfold is_done. pose proof (B i I) as L.
  destruct (nth_error (wd_heap w) i) as [x|] eqn:Ex; [|exfalso; apply nth_error_None in Ex; lia].
  destruct (nth_error (wd_heap v) i) as [y|] eqn:Ey; [|exfalso; apply nth_error_None in Ey; lia].
  destruct (R i x y Ex Ey) as ((B1 & B2 & B3 & B4 & B5) & Fr & Cu). rewrite B4. apply in_app_or in I. destruct I as [I|I].
  - destruct (Cu I) as (C1 & C2 & C3). rewrite C2, C3. destruct (w_fire x); [reflexivity|congruence].
  - destruct (Fr I) as (F1 & F2 & F3). rewrite F1, F3, B5. reflexivity.
Qed.

(** ** The whole task *)
Definition outcome (r : world * ending * list seen) := (shows_all (fst (fst r)), snd (fst r), snd r).
Lemma granted_tl a l : granted (a :: l) -> granted l.
Proof. intros G t o r I. apply (G t o r). right. exact I. Qed.
Lemma predicts n free cur p : tidy n free cur p -> forall w v, wrel n free cur w v ->
  granted (snd (run p w)) ->
  outcome (run p w) = outcome (rehearse_on p v) /\
  exists m, wrel m [] [] (fst (fst (run p w))) (fst (fst (rehearse_on p v))).
Proof.
  assert (weak : forall n free cur w v, wrel n free cur w v -> wrel n [] [] w v).
  { intros ? ? ? w v (S & Rh & (L1 & L2 & B & R)). split; [exact S|]. split; [exact Rh|].
    repeat split; auto; try contradiction; apply (R _ _ _ H H0). }
  induction 1 as [n free cur|n free cur|n free cur o k Hk IH|n free cur k Hk IH|n free cur d r k Hr Hs IHs Hn IHn|n free cur i k Hi Hk IH|n free cur e k Ne Hd Hi Ha Hk IH];
    intros w v W G; cbn [run rehearse_on] in *.
  - split; [unfold outcome; cbn; destruct W as (-> & _); reflexivity|]. eexists. apply (weak _ _ _ _ _ W).
  - split; [unfold outcome; cbn; destruct W as (-> & _); reflexivity|]. eexists. apply (weak _ _ _ _ _ W).
  - destruct (exec_step n free cur w v o W) as [Eo W1].
    { intros j ->. intro Bad. destruct (exec w (SK (NCreateEvent j))) as [w1 r1]. cbn in Bad. subst r1.
      destruct (run (k (OK NSimError)) w1) as [[w2 e] l]. cbn in G. apply (proj2 (G (now w) (NCreateEvent j) NSimError (or_introl eq_refl)) j); reflexivity. }
    pose proof (shows_now _ _ (proj1 W)) as Nw.
    destruct (exec w o) as [w1 r1], (exec v o) as [v1 r2]. cbn in Eo, W1. subst r2.
    specialize (IH r1 w1 v1 W1). destruct (run (k r1) w1) as [[w2 e] l]. destruct (rehearse_on (k r1) v1) as [[v2 e'] l'].
    cbn in *. destruct (IH (granted_tl _ _ G)) as [P Q]. unfold outcome in *. cbn in *. split; [congruence|exact Q].
  - pose proof (shows_now _ _ (proj1 W)) as Nw. rewrite <- Nw.
    specialize (IH (now w) w v W). destruct (run (k (now w)) w) as [[w2 e] l]. destruct (rehearse_on (k (now w)) v) as [[v2 e'] l'].
    cbn in *. destruct (IH (granted_tl _ _ G)) as [P Q]. unfold outcome in *. cbn in *. split; [congruence|exact Q].
  - destruct (new_step n free cur w v d r W Hr) as [Ei Cases].
    destruct (new_wait w d r) as [w1 i1], (new_wait v d r) as [v1 i2]. cbn in Ei, Cases. subst i2.
    destruct Cases as [[-> W1]|[-> W1]].
    + specialize (IHs w1 v1 W1). destruct (run (k (Some n)) w1) as [[w2 e] l]. destruct (rehearse_on (k (Some n)) v1) as [[v2 e'] l'].
      cbn in *. destruct (IHs (granted_tl _ _ G)) as [P Q]. unfold outcome in *. cbn in *. split; [congruence|exact Q].
    + specialize (IHn w1 v1 W1). destruct (run (k None) w1) as [[w2 e] l]. destruct (rehearse_on (k None) v1) as [[v2 e'] l'].
      cbn in *. destruct (IHn (granted_tl _ _ G)) as [P Q]. unfold outcome in *. cbn in *. split; [congruence|exact Q].
  - rewrite <- (done_step n free cur w v i W Hi).
    specialize (IH (is_done w i) w v W). destruct (run (k (is_done w i)) w) as [[w2 e] l]. destruct (rehearse_on (k (is_done w i)) v) as [[v2 e'] l'].
    cbn in *. destruct (IH (granted_tl _ _ G)) as [P Q]. unfold outcome in *. cbn in *. split; [congruence|exact Q].
  - pose proof (shows_now _ _ (proj1 W)) as Nw.
    destruct (yield_step n free cur w v e W Ne Hd Hi) as (h & t & E & W1). rewrite E.
    destruct (wait_for w e) as [w1 a]. cbn [fst] in W1. rewrite (Ha a) in *.
    specialize (IH w1 _ W1). destruct (run (k ANone) w1) as [[w2 en] l].
    destruct (rehearse_on (k ANone) (at_time (now v + t) (with_heap v h (wd_seq v)))) as [[v2 e'] l'].
    cbn in *. destruct (IH (granted_tl _ _ G)) as [P Q]. unfold outcome in *. cbn in *. split; [congruence|exact Q].
Qed.

(** ** Cloning *)
Lemma clone_idle w : idle (wd_actor w) ->
  clone w = Some (mkWd (wd_actor w) (mkKn (n_dict (wd_kn w)) (n_events (wd_kn w)) true) (wd_heap w) (wd_seq w)).
Proof.
  intros [T F]. unfold clone, now.
  assert (C : clone_slots (a_now (wd_actor w)) (a_slots (wd_actor w)) = Some (a_slots (wd_actor w))).
  { induction F as [|x l [D V] F IH]; cbn; [reflexivity|].
    unfold read_slot, linear_active, shared_active. destruct x as [kd vv dd tt]. cbn in *. subst.
    destruct kd; rewrite IH; reflexivity. }
  rewrite C. destruct (wd_actor w) as [t sl bt]. cbn in *. subst bt. reflexivity.
Qed.

(** ** Several tasks *)
Lemma chain_predicts ps : (forall n p, In p ps -> tidy n [] [] p) -> forall m w v, wrel m [] [] w v ->
  granted (snd (chain run ps w)) -> outcome (chain run ps w) = outcome (chain rehearse_on ps v).
Proof.
  induction ps as [|p ps IH]; intros T m w v W G; cbn [chain] in *.
  - unfold outcome. cbn. destruct W as (-> & _). reflexivity.
  - assert (Gp : granted (snd (run p w))).
    { intros t n r I. apply (G t n r). destruct (run p w) as [[w1 e] l]. cbn in I. destruct e; cbn; [|exact I].
      destruct (chain run ps w1) as [[w2 e2] l2]. cbn. apply in_or_app. left. exact I. }
    destruct (predicts m [] [] p (T m p (or_introl eq_refl)) w v W Gp) as [P (m1 & W1)].
    destruct (run p w) as [[w1 e] l], (rehearse_on p v) as [[v1 e1] l1]. unfold outcome in P. cbn in P, W1.
    injection P as P1 P2 P3 <- <-. destruct e; [|unfold outcome; cbn; destruct W1 as (-> & _); reflexivity].
    assert (G1 : granted (snd (chain run ps w1))).
    { intros t n r I. apply (G t n r). destruct (chain run ps w1) as [[w2 e2] l2]. cbn. apply in_or_app. right. exact I. }
    specialize (IH (fun n q Iq => T n q (or_intror Iq)) m1 w1 v1 W1 G1).
    destruct (chain run ps w1) as [[w2 e2] l2], (chain rehearse_on ps v1) as [[v2 e3] l3].
    unfold outcome in *. cbn in *. injection IH as A B C -> ->. unfold shows_all. rewrite A, B, C. reflexivity.
Qed.

(** ** The rehearsal is not ahead of the run *)
Definition lrel (n : nat) (w v : world) : Prop :=
  now w <= now v /\ List.length (wd_heap w) = n /\ List.length (wd_heap v) = n /\
  forall i x y, nth_error (wd_heap w) i = Some x -> nth_error (wd_heap v) i = Some y ->
    w_time x = w_time y /\ w_rtime y = w_time y /\ 0 <= w_time x /\
    match w_fire x with None => True | Some (f, _) => f <= now w + w_time x end.

Lemma schedule_lrel n w v i : lrel n w v -> lrel n (schedule w i) v.
Proof.
  intros (N & L1 & L2 & R). destruct (schedule_keeps w i) as (K1 & K2 & K3 & K4 & K5).
  split; [rewrite K2; exact N|]. split; [rewrite K3; exact L1|]. split; [exact L2|].
  intros j x y Hx Hy. rewrite K2. unfold schedule in Hx.
  destruct (nth_error (wd_heap w) i) as [z|] eqn:Ez; [|apply (R j x y Hx Hy)].
  destruct (w_fire z) eqn:Ef; [apply (R j x y Hx Hy)|]. cbn in Hx. rewrite upd_nth in Hx.
  destruct (Nat.eqb i j) eqn:E; [|apply (R j x y Hx Hy)]. apply Nat.eqb_eq in E. subst j. rewrite Ez in Hx.
  injection Hx as <-. cbn. destruct (R i z y Ez Hy) as (A & B & C & _). repeat split; auto. lra.
Qed.
Lemma schedules_lrel n v l : forall w, lrel n w v -> lrel n (fold_left schedule l w) v.
Proof. induction l as [|i l IH]; intros w H; cbn; [exact H|]. apply IH, schedule_lrel, H. Qed.
Lemma schedule_fires w i j : fire_of w j <> None -> fire_of (schedule w i) j <> None.
Proof.
  unfold schedule, fire_of. intro H. destruct (nth_error (wd_heap w) i) as [z|] eqn:Ez; [|exact H].
  destruct (w_fire z); [exact H|]. cbn. rewrite upd_nth. destruct (Nat.eqb i j); [|exact H].
  destruct (nth_error (wd_heap w) j); [cbn; discriminate|exact H].
Qed.
Lemma schedule_self w i : (i < List.length (wd_heap w))%nat -> fire_of (schedule w i) i <> None.
Proof.
  intro L. unfold schedule, fire_of. destruct (nth_error (wd_heap w) i) as [z|] eqn:Ez; [|apply nth_error_None in Ez; lia].
  destruct (w_fire z) eqn:Ef; [rewrite Ez, Ef; discriminate|]. cbn. rewrite upd_nth, Nat.eqb_refl, Ez. discriminate.
Qed.
Lemma schedules_fires l : forall w j, fire_of w j <> None -> fire_of (fold_left schedule l w) j <> None.
Proof. induction l as [|i l IH]; intros w j H; cbn; [exact H|]. apply IH, schedule_fires, H. Qed.
Lemma schedules_self l : forall w, Forall (fun i => (i < List.length (wd_heap w))%nat) l ->
  forall j, In j l -> fire_of (fold_left schedule l w) j <> None.
Proof.
  induction l as [|i l IH]; intros w F j; cbn; [contradiction|]. inversion F as [|? ? Hi Hl]; subst. intros [->|J].
  - apply schedules_fires, schedule_self, Hi.
  - apply IH; [|exact J]. destruct (schedule_keeps w i) as (_ & _ & K & _). rewrite K. exact Hl.
Qed.

Lemma pick_mono any c l m : Forall2 (fun f d => f <= c + d) l m -> forall f0 d0, f0 <= c + d0 -> pick any f0 l <= c + pick any d0 m.
Proof.
  induction 1 as [|f d l m Hfd Hlm IH]; intros f0 d0 H0; cbn; [exact H0|].
  apply IH. destruct any.
  - destruct (Qltb f f0) eqn:A, (Qltb d d0) eqn:B; qbool; lra.
  - destruct (Qltb f0 f) eqn:A, (Qltb d0 d) eqn:B; qbool; lra.
Qed.
Lemma best_mono any c l m f d : Forall2 (fun f d => f <= c + d) l m -> best any l = Some f -> best any m = Some d -> f <= c + d.
Proof. destruct 1 as [|f0 d0 l m H0 H]; cbn; [discriminate|]. intros [= <-] [= <-]. apply pick_mono; assumption. Qed.
Lemma later_le a b c : a <= c -> b <= c -> later a b <= c.
Proof. unfold later. destruct (Qleb a b); auto. Qed.
Lemma later_ge a b : a <= later a b.
Proof. unfold later. destruct (Qleb a b) eqn:E; [apply Qleb_le; exact E|apply Qle_refl]. Qed.

(** What is left to check after a yield: the clocks; the Waits are as before up to flags *)
Definition alike (h g : list wait) : Prop :=
  List.length h = List.length g /\
  forall i x y, nth_error h i = Some x -> nth_error g i = Some y -> w_time x = w_time y /\ w_rtime x = w_rtime y /\ w_fire x = w_fire y.
Lemma alike_due t s h : alike (map (due t s) h) h.
Proof.
  split; [apply map_length|]. intros i x y Hx Hy. rewrite map_nth, Hy in Hx. injection Hx as <-.
  unfold due. destruct (w_fire y) as [[f k]|] eqn:E; [|auto]. destruct (_ || _); cbn; auto.
Qed.
Lemma alike_on i f h : (forall x, w_time (f x) = w_time x /\ w_rtime (f x) = w_rtime x /\ w_fire (f x) = w_fire x) -> alike (on i f h) h.
Proof.
  intro F. split; [apply on_len|]. intros j x y Hx Hy. rewrite on_nth, Hy in Hx.
  destruct (Nat.eqb i j); injection Hx as <-; [apply F|auto].
Qed.
Lemma alike_trans a b c : alike a b -> alike b c -> alike a c.
Proof.
  intros [L1 R1] [L2 R2]. split; [congruence|]. intros i x z Hx Hz.
  destruct (nth_error b i) as [y|] eqn:Hy.
  - destruct (R1 i x y Hx Hy) as (A & B & C), (R2 i y z Hy Hz) as (A' & B' & C'). repeat split; congruence.
  - apply nth_error_None in Hy. assert (i < List.length a)%nat by (apply nth_error_Some; congruence). lia.
Qed.
Lemma alike_refl h : alike h h.
Proof. split; [reflexivity|]. intros i x y Hx Hy. rewrite Hx in Hy. injection Hy as <-. auto. Qed.
Lemma alike_starts l : forall h, alike (fold_left (fun h i => on i start1 h) l h) h.
Proof. induction l as [|i l IH]; intro h; cbn; [apply alike_refl|]. eapply alike_trans; [apply IH|]. apply alike_on. auto. Qed.
Lemma alike_finishes t (l : list (nat * Q)) : forall h, alike (fold_left (fun h it => on (fst it) (finish1 (Qleb (snd it) t)) h) l h) h.
Proof. induction l as [|i l IH]; intro h; cbn; [apply alike_refl|]. eapply alike_trans; [apply IH|]. apply alike_on. auto. Qed.

Lemma lrel_after n w v t u h g a b : lrel n w v -> alike h (wd_heap w) -> alike g (wd_heap v) -> now w <= t -> t <= u ->
  lrel n (at_time t (with_heap w h a)) (at_time u (with_heap v g b)).
Proof.
  intros (N & L1 & L2 & R) [Lh Rh] [Lg Rg] Ht Hu. split; [exact Hu|]. cbn. split; [congruence|]. split; [congruence|].
  intros i x y Hx Hy.
  destruct (nth_error (wd_heap w) i) as [x0|] eqn:Ex; [|apply nth_error_None in Ex; assert (i < List.length h)%nat by (apply nth_error_Some; congruence); lia].
  destruct (nth_error (wd_heap v) i) as [y0|] eqn:Ey; [|apply nth_error_None in Ey; assert (i < List.length g)%nat by (apply nth_error_Some; congruence); lia].
  destruct (R i x0 y0 Ex Ey) as (A & B & C & D), (Rh i x x0 Hx Ex) as (A1 & B1 & C1), (Rg i y y0 Hy Ey) as (A2 & B2 & C2).
  rewrite A1, A2, B2, C1. repeat split; auto. destruct (w_fire x0) as [[f k]|]; [|exact Logic.I]. unfold now in *. cbn. lra.
Qed.

Lemma late_yield n w v e : lrel n w v -> ids e <> [] -> NoDup (ids e) -> Forall (fun i => (i < n)%nat) (ids e) ->
  exists h t, rehearse_event (wd_heap v) e = (h, Some t) /\
    lrel n (fst (wait_for w e)) (at_time (now v + t) (with_heap v h (wd_seq v))).
Proof.
  intros H Ne Hd Hb.
  assert (fact : forall l w1, w1 = fold_left schedule l w -> Forall (fun i => (i < n)%nat) l -> forall j, In j l ->
     exists x y f k, nth_error (wd_heap w1) j = Some x /\ nth_error (wd_heap v) j = Some y /\ w_time x = w_time y /\ w_rtime y = w_time y /\ 0 <= w_time y
       /\ w_fire x = Some (f, k) /\ f <= now v + w_time y).
  { intros l w1 -> Hl j J.
    pose proof (schedules_lrel n v l w H) as (N & L1 & L2 & R).
    assert (Lj : (j < n)%nat) by (rewrite Forall_forall in Hl; apply Hl, J).
    destruct (nth_error (wd_heap (fold_left schedule l w)) j) as [x|] eqn:Ex; [|apply nth_error_None in Ex; lia].
    destruct (nth_error (wd_heap v) j) as [y|] eqn:Ey; [|apply nth_error_None in Ey; lia].
    destruct (R j x y Ex Ey) as (A & B & C & D).
    assert (Fj : fire_of (fold_left schedule l w) j <> None).
    { apply schedules_self; [|exact J]. destruct H as (_ & L & _). rewrite L. exact Hl. }
    unfold fire_of in Fj. rewrite Ex in Fj. destruct (w_fire x) as [[f k]|] eqn:Ef; [|congruence].
    exists x, y, f, k. repeat split; auto; [rewrite <- A; exact C|]. rewrite <- A. lra. }
  assert (multi : forall l any, ids e = l ->
    let w1 := fold_left schedule l w in
    let g1 := fold_left (fun h i => on i start1 h) l (wd_heap v) in
    exists f t, best any (flat_map (fun i => match fire_of w1 i with Some (f, _) => [f] | None => [] end) l) = Some f /\
      best any (map snd (flat_map (fun i => match rtime_of g1 i with Some t => [(i, t)] | None => [] end) (nodups l))) = Some t /\
      later (now w1) f <= now v + t).
  { intros l any El. cbn zeta. rewrite El in *. rewrite nodups_id by exact Hd.
    pose proof (fact l _ eq_refl Hb) as Fa.
    assert (F2 : forall m, incl m l -> exists fs ds,
      flat_map (fun i => match fire_of (fold_left schedule l w) i with Some (f, _) => [f] | None => [] end) m = fs /\
      map snd (flat_map (fun i => match rtime_of (fold_left (fun h i => on i start1 h) l (wd_heap v)) i with Some t => [(i, t)] | None => [] end) m) = ds /\
      Forall2 (fun f d => f <= now v + d) fs ds /\ List.length fs = List.length m /\ Forall (fun d => 0 <= d) ds).
    { induction m as [|j m IH]; intro Hm; [exists [], []; repeat split; constructor|].
      destruct IH as (fs & ds & A & B & C & D & P); [intros z Z; apply Hm; right; exact Z|].
      destruct (Fa j (Hm j (or_introl eq_refl))) as (x & y & f & k & Ex & Ey & Q1 & Q2 & Q3 & Q4 & Q5).
      exists (f :: fs), (w_time y :: ds). cbn. unfold fire_of at 1. rewrite Ex, Q4.
      unfold rtime_of at 1. rewrite (proj2 (starts_nth l Hd (wd_heap v) j) (Hm j (or_introl eq_refl))), Ey. cbn.
      rewrite A, B, Q2, D. repeat split; auto. }
    destruct (F2 l (incl_refl l)) as (fs & ds & A & B & C & D & P). rewrite A, B.
    destruct (best any fs) as [f|] eqn:Ef; [|destruct fs, l; cbn in *; congruence].
    destruct (best any ds) as [t|] eqn:Et; [|destruct C; cbn in *; congruence].
    exists f, t. split; [reflexivity|]. split; [reflexivity|]. apply later_le; [|apply (best_mono any _ _ _ _ _ C Ef Et)].
    destruct (schedules_keep l w) as (_ & K & _). rewrite K. destruct H as (N & _).
    assert (0 <= t) by (rewrite Forall_forall in P; apply P, (best_in any), Et). lra. }
  destruct e as [i|l|l]; cbn [ids] in *.
  - destruct (fact [i] _ eq_refl Hb i (or_introl eq_refl)) as (x & y & f & k & Ex & Ey & Q1 & Q2 & Q3 & Q4 & Q5).
    exists (on i (finish1 true) (on i start1 (wd_heap v))), (w_time y). split.
    + unfold rehearse_event, rtime_of. cbn [ids fold_left]. rewrite on_nth, Nat.eqb_refl, Ey. cbn. rewrite Q2. reflexivity.
    + unfold wait_for. cbn [ids]. pose proof (schedules_lrel n v [i] w H) as H1. set (w1 := fold_left schedule [i] w) in *.
      unfold fire_of. rewrite Ex, Q4. destruct (w_proc x); cbn [fst].
      * assert (Ew : w1 = at_time (now w1) (with_heap w1 (wd_heap w1) (wd_seq w1))) by (destruct w1 as [[? ? ?] ? ? ?]; reflexivity).
        rewrite Ew. apply lrel_after; auto; [apply alike_refl| |apply Qle_refl|destruct H1 as (N & _); lra].
        eapply alike_trans; apply alike_on; auto.
      * apply lrel_after; auto; [apply alike_due| |apply later_ge|].
        -- eapply alike_trans; apply alike_on; auto.
        -- apply later_le; [destruct H1 as (N & _); lra|exact Q5].
  - destruct (multi l true eq_refl) as (f & t & Ef & Et & Lt).
    eexists. exists t. split.
    + unfold rehearse_event. cbn [ids]. rewrite Et. reflexivity.
    + unfold wait_for. cbn [ids fst]. rewrite Ef. apply lrel_after; auto; [apply schedules_lrel, H|apply alike_due| |apply later_ge].
      eapply alike_trans; [apply alike_finishes|apply alike_starts].
  - destruct (multi l false eq_refl) as (f & t & Ef & Et & Lt).
    eexists. exists t. split.
    + unfold rehearse_event. cbn [ids]. rewrite Et. reflexivity.
    + unfold wait_for. cbn [ids fst]. rewrite Ef. apply lrel_after; auto; [apply schedules_lrel, H|apply alike_due| |apply later_ge].
      eapply alike_trans; [apply alike_finishes|apply alike_starts].
Qed.

Lemma deactivate_now a i t : a_now (fst (deactivate a i t)) = a_now a.
Proof.
  unfold deactivate. destruct (nth_error (a_slots a) i) as [x|]; [|reflexivity]. destruct (nmem t (v_tasks x)); [|reflexivity].
  cbn [unlock]. destruct (read_slot _ _) as [x2 [v|e]]; [|reflexivity]. destruct (v_kind x); try reflexivity.
  destruct (shared_deactivate _ _ _) as [x3 [[]|e]]; reflexivity.
Qed.
Lemma deactivates_now l t : forall a, a_now (fst (deactivate_list a l t)) = a_now a.
Proof.
  induction l as [|i l IH]; intro a; cbn; [reflexivity|]. pose proof (deactivate_now a i t) as D.
  destruct (deactivate a i t) as [a1 r]. cbn in D. destruct r; cbn; try exact D. rewrite IH. exact D.
Qed.
Lemma astep_now a o : match o with ATime _ => False | _ => True end -> a_now (fst (astep a o)) = a_now a.
Proof.
  destruct o; cbn [astep]; intro N; try contradiction; try apply deactivate_now; try apply deactivates_now.
  - unfold activate. destruct (nth_error (a_slots a) i) as [x|]; [|reflexivity]. unfold lock.
    destruct (match v_kind x with Shared => _ | _ => _ end); [reflexivity|]. destruct (read_slot _ _). reflexivity.
  - destruct (nth_error (a_slots a) i) as [x|]; [|reflexivity]. destruct (read_slot _ _) as [x1 r]. reflexivity.
  - destruct (nth_error (a_slots a) i) as [x|]; reflexivity.
Qed.
Lemma exec_now w o : now (fst (exec w o)) = now w /\ wd_heap (fst (exec w o)) = wd_heap w.
Proof.
  destruct o as [o|o].
  - destruct o as [i t r|i t|l t|t|i|i v|t]; [| | | | | |split; reflexivity]; cbn [exec];
      (match goal with |- context [astep ?a ?o] => pose proof (astep_now a o Logic.I) as E; destruct (astep a o) end; cbn in *; auto).
  - destruct o; try (split; reflexivity); cbn [exec]; match goal with |- context [nstep ?k ?o] => destruct (nstep k o) end; auto.
Qed.
Lemma late n p : straight n p -> forall w v, lrel n w v -> now (fst (fst (run p w))) <= now (fst (fst (rehearse_on p v))).
Proof.
  induction 1 as [n|n o k Hk Hs IH|n k Hk Hs IH|n d k Hd Hs IH|n i k Hk Hs IH|n e k Ne Hd Hb Hk Hs IH]; intros w v W; cbn [run rehearse_on].
  - apply W.
  - destruct (exec_now w o) as [A B], (exec_now v o) as [C D].
    destruct (exec w o) as [w1 r1], (exec v o) as [v1 r2]. cbn in A, B, C, D. rewrite (Hk r1), (Hk r2).
    assert (W1 : lrel n w1 v1) by (unfold lrel; rewrite A, B, C, D; exact W).
    specialize (IH w1 v1 W1). destruct (run _ w1) as [[w2 e] l], (rehearse_on _ v1) as [[v2 e'] l']. exact IH.
  - rewrite (Hk (now w)), (Hk (now v)). specialize (IH w v W). destruct (run _ w) as [[w2 e] l], (rehearse_on _ v) as [[v2 e'] l']. exact IH.
  - unfold new_wait. replace (Qltb d 0) with false by (symmetry; apply Qltb_ge; exact Hd).
    destruct W as (N & L1 & L2 & R). rewrite L1, L2.
    match goal with |- context [run _ ?a] => set (w1 := a) end. match goal with |- context [rehearse_on _ ?a] => set (v1 := a) end.
    assert (W1 : lrel (S n) w1 v1).
    { split; [exact N|]. cbn. split; [rewrite app_length, L1; cbn; lia|]. split; [rewrite app_length, L2; cbn; lia|].
      intros i x y Hx Hy. destruct (Nat.lt_ge_cases i n) as [Li|Li].
      - rewrite nth_error_app1 in Hx, Hy by lia. apply (R i x y Hx Hy).
      - rewrite nth_error_app2 in Hx, Hy by lia. rewrite L1 in Hx. rewrite L2 in Hy.
        destruct (i - n)%nat as [|[|k0]]; cbn in Hx, Hy; try discriminate. injection Hx as <-. injection Hy as <-. cbn. auto. }
    specialize (IH w1 v1 W1). destruct (run _ w1) as [[w2 e] l], (rehearse_on _ v1) as [[v2 e'] l']. exact IH.
  - rewrite (Hk (is_done w i)), (Hk (is_done v i)). specialize (IH w v W). destruct (run _ w) as [[w2 e] l], (rehearse_on _ v) as [[v2 e'] l']. exact IH.
  - destruct (late_yield n w v e W Ne Hd Hb) as (h & t & E & W1). rewrite E.
    destruct (wait_for w e) as [w1 a]. cbn [fst] in W1. rewrite (Hk a).
    specialize (IH w1 _ W1). destruct (run _ w1) as [[w2 en] l], (rehearse_on _ _) as [[v2 e'] l']. exact IH.
Qed.
