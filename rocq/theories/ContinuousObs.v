(** Looking at the level does not change the future: a simulation between a
    run and the same run with extra evaluations of the level. *)
From Coq Require Import Morphisms.
From Verif Require Import Common ContainerModel ContinuousModel ContinuousSpec ContinuousProofs.

Lemma Qltb_c x x' y y' : x == x' -> y == y' -> Qltb x y = Qltb x' y'.
Proof.
  intros H1 H2. destruct (Qltb x y) eqn:E; destruct (Qltb x' y') eqn:E'; qbool; try reflexivity; exfalso; lra.
Qed.
Lemma Qleb_c x x' y y' : x == x' -> y == y' -> Qleb x y = Qleb x' y'.
Proof.
  intros H1 H2. destruct (Qleb x y) eqn:E; destruct (Qleb x' y') eqn:E'; qbool; try reflexivity; exfalso; lra.
Qed.
Lemma Qeqb_c x x' y y' : x == x' -> y == y' -> Qeqb x y = Qeqb x' y'.
Proof.
  intros H1 H2. destruct (Qeqb x y) eqn:E; destruct (Qeqb x' y') eqn:E'; qbool; try reflexivity; exfalso; lra.
Qed.

Definition osim (a b : option Q) : Prop :=
  match a, b with Some x, Some y => x == y | None, None => True | _, _ => False end.
Definition ssim (a b : ustat) : Prop :=
  match a, b with
  | UInit x, UInit y => x = y
  | UWait x, UWait y => osim x y
  | UEnd, UEnd => True
  | _, _ => False
  end.
Definition usim (a b : user) : Prop := u_rate a = u_rate b /\ ssim (u_stat a) (u_stat b).
Definition csim (a b : ckstat) : Prop :=
  match a, b with CkInit, CkInit => True | CkWait x, CkWait y => x == y | CkEnd, CkEnd => True | _, _ => False end.

Record sim (s s' : kst) : Prop := {
  m_cap : k_cap s = k_cap s'; m_ee : k_err_empty s = k_err_empty s'; m_ef : k_err_full s = k_err_full s';
  m_now : k_now s = k_now s'; m_rate : k_rate s == k_rate s';
  m_act : k_active s = k_active s'; m_chk : k_checking s = k_checking s';
  m_users : Forall2 usim (k_users s) (k_users s'); m_checks : Forall2 csim (k_checks s) (k_checks s');
  m_urg : k_urgent s = k_urgent s'; m_halt : k_halt s = k_halt s';
  m_L : forall t, L s t == L s' t;
  m_t : k_last s <= k_now s; m_t' : k_last s' <= k_now s' }.

Lemma usim_refl a : usim a a.
Proof. split; [reflexivity|]. destruct (u_stat a) as [|[|]|]; cbn; try reflexivity; exact I. Qed.
Lemma csim_refl a : csim a a.
Proof. destruct a; cbn; try reflexivity; exact I. Qed.
Lemma F2_refl {X} (R : X -> X -> Prop) l : (forall x, R x x) -> Forall2 R l l.
Proof. intro H. induction l; constructor; auto. Qed.
Lemma sim_refl s : k_last s <= k_now s -> sim s s.
Proof.
  intro H. constructor; try reflexivity; try exact H; apply F2_refl; (apply usim_refl || apply csim_refl).
Qed.

Lemma F2_nth {X} (R : X -> X -> Prop) l l' : Forall2 R l l' -> forall n,
  match nth_error l n, nth_error l' n with Some x, Some y => R x y | None, None => True | _, _ => False end.
Proof. induction 1 as [|x y l l' H1 H2 IH]; intros [|n]; cbn; auto. apply IH. Qed.
Lemma F2_upd {X} (R : X -> X -> Prop) l l' n x y : Forall2 R l l' -> R x y -> Forall2 R (upd l n x) (upd l' n y).
Proof. intro H. revert n. induction H; intros [|n] Hxy; cbn; constructor; auto. Qed.
Lemma F2_len {X} (R : X -> X -> Prop) l l' : Forall2 R l l' -> length l = length l'.
Proof. induction 1; cbn; auto. Qed.

Lemma m_cur s s' : sim s s' -> cur_level s == cur_level s'.
Proof. intro M. rewrite !cur_L. rewrite (m_now _ _ M). apply M. Qed.
Lemma m_rate_of s s' u : sim s s' -> rate_of s u = rate_of s' u.
Proof.
  intro M. unfold rate_of. pose proof (F2_nth _ _ _ (m_users _ _ M) u) as H.
  destruct (nth_error (k_users s) u), (nth_error (k_users s') u); try destruct H; auto.
Qed.
Lemma m_halted s s' : sim s s' -> halted s = halted s'.
Proof. intro M. unfold halted. rewrite (m_halt _ _ M). reflexivity. Qed.
Lemma m_alive s s' u : sim s s' -> alive s u = alive s' u.
Proof.
  intro M. unfold alive. pose proof (F2_nth _ _ _ (m_users _ _ M) u) as H.
  destruct (nth_error (k_users s) u) as [v|], (nth_error (k_users s') u) as [v'|]; try (destruct H; fail); [destruct H as [_ H]|reflexivity].
  destruct (u_stat v), (u_stat v'); try destruct H; reflexivity.
Qed.

(** Evaluating the level on one side only. *)
Lemma sim_set_level_l s s' : sim s s' -> sim (set_level s) s'.
Proof.
  intro M. pose proof (set_level_fields s) as (F1 & F2 & F3 & F4 & F5 & F6 & F7 & F8 & F9 & F10 & F11).
  constructor; rewrite ?F1, ?F2, ?F3, ?F4, ?F5, ?F6, ?F7, ?F8, ?F9, ?F10, ?F11; try apply M.
  - intro t. rewrite set_level_L by apply M. apply M.
  - rewrite set_level_last by apply M. lra.
Qed.
Lemma sim_set_level s s' : sim s s' -> sim (set_level s) (set_level s').
Proof.
  intro M. pose proof (set_level_fields s') as (F1 & F2 & F3 & F4 & F5 & F6 & F7 & F8 & F9 & F10 & F11).
  pose proof (sim_set_level_l s s' M) as M1.
  constructor; rewrite ?F1, ?F2, ?F3, ?F4, ?F5, ?F6, ?F7, ?F8, ?F9, ?F10, ?F11; try apply M1.
  - intro t. rewrite (set_level_L s' t (m_t' _ _ M)). apply M1.
  - rewrite set_level_last by apply M. lra.
Qed.
Lemma sim_level s s' : sim s s' -> k_level (set_level s) == k_level (set_level s').
Proof. intro M. rewrite !set_level_level by apply M. apply m_cur. exact M. Qed.

Lemma sim_halt s s' r : sim s s' -> sim (set_halt s r) (set_halt s' r).
Proof. intro M. constructor; cbn; try apply M. reflexivity. Qed.
Lemma sim_push s s' l : sim s s' -> sim (push_urgent s l) (push_urgent s' l).
Proof. intro M. constructor; cbn; try apply M. rewrite (m_urg _ _ M). reflexivity. Qed.
Lemma sim_urgent s s' l : sim s s' -> sim (set_urgent s l) (set_urgent s' l).
Proof. intro M. constructor; cbn; try apply M. reflexivity. Qed.
Lemma sim_active s s' l : sim s s' -> sim (set_active s l) (set_active s' l).
Proof. intro M. constructor; cbn; try apply M. reflexivity. Qed.
Lemma sim_ustat s s' u x y : sim s s' -> ssim x y -> sim (set_ustat s u x) (set_ustat s' u y).
Proof.
  intros M H. constructor; cbn; try apply M.
  pose proof (F2_nth _ _ _ (m_users _ _ M) u) as Hn.
  destruct (nth_error (k_users s) u) as [v|], (nth_error (k_users s') u) as [v'|]; try destruct Hn; [|apply M].
  apply F2_upd; [apply M|]. split; cbn; assumption.
Qed.
Lemma sim_ckstat s s' p x y : sim s s' -> csim x y -> sim (set_ckstat s p x) (set_ckstat s' p y).
Proof. intros M H. constructor; cbn; try apply M. apply F2_upd; [apply M|exact H]. Qed.

Lemma sim_interrupt s s' : sim s s' -> sim (interrupt_check s) (interrupt_check s').
Proof.
  intro M. unfold interrupt_check. rewrite <- (m_chk _ _ M). destruct (k_checking s) as [p|]; [|exact M].
  pose proof (F2_nth _ _ _ (m_checks _ _ M) p) as Hn.
  destruct (nth_error (k_checks s) p) as [[| |]|], (nth_error (k_checks s') p) as [[| |]|]; try destruct Hn;
    solve [apply sim_push; exact M | apply sim_halt; exact M].
Qed.
Lemma sim_change_rate s s' dr dr' : sim s s' -> dr == dr' -> sim (change_rate s dr) (change_rate s' dr').
Proof.
  intros M Hd. pose proof (sim_set_level s s' M) as M1. pose proof (sim_level s s' M) as HL.
  pose proof (set_level_last s (m_t _ _ M)) as Hl. pose proof (set_level_last s' (m_t' _ _ M)) as Hl'.
  assert (Hr : k_rate (set_level s) + dr == k_rate (set_level s') + dr') by (rewrite (m_rate _ _ M1), Hd; reflexivity).
  assert (LL : forall t, k_level (set_level s) + (k_rate (set_level s) + dr) * (t - k_last (set_level s)) ==
                         k_level (set_level s') + (k_rate (set_level s') + dr') * (t - k_last (set_level s'))).
  { intro t. rewrite HL, Hr, Hl, Hl', (m_now _ _ M). reflexivity. }
  unfold change_rate. rewrite (Qeqb_c _ _ 0 0 Hr (Qeq_refl 0)). destruct (Qeqb _ 0).
  - constructor; cbn; try apply M1; try exact Hr; try reflexivity; exact LL.
  - constructor; cbn; try apply M1; try exact Hr; try exact LL.
    + rewrite (F2_len _ _ _ (m_checks _ _ M1)). reflexivity.
    + apply Forall2_app; [apply M1|]. constructor; [exact I|constructor].
    + rewrite (m_urg _ _ M1), (F2_len _ _ _ (m_checks _ _ M1)). reflexivity.
Qed.
Lemma sim_add_rate s s' dr dr' b : sim s s' -> dr == dr' -> sim (add_rate s dr b) (add_rate s' dr' b).
Proof.
  intros M Hd. unfold add_rate.
  assert (A : sim (if b then interrupt_check s else s) (if b then interrupt_check s' else s')) by (destruct b; [apply sim_interrupt|]; exact M).
  rewrite (m_halted _ _ A). destruct (halted _); [exact A|]. apply sim_change_rate; assumption.
Qed.
Lemma sim_add_user s s' u : sim s s' -> sim (add_user s u) (add_user s' u).
Proof.
  intro M. unfold add_user. rewrite (m_rate_of _ _ u M), (m_act _ _ M). apply sim_add_rate; [apply sim_active; exact M|reflexivity].
Qed.
Lemma sim_remove_user s s' u : sim s s' -> sim (remove_user s u) (remove_user s' u).
Proof.
  intro M. unfold remove_user. rewrite (m_rate_of _ _ u M), (m_act _ _ M). destruct (existsb _ _).
  - apply sim_add_rate; [apply sim_active; exact M|reflexivity].
  - apply sim_halt. exact M.
Qed.
Lemma sim_tell us : forall s s', sim s s' -> sim (tell s us) (tell s' us).
Proof.
  induction us as [|u us IH]; intros s s' M; cbn [tell]; [exact M|]. rewrite (m_alive _ _ u M).
  destruct (alive s' u); [apply IH, sim_push, M|apply sim_halt, M].
Qed.
Lemma sim_gets s s' : sim s s' -> active_gets s = active_gets s' /\ active_puts s = active_puts s'.
Proof.
  intro M. unfold active_gets, active_puts. rewrite (m_act _ _ M). split; apply filter_ext; intro u; rewrite (m_rate_of _ _ u M); reflexivity.
Qed.

Definition psim (a b : kst * list nat) : Prop := sim (fst a) (fst b) /\ snd a = snd b.
Lemma sim_check_empty s s' : sim s s' -> k_level s == k_level s' -> psim (check_empty s) (check_empty s').
Proof.
  intros M HL. unfold check_empty. destruct (sim_gets s s' M) as [EG _].
  rewrite (Qltb_c 0 0 _ _ (Qeq_refl 0) HL). destruct (Qltb 0 _); [split; [exact M|reflexivity]|].
  rewrite EG. pose proof (sim_tell (active_gets s') s s' M) as MT.
  rewrite (m_halted _ _ MT). destruct (halted _); [split; [exact MT|reflexivity]|].
  rewrite (Qeqb_c _ _ 0 0 HL (Qeq_refl 0)), (m_ee _ _ M). destruct (_ && _); [split; [apply sim_halt, MT|reflexivity]|].
  rewrite (Qltb_c _ _ 0 0 HL (Qeq_refl 0)). destruct (Qltb _ 0); [split; [apply sim_halt, MT|reflexivity]|].
  split; [exact MT|reflexivity].
Qed.
Lemma sim_check_full s s' : sim s s' -> k_level s == k_level s' -> psim (check_full s) (check_full s').
Proof.
  intros M HL. unfold check_full. destruct (sim_gets s s' M) as [_ EG]. rewrite (m_cap _ _ M).
  rewrite (Qltb_c _ _ (k_cap s') (k_cap s') HL (Qeq_refl _)). destruct (Qltb _ (k_cap s')); [split; [exact M|reflexivity]|].
  rewrite EG. pose proof (sim_tell (active_puts s') s s' M) as MT.
  rewrite (m_halted _ _ MT). destruct (halted _); [split; [exact MT|reflexivity]|].
  rewrite (Qeqb_c _ _ (k_cap s') (k_cap s') HL (Qeq_refl _)), (m_ef _ _ M). destruct (_ && _); [split; [apply sim_halt, MT|reflexivity]|].
  rewrite (Qltb_c (k_cap s') (k_cap s') _ _ (Qeq_refl _) HL). destruct (Qltb (k_cap s') _); [split; [apply sim_halt, MT|reflexivity]|].
  split; [exact MT|reflexivity].
Qed.
Lemma sim_check_finally s s' : sim s s' -> sim (check_finally s) (check_finally s').
Proof.
  intro M. pose proof (sim_set_level s s' M) as M1. pose proof (sim_level s s' M) as HL. unfold check_finally.
  rewrite (Qltb_c _ _ 0 0 (m_rate _ _ M1) (Qeq_refl 0)), (Qltb_c 0 0 _ _ (Qeq_refl 0) (m_rate _ _ M1)).
  set (X := if Qltb (k_rate (set_level s')) 0 then check_empty (set_level s) else _).
  set (X' := if Qltb (k_rate (set_level s')) 0 then check_empty (set_level s') else _).
  assert (P : psim X X').
  { unfold X, X'. destruct (Qltb _ 0); [apply sim_check_empty; assumption|].
    destruct (Qltb 0 _); [apply sim_check_full; assumption|split; [exact M1|reflexivity]]. }
  destruct X as [s1 l1], X' as [s1' l1']. destruct P as [P1 P2]. cbn in P1, P2. subst l1'.
  rewrite (m_halted _ _ P1). destruct (halted s1'); [exact P1|]. destruct l1 as [|u us]; [exact P1|].
  rewrite (m_act _ _ P1). apply sim_add_rate; [apply sim_active, P1|].
  erewrite map_ext; [reflexivity|]. intro x. apply m_rate_of, P1.
Qed.
Lemma sim_check_start s s' p : sim s s' -> sim (check_start s p) (check_start s' p).
Proof.
  intro M. unfold check_start. rewrite (Qeqb_c _ _ 0 0 (m_rate _ _ M) (Qeq_refl 0)).
  destruct (Qeqb _ 0); [apply sim_ckstat; [exact M|exact I]|].
  rewrite (Qltb_c 0 0 _ _ (Qeq_refl 0) (m_rate _ _ M)), (m_cap _ _ M).
  set (b := if Qltb 0 (k_rate s') then k_cap s' else 0).
  assert (E : (b - cur_level s) / k_rate s == (b - cur_level s') / k_rate s') by (rewrite (m_rate _ _ M), (m_cur _ _ M); reflexivity).
  rewrite (Qltb_c _ _ 0 0 E (Qeq_refl 0)). destruct (Qltb _ 0).
  { assert (F : sim (check_finally (set_ckstat s p CkEnd)) (check_finally (set_ckstat s' p CkEnd))) by (apply sim_check_finally, sim_ckstat; [exact M|exact I]).
    cbn zeta. rewrite (m_halted _ _ F). destruct (halted _); [exact F|apply sim_halt, F]. }
  apply sim_ckstat; [exact M|]. cbn. rewrite E, (m_now _ _ M). reflexivity.
Qed.
Lemma sim_user_start s s' u : sim s s' -> sim (user_start s u) (user_start s' u).
Proof.
  intro M. unfold user_start. pose proof (F2_nth _ _ _ (m_users _ _ M) u) as Hn.
  destruct (nth_error (k_users s) u) as [v|], (nth_error (k_users s') u) as [v'|]; try (destruct Hn; fail); [|exact M].
  destruct Hn as [_ Hn]. destruct (u_stat v) as [t|t|], (u_stat v') as [t'|t'|]; try (destruct Hn; fail); try exact M.
  cbn in Hn. subst t'. pose proof (sim_add_user s s' u M) as MA. rewrite (m_halted _ _ MA). destruct (halted _); [exact MA|].
  destruct t as [d|].
  - destruct (Qltb d 0); [apply sim_halt, MA|]. apply sim_ustat; [exact MA|]. cbn. rewrite (m_now _ _ M). reflexivity.
  - apply sim_ustat; [exact MA|]. exact I.
Qed.
Lemma sim_do_urgent s s' e : sim s s' -> sim (do_urgent s e) (do_urgent s' e).
Proof.
  intro M. destruct e as [u|p|p|u c]; cbn [do_urgent].
  - apply sim_user_start, M.
  - apply sim_check_start, M.
  - pose proof (F2_nth _ _ _ (m_checks _ _ M) p) as Hn.
    destruct (nth_error (k_checks s) p) as [[| |]|], (nth_error (k_checks s') p) as [[| |]|]; try (destruct Hn; fail); try exact M.
    + apply sim_halt, M.
    + apply sim_check_finally, sim_ckstat; [exact M|exact I].
  - pose proof (F2_nth _ _ _ (m_users _ _ M) u) as Hn.
    destruct (nth_error (k_users s) u) as [v|], (nth_error (k_users s') u) as [v'|]; try (destruct Hn; fail); [|exact M].
    destruct Hn as [_ Hn]. destruct (u_stat v) as [t|t|], (u_stat v') as [t'|t'|]; try (destruct Hn; fail); try exact M.
    + apply sim_halt, M.
    + destruct c; [apply sim_remove_user|]; apply sim_ustat; (exact M || exact I).
Qed.

Definition orel (a b : option kst) : Prop :=
  match a, b with Some x, Some y => sim x y | None, None => True | _, _ => False end.
Lemma not_before_sim t s s' : sim s s' -> not_before t s = not_before t s'.
Proof.
  intro M. unfold not_before. f_equal.
  - pose proof (m_users _ _ M) as F. induction F as [|x y l l' [_ H] F IH]; cbn; [reflexivity|]. f_equal; [|exact IH].
    destruct (u_stat x) as [|[d|]|], (u_stat y) as [|[d'|]|]; cbn in H; try (destruct H; fail); try reflexivity.
    apply Qleb_c; [reflexivity|exact H].
  - pose proof (m_checks _ _ M) as F. induction F as [|x y l l' H F IH]; cbn; [reflexivity|]. f_equal; [|exact IH].
    destruct x, y; cbn in H; try (destruct H; fail); try reflexivity. apply Qleb_c; [reflexivity|exact H].
Qed.

Lemma sim_step s s' o : sim s s' -> orel (kstep s o) (kstep s' o).
Proof.
  intro M. unfold kstep. rewrite (m_halted _ _ M). destruct (halted s'); [exact I|].
  destruct o as [r t|r t|u| | |u|p|t].
  - destruct (Qleb r 0); [exact I|]. cbn. constructor; cbn; try apply M.
    + apply Forall2_app; [apply M|]. constructor; [apply usim_refl|constructor].
    + rewrite (m_urg _ _ M), (F2_len _ _ _ (m_users _ _ M)). reflexivity.
  - destruct (Qleb r 0); [exact I|]. cbn. constructor; cbn; try apply M.
    + apply Forall2_app; [apply M|]. constructor; [apply usim_refl|constructor].
    + rewrite (m_urg _ _ M), (F2_len _ _ _ (m_users _ _ M)). reflexivity.
  - rewrite (m_alive _ _ u M). destruct (alive s' u); [|exact I]. apply sim_push, M.
  - apply sim_set_level, M.
  - rewrite (m_urg _ _ M). destruct (k_urgent s') as [|e l]; [exact I|]. apply sim_do_urgent, sim_urgent, M.
  - rewrite (m_urg _ _ M). destruct (k_urgent s'); [|exact I]. unfold fire_user.
    pose proof (F2_nth _ _ _ (m_users _ _ M) u) as Hn.
    destruct (nth_error (k_users s) u) as [v|], (nth_error (k_users s') u) as [v'|]; try (destruct Hn; fail); [|exact I].
    destruct Hn as [_ Hn]. destruct (u_stat v) as [t|[t|]|], (u_stat v') as [t'|[t'|]|]; cbn in Hn; try (destruct Hn; fail); try exact I.
    rewrite (Qeqb_c _ _ (k_now s) (k_now s') Hn) by (rewrite (m_now _ _ M); reflexivity).
    destruct (Qeqb _ _); [|exact I]. apply sim_remove_user, sim_ustat; [exact M|exact I].
  - rewrite (m_urg _ _ M). destruct (k_urgent s'); [|exact I]. unfold fire_check.
    pose proof (F2_nth _ _ _ (m_checks _ _ M) p) as Hn.
    destruct (nth_error (k_checks s) p) as [[|d|]|], (nth_error (k_checks s') p) as [[|d'|]|]; cbn in Hn; try (destruct Hn; fail); try exact I.
    rewrite (Qeqb_c _ _ (k_now s) (k_now s') Hn) by (rewrite (m_now _ _ M); reflexivity).
    destruct (Qeqb _ _); [|exact I]. apply sim_check_finally, sim_ckstat; [exact M|exact I].
  - rewrite (m_urg _ _ M). destruct (k_urgent s'); [|exact I]. rewrite (m_now _ _ M), (not_before_sim t _ _ M).
    destruct (Qleb (k_now s') t && not_before t s') eqn:E; [|exact I]. apply andb_prop in E. destruct E as [E _]. qbool. cbn.
    pose proof (m_t _ _ M) as T1. pose proof (m_t' _ _ M) as T2. rewrite (m_now _ _ M) in T1.
    constructor; cbn; try apply M; try reflexivity; lra.
Qed.

Lemma sim_run os : forall s s', sim s s' -> sim (krun s os) (krun s' os).
Proof.
  induction os as [|o os IH]; intros s s' M; [exact M|]. unfold krun. cbn [fold_left].
  pose proof (sim_step s s' o M) as H. destruct (kstep s o) as [x|], (kstep s' o) as [y|]; try (destruct H; fail); apply IH; assumption.
Qed.

Lemma krun_app s a b : krun s (a ++ b) = krun (krun s a) b.
Proof. unfold krun. apply fold_left_app. Qed.

Lemma krun_time os : forall s, good s -> good (krun s os).
Proof.
  induction os as [|o os IH]; intros s G; [exact G|]. unfold krun. cbn [fold_left].
  destruct (kstep s o) as [s'|] eqn:E; [|apply IH, G]. apply IH. apply (kstep_good s o s' G E).
Qed.

(** Extra evaluations change nothing that can be observed later. *)
Lemma observation_free cap lvl ee ef t0 s0 os1 os2 :
  kinit cap lvl ee ef t0 = Some s0 -> lvl <= cap ->
  let a := krun s0 (os1 ++ os2) in
  let b := krun s0 (os1 ++ [KTouch] ++ os2) in
  cur_level b == cur_level a /\ k_now b = k_now a /\ k_rate b == k_rate a /\ k_active b = k_active a /\
  told b = told a /\ k_halt b = k_halt a.
Proof.
  intros H Hc. cbv zeta. rewrite !krun_app. pose proof (krun_good _ _ _ _ _ _ os1 H Hc) as (G & _).
  assert (M : sim (krun (krun s0 os1) [KTouch]) (krun s0 os1)).
  { unfold krun at 1. cbn [fold_left]. unfold kstep. destruct (halted (krun s0 os1)); [apply sim_refl; exact G|].
    apply sim_set_level_l, sim_refl. exact G. }
  apply (sim_run os2) in M. split; [apply m_cur, M|]. split; [apply M|]. split; [apply M|]. split; [apply M|].
  split; [unfold told; rewrite (m_urg _ _ M); reflexivity|apply M].
Qed.

(** Stopping on the way to look changes nothing either. *)
Lemma split_advance cap lvl ee ef t0 s0 os1 os2 t1 t2 :
  kinit cap lvl ee ef t0 = Some s0 -> lvl <= cap ->
  let s := krun s0 os1 in
  kstep s (KAdvance t2) <> None -> k_now s <= t1 -> t1 <= t2 ->
  let a := krun s (KAdvance t2 :: os2) in
  let b := krun s ([KAdvance t1; KTouch; KAdvance t2] ++ os2) in
  cur_level b == cur_level a /\ k_now b = k_now a /\ k_rate b == k_rate a /\ k_active b = k_active a /\
  told b = told a /\ k_halt b = k_halt a.
Proof.
  intros H Hc. cbv zeta. set (s := krun s0 os1). intros Hs Hn1 H12.
  pose proof (krun_good _ _ _ _ _ _ os1 H Hc) as (G & _). fold s in G.
  assert (M : sim (krun s [KAdvance t1; KTouch; KAdvance t2]) (krun s [KAdvance t2])).
  { unfold krun. cbn [fold_left]. 
    destruct (kstep s (KAdvance t2)) as [z|] eqn:K3; [|congruence]. clear Hs.
    unfold kstep in K3. unfold kstep at 3.
    destruct (halted s) eqn:Eh; [discriminate|]. destruct (k_urgent s) eqn:Eu; [|discriminate].
    destruct (Qleb (k_now s) t2 && not_before t2 s) eqn:E; [|discriminate]. injection K3 as <-.
    apply andb_prop in E. destruct E as [E1 E2].
    assert (NB : not_before t1 s = true).
    { apply andb_true_intro. split; apply forallb_forall; intros x Hx; apply andb_prop in E2; destruct E2 as [E2 E3]; rewrite forallb_forall in E2, E3.
      - specialize (E2 x Hx). destruct (u_stat x) as [|[d|]|]; auto. qbool. apply Qleb_le. lra.
      - specialize (E3 x Hx). destruct x; auto. qbool. apply Qleb_le. lra. }
    assert (L1 : Qleb (k_now s) t1 = true) by (apply Qleb_le; exact Hn1). rewrite L1, NB. cbn [andb].
    set (s1 := mkK (k_cap s) _ _ t1 _ _ _ _ _ _ _ _ _ _).
    assert (G1 : k_last s1 <= k_now s1) by (cbn; lra).
    assert (K1 : kstep s1 KTouch = Some (set_level s1)) by (unfold kstep; change (halted s1) with (halted s); rewrite Eh; reflexivity).
    rewrite K1.
    pose proof (sim_step _ _ (KAdvance t2) (sim_set_level_l s1 s1 (sim_refl s1 G1))) as HH.
    assert (K2 : kstep s1 (KAdvance t2) = Some (mkK (k_cap s) (k_err_empty s) (k_err_full s) t2 (k_level s) (k_rate s) (k_last s)
            (k_active s) (k_checking s) (k_users s) (k_checks s) (k_urgent s) (k_halt s) (k_quant s))).
    { unfold kstep. change (halted s1) with (halted s). rewrite Eh. cbn [k_urgent s1].
      assert (L2 : Qleb (k_now s1) t2 = true) by (apply Qleb_le; exact H12). rewrite L2.
      change (not_before t2 s1) with (not_before t2 s). rewrite E2, Eu. reflexivity. }
    rewrite K2 in HH. destruct (kstep (set_level s1) (KAdvance t2)) as [y|]; [|destruct HH]. rewrite Eu in HH. exact HH. }
  change (KAdvance t2 :: os2) with ([KAdvance t2] ++ os2). rewrite !krun_app.
  apply (sim_run os2) in M. split; [apply m_cur, M|]. split; [apply M|]. split; [apply M|]. split; [apply M|].
  split; [unfold told; rewrite (m_urg _ _ M); reflexivity|apply M].
Qed.
