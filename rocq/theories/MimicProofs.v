(** Proofs about mimic states. *)
From Verif Require Import Common ActiveModel ActiveProofs MimicModel MimicSpec.

Section P.
Variable typ : nat -> Z -> bool.
Local Notation read_cell := (read_cell typ).
Local Notation read_fuel := (read_fuel typ).
Local Notation set_cell := (set_cell typ).

(** ** Cells that only gain history *)
Definition sim (x y : cell) : Prop :=
  m_owner y = m_owner x /\ m_frozen y = m_frozen x /\ m_rec y = m_rec x /\ m_kv y = m_kv x.
Definition simv (x y : cell) : Prop := sim x y /\ m_val y = m_val x.
Lemma sim_refl x : sim x x. Proof. repeat split. Qed.
Lemma simv_refl x : simv x x. Proof. repeat split. Qed.
Lemma record_simv now v x : simv x (m_record now v x).
Proof. unfold m_record. destruct (m_rec x) eqn:E; repeat split. cbn. congruence. Qed.

Lemma on_cell_nth c f l j : nth_error (on_cell c f l) j =
  if Nat.eqb c j then match nth_error l j with Some x => Some (f x) | None => None end else nth_error l j.
Proof.
  unfold on_cell. destruct (nth_error l c) as [x|] eqn:E.
  - rewrite upd_nth. destruct (Nat.eqb_spec c j) as [<-|]; [rewrite E; reflexivity|reflexivity].
  - destruct (Nat.eqb_spec c j) as [<-|]; [rewrite E; reflexivity|reflexivity].
Qed.

Definition pointwise (R : cell -> cell -> Prop) (l l' : list cell) : Prop :=
  forall j, match nth_error l j, nth_error l' j with
            | Some x, Some y => R x y | None, None => True | _, _ => False end.
Lemma pw_refl (R : cell -> cell -> Prop) l : (forall x, R x x) -> pointwise R l l.
Proof. intros H j. destruct (nth_error l j); auto. Qed.
Lemma simv_trans x y z : simv x y -> simv y z -> simv x z.
Proof. unfold simv, sim. intuition congruence. Qed.
Lemma sim_trans x y z : sim x y -> sim y z -> sim x z.
Proof. unfold sim. intuition congruence. Qed.
Lemma pw_trans (R : cell -> cell -> Prop) l m n : (forall x y z, R x y -> R y z -> R x z) ->
  pointwise R l m -> pointwise R m n -> pointwise R l n.
Proof.
  intros T H1 H2 j. specialize (H1 j). specialize (H2 j).
  destruct (nth_error l j), (nth_error m j), (nth_error n j); try contradiction; eauto.
Qed.
Lemma run_calls_simv now v calls c : forall l, pointwise simv l (run_calls now v calls c l).
Proof.
  induction calls as [|[s m] calls IH]; intro l; [apply pw_refl, simv_refl|]. cbn.
  eapply pw_trans; [exact simv_trans| |apply IH]. destruct (Nat.eqb s c); [|apply pw_refl, simv_refl].
  intro j. rewrite on_cell_nth. destruct (Nat.eqb m j); destruct (nth_error l j); auto using simv_refl, record_simv.
Qed.

(** ** Writing *)
Lemma set_ok w c v w' : set_cell w c v = (w', MOk) ->
  exists x, nth_error (w_cells w) c = Some x /\ m_frozen x = false /\ typ c v = true /\
  w_now w' = w_now w /\ w_mimic w' = w_mimic w /\ w_by_task w' = w_by_task w /\ w_calls w' = w_calls w /\
  pointwise sim (w_cells w) (w_cells w') /\ value w' c v /\
  (forall j u, j <> c -> value w j u -> value w' j u).
Proof.
  unfold set_cell. destruct (nth_error (w_cells w) c) as [x|] eqn:E; [|discriminate].
  destruct (m_frozen x) eqn:F; [discriminate|]. destruct (typ c v) eqn:T; cbn [negb]; [|discriminate].
  set (x1 := m_record _ _ _). intro H. injection H as <-. exists x. cbn [w_now w_mimic w_by_task w_calls w_cells].
  assert (S1 : sim x x1 /\ m_val x1 = v).
  { unfold x1. match goal with |- context [m_record ?a ?b ?c0] => destruct (record_simv a b c0) as [(?&?&?&?) ?] end.
    cbn in *. unfold sim. intuition congruence. }
  pose proof (run_calls_simv (w_now w) v (w_calls w) c (upd c x1 (w_cells w))) as PW.
  repeat (split; [reflexivity || assumption|]). split; [|split].
  - eapply pw_trans; [exact sim_trans| |intro j; specialize (PW j); revert PW;
      instantiate (1 := upd c x1 (w_cells w)); unfold simv;
      destruct (nth_error (upd c x1 (w_cells w)) j), (nth_error (run_calls (w_now w) v (w_calls w) c (upd c x1 (w_cells w))) j); tauto].
    intro j. rewrite upd_nth. destruct (Nat.eqb_spec c j) as [<-|].
    + rewrite E. apply S1.
    + destruct (nth_error (w_cells w) j); auto using sim_refl.
  - unfold value. cbn [w_cells]. specialize (PW c). rewrite upd_nth, Nat.eqb_refl, E in PW.
    destruct (nth_error (run_calls _ _ _ _ _) c) as [y|]; [|contradiction]. exists y. split; [reflexivity|].
    destruct PW as [_ ->]. apply S1.
  - intros j u Hj (z & Ez & Hz). unfold value. cbn [w_cells]. specialize (PW j). rewrite upd_nth in PW.
    destruct (Nat.eqb_spec c j); [congruence|]. rewrite Ez in PW.
    destruct (nth_error (run_calls _ _ _ _ _) j) as [y|]; [|contradiction]. exists y. split; [reflexivity|].
    destruct PW as [_ ->]. exact Hz.
Qed.
Lemma set_fail w c v w' r : set_cell w c v = (w', r) -> r <> MOk -> w' = w.
Proof.
  unfold set_cell. destruct (nth_error (w_cells w) c); [|intro H; injection H as <- <-; reflexivity].
  destruct (m_frozen c0); [intro H; injection H as <- <-; reflexivity|].
  destruct (negb (typ c v)); [intro H; injection H as <- <-; reflexivity|].
  intro H. injection H as <- <-. congruence.
Qed.
Lemma set_not_val w c v w' u : set_cell w c v <> (w', MVal u).
Proof.
  unfold set_cell. destruct (nth_error (w_cells w) c); [|discriminate].
  destruct (m_frozen c0); [discriminate|]. destruct (negb (typ c v)); discriminate.
Qed.
Lemma set_accepts w c v : accepts typ w c v -> exists w', set_cell w c v = (w', MOk).
Proof.
  intros (x & E & F & T). unfold set_cell. rewrite E, F, T. eexists. reflexivity.
Qed.

(** ** What reading leaves alone *)
Definition same_links (w w' : world) : Prop :=
  w_now w' = w_now w /\ w_mimic w' = w_mimic w /\ w_by_task w' = w_by_task w /\ w_calls w' = w_calls w /\
  pointwise sim (w_cells w) (w_cells w').
Lemma links_refl w : same_links w w.
Proof. repeat (split; [reflexivity|]). apply pw_refl, sim_refl. Qed.
Lemma links_trans w1 w2 w3 : same_links w1 w2 -> same_links w2 w3 -> same_links w1 w3.
Proof.
  intros (A & B & C & D & E) (A' & B' & C' & D' & E'). repeat (split; [congruence|]).
  eapply pw_trans; [exact sim_trans|exact E|exact E'].
Qed.
Lemma set_links w c v : same_links w (fst (set_cell w c v)).
Proof.
  destruct (set_cell w c v) as [w' r] eqn:E. cbn. destruct r.
  1:{ destruct (set_ok _ _ _ _ E) as (x & _ & _ & _ & A & B & C & D & P & _). repeat (split; [assumption|]). exact P. }
  all: apply set_fail in E; [subst; apply links_refl|discriminate].
Qed.
Lemma read_links n : forall w c, same_links w (fst (read_fuel n w c)).
Proof.
  induction n as [|n IH]; intros w c; cbn; [apply links_refl|].
  destruct (mlook c (w_mimic w)) as [s|].
  - specialize (IH w s). destruct (read_fuel n w s) as [w1 r]. cbn [fst] in IH. destruct r; try exact IH.
    pose proof (set_links w1 c v) as L. destruct (set_cell w1 c v) as [w2 r2]. cbn [fst] in *.
    eapply links_trans; eassumption.
  - destruct (nth_error (w_cells w) c); apply links_refl.
Qed.
Lemma read_not_ok n : forall w c, snd (read_fuel n w c) <> MOk.
Proof.
  induction n as [|n IH]; intros w c; cbn; [discriminate|].
  destruct (mlook c (w_mimic w)) as [s|].
  - specialize (IH w s). destruct (read_fuel n w s) as [w1 r]. cbn [snd] in IH. destruct r; cbn; try congruence.
    destruct (set_cell w1 c v) as [w2 r2]. cbn. destruct r2; discriminate.
  - destruct (nth_error (w_cells w) c); discriminate.
Qed.
Lemma links_root w w' c r : same_links w w' -> (root w c r <-> root w' c r).
Proof.
  intros (_ & E & _). split.
  - induction 1; [apply root_end|eapply root_step; [|eassumption]]; unfold free, mimics in *; rewrite E; assumption.
  - induction 1; [apply root_end|eapply root_step; [|eassumption]]; unfold free, mimics in *; rewrite <- E; assumption.
Qed.
Lemma links_accepts w w' c v : same_links w w' -> accepts typ w c v -> accepts typ w' c v.
Proof.
  intros (_ & _ & _ & _ & P) (x & E & F & T). specialize (P c). rewrite E in P.
  destruct (nth_error (w_cells w') c) as [y|] eqn:Ey; [|contradiction]. exists y.
  split; [exact Ey|]. destruct P as (_ & Pf & _). split; [congruence|exact T].
Qed.

(** Reading keeps the value of every cell that mimics nothing. *)
Lemma read_free n : forall w c j v, free w j -> value w j v -> value (fst (read_fuel n w c)) j v.
Proof.
  induction n as [|n IH]; intros w c j v Hf Hv; cbn; [exact Hv|].
  destruct (mlook c (w_mimic w)) as [s|] eqn:E.
  - specialize (IH w s j v Hf Hv). pose proof (read_links n w s) as L.
    destruct (read_fuel n w s) as [w1 r]. cbn [fst] in *. destruct r; try exact IH.
    destruct (set_cell w1 c v0) as [w2 r2] eqn:ES. cbn [fst]. destruct r2;
      try (apply set_fail in ES; [subst; exact IH|discriminate]).
    destruct (set_ok _ _ _ _ ES) as (x & _ & _ & _ & _ & _ & _ & _ & _ & _ & K). apply K; [|exact IH].
    intros ->. unfold free in Hf. congruence.
  - destruct (nth_error (w_cells w) c); exact Hv.
Qed.

Lemma value_fun w c v u : value w c v -> value w c u -> v = u.
Proof. intros (x & E & <-) (y & E' & <-). congruence. Qed.

(** A read that returns, returns the value of the root and leaves it everywhere. *)
Lemma read_root n : forall w c r v u w', root w c r -> value w r v ->
  read_fuel n w c = (w', MVal u) -> u = v /\ value w' c v.
Proof.
  induction n as [|n IH]; intros w c r v u w' HR Hv H; [discriminate|]. cbn in H.
  inversion HR as [c' Hf|c' s r' Hm Hr]; subst.
  - unfold free in Hf. rewrite Hf in H. destruct Hv as (x & E & <-). rewrite E in H. injection H as <- <-.
    split; [reflexivity|]. exists x. auto.
  - unfold mimics in Hm. rewrite Hm in H. destruct (read_fuel n w s) as [w1 r1] eqn:E1. destruct r1; try discriminate.
    destruct (set_cell w1 c v0) as [w2 r2] eqn:E2. injection H as <- H. destruct r2; try discriminate.
    2:{ exfalso. eapply set_not_val. exact E2. }
    injection H as <-. destruct (IH _ _ _ _ _ _ Hr Hv E1) as [-> _]. split; [reflexivity|].
    destruct (set_ok _ _ _ _ E2) as (x & _ & _ & _ & _ & _ & _ & _ & _ & V & _). exact V.
Qed.

(** ** Fuel *)
Inductive rootn (w : world) : nat -> nat -> list nat -> Prop :=
| rn_end c : free w c -> rootn w c c []
| rn_step c s r l : mimics w c s -> rootn w s r l -> rootn w c r (c :: l).
Lemma root_rootn w c r : root w c r -> exists l, rootn w c r l.
Proof.
  induction 1 as [c H|c s r H _ [l IH]]; [exists []; constructor; exact H|].
  exists (c :: l). econstructor; eassumption.
Qed.
Lemma rootn_fun w c r l : rootn w c r l -> forall r' l', rootn w c r' l' -> r = r' /\ l = l'.
Proof.
  induction 1 as [c H|c s r l H _ IH]; intros r' l' H'; inversion H'; subst; unfold free, mimics in *; try congruence.
  - auto.
  - assert (s0 = s) by congruence. subst. destruct (IH _ _ H1) as [-> ->]. auto.
Qed.
Lemma rootn_suffix w c r l : rootn w c r l -> forall x, In x l -> exists l1 l2, rootn w x r (x :: l2) /\ l = l1 ++ x :: l2.
Proof.
  induction 1 as [c H|c s r l H HR IH]; intros x Hx; [destruct Hx|]. destruct Hx as [<-|Hx].
  - exists [], l. split; [econstructor; eassumption|reflexivity].
  - destruct (IH x Hx) as (l1 & l2 & A & ->). exists (c :: l1), l2. auto.
Qed.
Lemma rootn_nodup w c r l : rootn w c r l -> NoDup l.
Proof.
  induction 1 as [c H|c s r l H HR IH]; constructor; [|exact IH].
  intro Hin. destruct (rootn_suffix _ _ _ _ HR c Hin) as (l1 & l2 & A & ->).
  assert (B : rootn w c r (c :: l1 ++ c :: l2)) by (econstructor; eassumption).
  destruct (rootn_fun _ _ _ _ A _ _ B) as [_ C]. injection C as C.
  apply (f_equal (@length nat)) in C. rewrite app_length in C. cbn in C. lia.
Qed.
Lemma mlook_In c l s : mlook c l = Some s -> In (c, s) l.
Proof.
  unfold mlook. destruct (find _ l) as [p|] eqn:E; [|discriminate]. intro H. injection H as <-.
  apply find_some in E. destruct E as [Hin E]. apply Nat.eqb_eq in E. destruct p. cbn in *. subst. exact Hin.
Qed.
Lemma rootn_keys w c r l : rootn w c r l -> incl l (map fst (w_mimic w)).
Proof.
  induction 1 as [c H|c s r l H HR IH]; intros x Hx; [destruct Hx|]. destruct Hx as [<-|Hx]; [|apply IH; exact Hx].
  apply mlook_In in H. change c with (fst (c, s)). apply in_map. exact H.
Qed.
Lemma rootn_short w c r l : rootn w c r l -> (length l <= length (w_mimic w))%nat.
Proof.
  intro H. rewrite <- (map_length fst). apply NoDup_incl_length; [eapply rootn_nodup|eapply rootn_keys]; eassumption.
Qed.

Lemma read_total n : forall w c r l v, rootn w c r l -> value w r v ->
  (forall x, In x l -> accepts typ w x v) -> (length l < n)%nat ->
  exists w', read_fuel n w c = (w', MVal v).
Proof.
  induction n as [|n IH]; intros w c r l v HR Hv Ha Hl; [lia|]. cbn.
  inversion HR as [c' Hf|c' s r' l' Hm Hr]; subst.
  - unfold free in Hf. rewrite Hf. destruct Hv as (x & E & <-). rewrite E. eexists. reflexivity.
  - unfold mimics in Hm. rewrite Hm. cbn in Hl.
    destruct (IH w s r l' v Hr Hv) as (w1 & E1); [intros; apply Ha; right; assumption|lia|]. rewrite E1.
    pose proof (read_links n w s) as L. rewrite E1 in L. cbn [fst] in L.
    destruct (set_accepts w1 c v) as (w2 & E2); [|rewrite E2; eexists; reflexivity].
    eapply links_accepts; [exact L|]. apply Ha. left. reflexivity.
Qed.

Lemma root_fun w c r : root w c r -> forall r', root w c r' -> r = r'.
Proof.
  intros H r' H'. destruct (root_rootn _ _ _ H) as [l A], (root_rootn _ _ _ H') as [l' B].
  apply (rootn_fun _ _ _ _ A _ _ B).
Qed.
Lemma rootn_root w c r l : rootn w c r l -> root w c r.
Proof. induction 1; [apply root_end; assumption|eapply root_step; eassumption]. Qed.

Lemma healthy_read w c r v : healthy typ w -> root w c r -> value w r v ->
  exists w', read_cell w c = (w', MVal v) /\ value w' c v.
Proof.
  intros HH HR Hv. destruct (root_rootn _ _ _ HR) as [l HL].
  destruct (read_total (S (length (w_mimic w))) w c r l v HL Hv) as (w' & E).
  - intros x Hx. destruct (rootn_suffix _ _ _ _ HL x Hx) as (l1 & l2 & A & _).
    inversion A as [|? s ? ? Hm HR']; subst. destruct (HH x s Hm) as (r' & v' & HR2 & Hv' & HA).
    assert (r' = r) by (eapply root_fun; [exact HR2|eapply rootn_root; exact A]). subst r'.
    rewrite (value_fun _ _ _ _ Hv Hv'). exact HA.
  - pose proof (rootn_short _ _ _ _ HL). lia.
  - exists w'. split; [exact E|]. eapply read_root; eassumption.
Qed.

(** ** Recording callbacks *)
Definition calls_inv (w : world) : Prop :=
  (forall s m, In (s, m) (w_calls w) <-> mimics w m s /\ records w m) /\ NoDup (map fst (w_mimic w)).

Lemma links_records w w' c : same_links w w' -> (records w c <-> records w' c).
Proof.
  intros (_ & _ & _ & _ & P). specialize (P c). unfold records. split; intros (x & E & H); rewrite E in P.
  - destruct (nth_error (w_cells w') c) as [y|]; [|contradiction]. exists y. split; [reflexivity|].
    destruct P as (_ & _ & Pr & _). congruence.
  - destruct (nth_error (w_cells w) c) as [y|]; [|contradiction]. exists y. split; [reflexivity|].
    destruct P as (_ & _ & Pr & _). congruence.
Qed.
Lemma links_calls w w' : same_links w w' -> calls_inv w -> calls_inv w'.
Proof.
  intros L (H1 & H2). pose proof L as (_ & E1 & _ & E2 & _). split; [|rewrite E1; exact H2].
  intros s m. rewrite E2, H1, (links_records _ _ m L). unfold mimics. rewrite E1. tauto.
Qed.
Lemma mlook_app c l k s : mlook c (l ++ [(k, s)]) =
  match mlook c l with Some x => Some x | None => if Nat.eqb k c then Some s else None end.
Proof.
  unfold mlook. induction l as [|[a b] l IH]; cbn.
  - destruct (Nat.eqb k c); reflexivity.
  - destruct (Nat.eqb a c); [reflexivity|exact IH].
Qed.
Lemma mlook_del c k l : mlook c (mdel k l) = if Nat.eqb k c then None else mlook c l.
Proof.
  unfold mlook, mdel. induction l as [|[a b] l IH]; cbn.
  - destruct (Nat.eqb k c); reflexivity.
  - destruct (Nat.eqb_spec a k) as [->|Hn]; cbn.
    + rewrite IH. destruct (Nat.eqb_spec k c); [reflexivity|]. reflexivity.
    + destruct (Nat.eqb_spec a c) as [->|]; [|exact IH].
      destruct (Nat.eqb_spec k c); [congruence|reflexivity].
Qed.
Lemma mlook_none_in c l : mlook c l = None -> ~ In c (map fst l).
Proof.
  unfold mlook. induction l as [|[a b] l IH]; cbn; [tauto|]. destruct (Nat.eqb_spec a c); [discriminate|].
  intros H [C|C]; [congruence|]. apply (IH H C).
Qed.
Lemma mdel_nodup k l : NoDup (map fst l) -> NoDup (map fst (mdel k l)).
Proof.
  unfold mdel. induction l as [|[a b] l IH]; cbn; intro H; [constructor|]. inversion H; subst.
  destruct (Nat.eqb a k); cbn; [auto|]. constructor; [|auto].
  intro C. apply H2. apply in_map_iff in C. destruct C as ([x y] & E & C). apply filter_In in C.
  cbn in E. subst. change a with (fst (a, y)). apply in_map. apply C.
Qed.

Lemma mimic_off_shape w c t w' r : mimic_off typ w c t = (w', r) ->
  (same_links w w' /\ (r = MOk -> False) /\ (forall s, mimics w c s -> forall v, snd (read_cell w c) <> MVal v)) \/
  exists w1 s v, read_cell w c = (w1, MVal v) /\ mimics w c s /\
    w_now w' = w_now w1 /\ w_cells w' = w_cells w1 /\ w_mimic w' = mdel c (w_mimic w1) /\
    w_calls w' = (if is_rec w1 c then prem (s, c) (w_calls w1) else w_calls w1) /\
    (if existsb (pair_eqb (t, c)) (w_by_task w) then w_by_task w' = prem (t, c) (w_by_task w) /\ r = MOk
     else w_by_task w' = w_by_task w /\ r = MKey).
Proof.
  unfold mimic_off. pose proof (read_links (S (length (w_mimic w))) w c) as L. fold (read_cell w c) in L.
  destruct (read_cell w c) as [w1 r1] eqn:E. cbn [fst] in L. pose proof L as (L1 & L2 & L3 & L4 & L5).
  destruct r1; try (intro H; injection H as <- <-; left; split; [exact L|]; split; [discriminate|]; intros; discriminate).
  1:{ exfalso. eapply read_not_ok. unfold MimicModel.read_cell in E. rewrite E. reflexivity. }
  rewrite L2. destruct (mlook c (w_mimic w)) as [s|] eqn:Em.
  - intro H. right. exists w1, s, v. split; [reflexivity|]. split; [exact Em|].
    rewrite L3 in H. destruct (existsb (pair_eqb (t, c)) (w_by_task w)); injection H as <- <-;
      cbn [w_now w_cells w_mimic w_calls w_by_task]; rewrite <- ?L2; repeat split; congruence.
  - intro H. injection H as <- <-. left. split; [exact L|]. split; [discriminate|].
    intros s Hs. unfold mimics in Hs. congruence.
Qed.

Lemma is_rec_records w c : is_rec w c = true <-> records w c.
Proof.
  unfold is_rec, records. destruct (nth_error (w_cells w) c) as [x|]; split.
  - intro H. exists x. auto.
  - intros (y & E & H). congruence.
  - discriminate.
  - intros (y & E & H). discriminate.
Qed.

Lemma calls_off w c t : calls_inv w -> calls_inv (fst (mimic_off typ w c t)).
Proof.
  intro HI. destruct (mimic_off typ w c t) as [w' r] eqn:E. cbn [fst].
  destruct (mimic_off_shape _ _ _ _ _ E) as [(L & _)|(w1 & s & v & ER & Hm & A & B & C & D & F)].
  - eapply links_calls; eassumption.
  - pose proof (read_links (S (length (w_mimic w))) w c) as L. fold (read_cell w c) in L. rewrite ER in L. cbn [fst] in L.
    pose proof (links_calls _ _ L HI) as (H1 & H2). pose proof L as (_ & L2 & _).
    unfold mimics in Hm. rewrite <- L2 in Hm. split.
    + intros s' m. rewrite D. unfold mimics, records. rewrite B, C, mlook_del.
      fold (records w1 m). destruct (is_rec w1 c) eqn:Er.
      * rewrite prem_In, H1. unfold mimics. destruct (Nat.eqb_spec c m) as [<-|Hn].
        -- rewrite Hm. split; [intros [[X Y] Z]; exfalso; apply Z; congruence|intros [X _]; discriminate].
        -- split; [intros [[X Y] Z]; auto|]. intros [X Y]. split; [auto|]. congruence.
      * rewrite H1. unfold mimics. destruct (Nat.eqb_spec c m) as [<-|Hn]; [|tauto].
        split; [intros [X Y]; exfalso; apply is_rec_records in Y; congruence|intros [X _]; discriminate].
    + rewrite C. apply mdel_nodup. exact H2.
Qed.
Lemma calls_off_list l t : forall w, calls_inv w -> calls_inv (fst (mimic_off_list typ w l t)).
Proof.
  induction l as [|c l IH]; intros w H; [exact H|]. cbn. pose proof (calls_off w c t H) as H'.
  destruct (mimic_off typ w c t) as [w1 r]. cbn [fst] in H'. destruct r; try exact H'. apply IH. exact H'.
Qed.
Lemma calls_on w c s t : calls_inv w -> calls_inv (fst (mimic_on typ w c s t)).
Proof.
  intro HI. unfold mimic_on. destruct (mlook c (w_mimic w)) eqn:Em; [exact HI|].
  destruct (nth_error (w_cells w) c) as [x|] eqn:Ex, (nth_error (w_cells w) s) as [y|] eqn:Ey; try exact HI.
  destruct (m_kv x || m_kv y); [exact HI|].
  pose proof (read_links (S (length (w_mimic w))) w s) as L. fold (read_cell w s) in L.
  destruct (read_cell w s) as [w1 r]. cbn [fst] in L. pose proof (links_calls _ _ L HI) as HI1.
  destruct r; try exact HI1. destruct (typ c v); [|exact HI1]. cbn [fst].
  destruct HI1 as (H1 & H2). pose proof L as (_ & L2 & _ & _ & P).
  assert (Rc : m_rec x = true <-> records w1 c).
  { specialize (P c). rewrite Ex in P. unfold records. destruct (nth_error (w_cells w1) c) as [z|]; [|contradiction].
    destruct P as (_ & _ & Pr & _). split; [intro; exists z; split; congruence|]. intros (q & E & H). congruence. }
  rewrite <- L2 in Em. split.
  - intros s' m. unfold mimics. cbn [w_calls w_mimic w_cells]. unfold records. cbn [w_cells]. fold (records w1 m).
    rewrite mlook_app. destruct (m_rec x) eqn:Er.
    + rewrite in_app_iff, H1. unfold mimics. cbn. destruct (Nat.eqb_spec c m) as [<-|Hn].
      * rewrite Em. split.
        -- intros [[X _]|[X|[]]]; [discriminate|]. injection X as ->. split; [reflexivity|]. apply Rc. reflexivity.
        -- intros [X _]. injection X as ->. auto.
      * destruct (mlook m (w_mimic w1)); split.
        -- intros [X|[X|[]]]; [exact X|]. congruence.
        -- auto.
        -- intros [X|[X|[]]]; [exact X|]. congruence.
        -- auto.
    + rewrite H1. unfold mimics. destruct (Nat.eqb_spec c m) as [<-|Hn].
      * rewrite Em. split; [intros [X _]; discriminate|]. intros [_ Y]. apply Rc in Y. discriminate.
      * destruct (mlook m (w_mimic w1)); tauto.
  - cbn [w_mimic]. rewrite map_app. apply nodup_snoc; [exact H2|]. apply mlook_none_in. exact Em.
Qed.
Lemma calls_step w o : calls_inv w -> calls_inv (fst (mstep typ w o)).
Proof.
  intro H. destruct o; cbn [mstep].
  - apply calls_on, H.
  - apply calls_off, H.
  - apply calls_off_list, H.
  - eapply links_calls; [apply read_links|exact H].
  - eapply links_calls; [apply set_links|exact H].
  - destruct (Qleb (w_now w) u); exact H.
Qed.
Lemma calls_run os : forall w, calls_inv w -> calls_inv (mrun typ w os).
Proof. induction os as [|o os IH]; intros w H; [exact H|]. cbn. apply IH, calls_step, H. Qed.
Lemma calls_init t0 l : calls_inv (minit t0 l).
Proof. split; [|constructor]. intros s m. split; [intros []|]. intros [H _]. discriminate. Qed.

(** Histories after a write to [c]. *)
Definition hist (l : list cell) (j : nat) : list (Q * Z) := match nth_error l j with Some x => m_hist x | None => [] end.


Lemma record_shows now v x : m_rec x = true -> shows_now now v (m_hist (m_record now v x)).
Proof.
  intro H. unfold m_record. rewrite H. cbn. destruct (m_hist x) as [|[t u] h] eqn:E.
  - exists now, []. split; [reflexivity|reflexivity].
  - unfold same_entry. cbn. destruct (Qeqb now t) eqn:Et; cbn; [destruct (Z.eqb_spec v u)|].
    + subst. qbool. exists t, h. split; [reflexivity|]. symmetry. exact Et.
    + eexists _, _. split; [reflexivity|reflexivity].
    + eexists _, _. split; [reflexivity|reflexivity].
Qed.
Lemma run_calls_keeps_shows now v calls c j : forall l, shows_now now v (hist l j) ->
  shows_now now v (hist (run_calls now v calls c l) j).
Proof.
  induction calls as [|[s m] calls IH]; intros l H; [exact H|]. cbn. apply IH.
  destruct (Nat.eqb s c); [|exact H]. unfold hist in *. rewrite on_cell_nth.
  destruct (Nat.eqb_spec m j) as [->|]; [|exact H]. destruct (nth_error l j) as [x|]; [|exact H].
  destruct (m_rec x) eqn:E; [apply record_shows; exact E|]. unfold m_record. rewrite E. exact H.
Qed.
Lemma run_calls_shows now v calls c m : In (c, m) calls -> forall l,
  (exists x, nth_error l m = Some x /\ m_rec x = true) -> shows_now now v (hist (run_calls now v calls c l) m).
Proof.
  induction calls as [|[s k] calls IH]; intros Hin l (x & E & Hr); [destruct Hin|]. cbn.
  destruct Hin as [Heq|Hin].
  - injection Heq as -> ->. rewrite Nat.eqb_refl. apply run_calls_keeps_shows. unfold hist.
    rewrite on_cell_nth, Nat.eqb_refl, E. apply record_shows. exact Hr.
  - apply IH; [exact Hin|]. destruct (Nat.eqb s c); [|exists x; auto]. rewrite on_cell_nth, E.
    destruct (Nat.eqb k m); [|exists x; auto]. eexists. split; [reflexivity|].
    destruct (record_simv now v x) as [(_ & _ & -> & _) _]. exact Hr.
Qed.
Lemma run_calls_other now v calls c m : ~ In (c, m) calls -> forall l, hist (run_calls now v calls c l) m = hist l m.
Proof.
  induction calls as [|[s k] calls IH]; intros Hn l; [reflexivity|]. cbn.
  rewrite IH by (intro C; apply Hn; right; exact C).
  destruct (Nat.eqb_spec s c) as [->|]; [|reflexivity]. unfold hist. rewrite on_cell_nth.
  destruct (Nat.eqb_spec k m) as [->|]; [|reflexivity]. exfalso. apply Hn. left. reflexivity.
Qed.

Lemma write_reaches_mimics w c m v : calls_inv w -> mimics w m c -> records w m ->
  snd (set_cell w c v) = MOk -> shows_now (w_now w) v (history (fst (set_cell w c v)) m).
Proof.
  intros (H1 & _) Hm Hr. assert (Hin : In (c, m) (w_calls w)) by (apply H1; auto).
  unfold set_cell. destruct (nth_error (w_cells w) c) as [x|] eqn:E; [|discriminate].
  destruct (m_frozen x); [discriminate|]. destruct (negb (typ c v)); [discriminate|]. intros _. cbn [fst].
  unfold history. cbn [w_cells]. apply (run_calls_shows (w_now w) v (w_calls w) c m Hin).
  destruct Hr as (y & Ey & Hy). rewrite upd_nth. destruct (Nat.eqb_spec c m) as [<-|]; [|exists y; auto].
  rewrite E. eexists. split; [reflexivity|].
  match goal with |- context [m_record ?a ?b ?d] => destruct (record_simv a b d) as [(_ & _ & -> & _) _] end.
  cbn. rewrite E in Ey. injection Ey as <-. exact Hy.
Qed.
Lemma write_leaves_others w c m v : calls_inv w -> m <> c -> ~ mimics w m c ->
  history (fst (set_cell w c v)) m = history w m.
Proof.
  intros (H1 & _) Hc Hm. unfold set_cell. destruct (nth_error (w_cells w) c) as [x|] eqn:E; [|reflexivity].
  destruct (m_frozen x); [reflexivity|]. destruct (negb (typ c v)); [reflexivity|]. cbn [fst].
  unfold history. cbn [w_cells]. etransitivity; [apply (run_calls_other (w_now w) v (w_calls w) c m)|].
  - intro C. apply H1 in C. apply Hm. apply C.
  - unfold hist. rewrite upd_nth. destruct (Nat.eqb_spec c m); [congruence|reflexivity].
Qed.

(** ** Releasing all mimics of an actor *)
Lemma root_after_off w w' c v : w_mimic w' = mdel c (w_mimic w) ->
  value w' c v -> (forall r u, free w r -> value w r u -> value w' r u) ->
  forall r0, root w c r0 -> value w r0 v ->
  forall d r u, root w d r -> value w r u -> exists r', root w' d r' /\ value w' r' u.
Proof.
  intros E Vc K r0 Hc0 Hv0 d r u HR Hu.
  assert (Fc : free w' c) by (unfold free; rewrite E, mlook_del, Nat.eqb_refl; reflexivity).
  induction HR as [d Hf|d s r Hm HR IH].
  - exists d. split.
    + apply root_end. unfold free in *. rewrite E, mlook_del. destruct (Nat.eqb c d); [reflexivity|exact Hf].
    + apply K; assumption.
  - destruct (Nat.eq_dec c d) as [<-|Hn].
    + exists c. split; [apply root_end; exact Fc|].
      assert (r = r0) by (eapply root_fun; [eapply root_step; eassumption|exact Hc0]). subst.
      rewrite (value_fun _ _ _ _ Hu Hv0). exact Vc.
    + destruct (IH Hu) as (r' & R' & V'). exists r'. split; [|exact V']. eapply root_step; [|exact R'].
      unfold mimics in *. rewrite E, mlook_del. apply Nat.eqb_neq in Hn. rewrite Hn. exact Hm.
Qed.

Lemma off_one w c t s : healthy typ w -> mimics w c s -> In (t, c) (w_by_task w) ->
  exists w', mimic_off typ w c t = (w', MOk) /\ healthy typ w' /\
    w_mimic w' = mdel c (w_mimic w) /\ w_by_task w' = prem (t, c) (w_by_task w) /\
    pointwise sim (w_cells w) (w_cells w').
Proof.
  intros HH Hm Hb. destruct (HH c s Hm) as (r & v & HR & Hv & HA).
  destruct (healthy_read w c r v HH HR Hv) as (w1 & ER & V1).
  destruct (mimic_off typ w c t) as [w' o] eqn:E.
  pose proof (read_links (S (length (w_mimic w))) w c) as L. fold (read_cell w c) in L. rewrite ER in L. cbn [fst] in L.
  destruct (mimic_off_shape _ _ _ _ _ E) as [(_ & _ & C)|(w2 & s' & v' & ER' & Hm' & A & B & C & D & F)].
  { exfalso. apply (C s Hm v). rewrite ER. reflexivity. }
  rewrite ER in ER'. injection ER' as <- <-.
  assert (Hex : existsb (pair_eqb (t, c)) (w_by_task w) = true).
  { apply existsb_exists. exists (t, c). split; [exact Hb|]. unfold pair_eqb. cbn. rewrite !Nat.eqb_refl. reflexivity. }
  rewrite Hex in F. destruct F as [F ->]. pose proof L as (L1 & L2 & L3 & L4 & L5). rewrite L2 in C.
  exists w'. split; [reflexivity|]. split; [|split; [exact C|split; [exact F|rewrite B; exact L5]]].
  intros d s0 Hd. unfold mimics in Hd. rewrite C, mlook_del in Hd. destruct (Nat.eqb c d) eqn:Ecd; [discriminate|].
  destruct (HH d s0 Hd) as (rd & vd & HRd & Hvd & HAd).
  destruct (root_after_off w w' c v C) with (r0 := r) (d := d) (r := rd) (u := vd) as (r' & R' & V').
  - destruct V1 as (y & Ey & Hy). exists y. rewrite B. auto.
  - intros q u Hq Hu. pose proof (read_free (S (length (w_mimic w))) w c q u Hq Hu) as K.
    fold (read_cell w c) in K. rewrite ER in K. cbn [fst] in K. destruct K as (y & Ey & Hy). exists y. rewrite B. auto.
  - exact HR.
  - exact Hv.
  - exact HRd.
  - exact Hvd.
  - exists r', vd. split; [exact R'|]. split; [exact V'|].
    pose proof (links_accepts _ _ _ _ L HAd) as (y & Ey & Hy). exists y. rewrite B. auto.
Qed.

Lemma off_list l t : forall w, healthy typ w -> NoDup l -> (forall c, In c l -> (exists s, mimics w c s) /\ In (t, c) (w_by_task w)) ->
  exists w', mimic_off_list typ w l t = (w', MOk) /\
    forall c, mlook c (w_mimic w') = if existsb (Nat.eqb c) l then None else mlook c (w_mimic w).
Proof.
  induction l as [|c l IH]; intros w HH HN HC.
  - exists w. split; [reflexivity|]. reflexivity.
  - destruct (HC c (or_introl eq_refl)) as [[s Hs] Hb]. inversion HN as [|? ? Hni HN']; subst.
    destruct (off_one w c t s HH Hs Hb) as (w1 & E & HH1 & M & B & _).
    cbn [mimic_off_list]. rewrite E. destruct (IH w1 HH1 HN') as (w' & E' & K).
    + intros d Hd. destruct (HC d (or_intror Hd)) as [[s' Hs'] Hb']. assert (c <> d) by (intros ->; contradiction). split.
      * exists s'. unfold mimics in *. rewrite M, mlook_del. destruct (Nat.eqb_spec c d); [congruence|exact Hs'].
      * rewrite B. apply prem_In. split; [exact Hb'|congruence].
    + exists w'. split; [exact E'|]. intro d. rewrite K, M, mlook_del. cbn [existsb].
      rewrite (Nat.eqb_sym d c). destruct (Nat.eqb c d); cbn; [destruct (existsb (Nat.eqb d) l); reflexivity|reflexivity].
Qed.

Lemma mlook_some_in c l : In c (map fst l) -> exists s, mlook c l = Some s.
Proof.
  unfold mlook. induction l as [|[a b] l IH]; cbn; [tauto|]. destruct (Nat.eqb_spec a c); [eauto|].
  intros [C|C]; [congruence|]. apply IH. exact C.
Qed.

Lemma off_all w a t : calls_inv w -> healthy typ w ->
  (forall c s, mimics w c s -> owned w a c = true -> In (t, c) (w_by_task w)) ->
  exists w', mimic_off_all typ w a t = (w', MOk) /\
    forall c, mlook c (w_mimic w') = if owned w a c then None else mlook c (w_mimic w).
Proof.
  intros (_ & HN) HH HB. unfold mimic_off_all. destruct (off_list (mimics_of w a) t w HH) as (w' & E & K).
  - apply NoDup_filter. exact HN.
  - intros c Hc. apply filter_In in Hc. destruct Hc as [Hc Ho]. destruct (mlook_some_in _ _ Hc) as [s Hs].
    split; [exists s; exact Hs|]. eapply HB; eassumption.
  - exists w'. split; [exact E|]. intro c. rewrite K. destruct (mlook c (w_mimic w)) as [s|] eqn:Em.
    + destruct (owned w a c) eqn:Ho.
      * assert (X : existsb (Nat.eqb c) (mimics_of w a) = true); [|rewrite X; reflexivity].
        apply existsb_exists. exists c. split; [|apply Nat.eqb_refl]. apply filter_In. split; [|exact Ho].
        apply mlook_In in Em. change c with (fst (c, s)). apply in_map. exact Em.
      * assert (X : existsb (Nat.eqb c) (mimics_of w a) = false); [|rewrite X; reflexivity].
        destruct (existsb _ _) eqn:X; [|reflexivity]. apply existsb_exists in X. destruct X as (d & Hd & Ed).
        apply Nat.eqb_eq in Ed. subst d. apply filter_In in Hd. destruct Hd. congruence.
    + destruct (existsb _ _), (owned w a c); reflexivity.
Qed.
End P.
