(** Proofs about data tables of a run. *)
From Coq Require Import String.
From Verif Require Import Common StateModel StateSpec StateProofs NetModel TabModel TabSpec TabProofs TabProps RepModel RepSpec.
Open Scope list_scope.

Section RepProofs.
Variable V : Type.
Variable veq : V -> V -> bool.
Variable is_none : V -> bool.
Variable whole : list (key * V) -> V.
Variable kname : key -> string.
Hypothesis kname_inj : forall k k', kname k = kname k' -> k = k'.
Local Notation rstep := (rstep V veq is_none).
Local Notation rrun := (rrun V veq is_none).
Local Notation tab_actor := (tab_actor V whole kname).
Local Notation comp_hist := (comp_hist V kname).
Local Notation comp_def := (comp_def V whole kname).
Local Notation srun typ := (srun V veq is_none typ unit (no_fun V)).
Local Notation kvrun typ := (kvrun V veq typ).

(** ** One state of a run *)
Lemma nth_put_same {X} (x : X) : forall l i y, nth_error l i = Some y -> nth_error (put_nth i x l) i = Some x.
Proof. induction l as [|z l IH]; intros [|i] y H; try discriminate; [reflexivity|]. cbn in *. eapply IH. exact H. Qed.
Lemma nth_put_other {X} (x : X) : forall l i k, i <> k -> nth_error (put_nth i x l) k = nth_error l k.
Proof. induction l as [|z l IH]; intros [|i] [|k] H; try reflexivity; try lia. cbn. apply IH. lia. Qed.
Lemma comp_at_put i j nc w i' j' x : comp_at w i j = Some x ->
  comp_at (put V i j nc w) i' j' = if Nat.eqb i i' && Nat.eqb j j' then Some nc else comp_at w i' j'.
Proof.
  unfold comp_at, put. intro H. destruct (nth_error (rw_actors w) i) as [a|] eqn:A; [|discriminate]. cbn [rw_actors].
  destruct (Nat.eqb i i') eqn:E; cbn [andb].
  - apply Nat.eqb_eq in E. subst i'. rewrite (nth_put_same _ _ _ _ A), A. cbn [ra_comps].
    destruct (Nat.eqb j j') eqn:F.
    + apply Nat.eqb_eq in F. subst j'. apply nth_put_same with x. exact H.
    + apply nth_put_other. apply Nat.eqb_neq. exact F.
  - rewrite nth_put_other; [reflexivity|]. apply Nat.eqb_neq. exact E.
Qed.
Lemma put_now i j nc w : rw_now (put V i j nc w) = rw_now w.
Proof. unfold put. destruct (nth_error (rw_actors w) i); reflexivity. Qed.
Lemma comp_at_tick t w i j : comp_at (mkRW t (map (tick V veq is_none t) (rw_actors w))) i j =
  option_map (fun nc => (fst nc, clock V veq is_none t (snd nc))) (comp_at w i j).
Proof.
  unfold comp_at. cbn [rw_actors]. rewrite nth_error_map. destruct (nth_error (rw_actors w) i) as [a|]; [|reflexivity].
  cbn. apply nth_error_map.
Qed.

Lemma step_plain w o w' r i j n d typ s : rstep w o = (w', r) -> comp_at w i j = Some (n, CPlain d typ s) -> s_now s = rw_now w ->
  exists s', comp_at w' i j = Some (n, CPlain d typ s') /\ s_now s' = rw_now w' /\
    srun typ d s (map fst (plain_part V i j [(o, r)])) = (s', plain_part V i j [(o, r)]).
Proof.
  intros H C N. destruct o as [i' j' o|i' j' o|t]; cbn [RepModel.rstep] in H.
  - destruct (comp_at w i' j') as [[n' c']|] eqn:C'; [|injection H as <- <-; exists s; cbn; auto].
    destruct c' as [d' typ' s1|]; [|injection H as <- <-; exists s; cbn; auto].
    destruct (match o with STime _ => true | _ => false end) eqn:T; [destruct o; try discriminate; injection H as <- <-; exists s; cbn; auto|].
    assert (H' : (let '(s', r) := plain_step V veq is_none typ' d' s1 o in (put V i' j' (n', CPlain d' typ' s') w, RS r)) = (w', r))
      by (destruct o; [exact H|exact H|discriminate T]). clear H.
    destruct (plain_step V veq is_none typ' d' s1 o) as [s2 r2] eqn:E. injection H' as <- <-.
    rewrite (comp_at_put _ _ _ _ i j _ C'), put_now. cbn [plain_part flat_map].
    destruct (Nat.eqb i' i && Nat.eqb j' j) eqn:S.
    + apply andb_prop in S as [S1 S2]. apply Nat.eqb_eq in S1, S2. subst i' j'. rewrite C in C'. injection C' as <- <- <- <-.
      exists s2. split; [reflexivity|]. split.
      * unfold plain_step in E. destruct o; cbn in E; [| |discriminate T].
        -- unfold do_set in E. destruct (d_frozen d && _); [injection E as <- _; exact N|].
           destruct (negb (typ v)); [injection E as <- _; exact N|]. injection E as <- _. cbn. unfold do_record. destruct (d_recording d); exact N.
        -- destruct (s_val s); injection E as <- _; [|exact N]. unfold do_record. destruct (d_recording d); exact N.
      * cbn [map fst app StateModel.srun]. fold (plain_step V veq is_none typ d s o). rewrite E. reflexivity.
    + exists s. cbn. auto.
  - destruct (comp_at w i' j') as [[n' c']|] eqn:C'; [|injection H as <- <-; exists s; cbn; auto].
    destruct c' as [|b' d' typ' s1]; [injection H as <- <-; exists s; cbn; auto|].
    destruct (fits V b' o); [|injection H as <- <-; exists s; cbn; auto].
    destruct (keyed_step V veq typ' d' s1 o) as [s2 r2]. injection H as <- <-.
    rewrite (comp_at_put _ _ _ _ i j _ C'), put_now.
    destruct (Nat.eqb i' i && Nat.eqb j' j) eqn:S; [|exists s; cbn; auto].
    apply andb_prop in S as [S1 S2]. apply Nat.eqb_eq in S1, S2. subst i' j'. rewrite C in C'. discriminate.
  - destruct (Qleb (rw_now w) t) eqn:E; injection H as <- <-; [|exists s; cbn; auto].
    rewrite comp_at_tick, C. cbn [option_map fst snd clock]. unfold plain_step. cbn [StateModel.sstep]. rewrite N, E. cbn [fst].
    eexists. split; [reflexivity|]. split; [reflexivity|]. cbn [plain_part flat_map app map fst StateModel.srun StateModel.sstep]. rewrite N, E. reflexivity.
Qed.
Lemma srun_app typ d : forall os s os' s1 tr1, srun typ d s os = (s1, tr1) ->
  srun typ d s (os ++ os') = let '(s2, tr2) := srun typ d s1 os' in (s2, tr1 ++ tr2).
Proof.
  induction os as [|o os IH]; intros s os' s1 tr1 H; cbn [app StateModel.srun] in *.
  - injection H as <- <-. destruct (srun typ d s os'); reflexivity.
  - destruct (StateModel.sstep V veq is_none typ unit (no_fun V) d s o) as [s0 r]. destruct (srun typ d s0 os) as [s3 tr3] eqn:E.
    injection H as <- <-. rewrite (IH s0 os' _ _ E). destruct (srun typ d s3 os'). reflexivity.
Qed.
Lemma run_plain : forall os w w' tr i j n d typ s, rrun w os = (w', tr) -> comp_at w i j = Some (n, CPlain d typ s) -> s_now s = rw_now w ->
  exists s', comp_at w' i j = Some (n, CPlain d typ s') /\ s_now s' = rw_now w' /\
    srun typ d s (map fst (plain_part V i j tr)) = (s', plain_part V i j tr).
Proof.
  induction os as [|o os IH]; intros w w' tr i j n d typ s H C N; cbn [RepModel.rrun] in H.
  - injection H as <- <-. exists s. cbn. auto.
  - destruct (rstep w o) as [w1 r] eqn:E1. destruct (rrun w1 os) as [w2 tr2] eqn:E2. injection H as <- <-.
    destruct (step_plain _ _ _ _ i j n d typ s E1 C N) as (s1 & C1 & N1 & R1).
    destruct (IH _ _ _ i j n d typ s1 E2 C1 N1) as (s2 & C2 & N2 & R2). exists s2. split; [exact C2|]. split; [exact N2|].
    assert (X : plain_part V i j ((o, r) :: tr2) = plain_part V i j [(o, r)] ++ plain_part V i j tr2).
    { change ((o, r) :: tr2) with ([(o, r)] ++ tr2). unfold plain_part. apply flat_map_app. }
    rewrite X, map_app, (srun_app _ _ _ _ _ _ _ R1), R2. reflexivity.
Qed.

Lemma step_keyed w o w' r i j n b d typ s : rstep w o = (w', r) -> comp_at w i j = Some (n, CKeyed b d typ s) -> kv_now s = rw_now w ->
  exists s', comp_at w' i j = Some (n, CKeyed b d typ s') /\ kv_now s' = rw_now w' /\
    kvrun typ d s (map fst (keyed_part V i j [(o, r)])) = (s', keyed_part V i j [(o, r)]).
Proof.
  intros H C N. destruct o as [i' j' o|i' j' o|t]; cbn [RepModel.rstep] in H.
  - destruct (comp_at w i' j') as [[n' c']|] eqn:C'; [|injection H as <- <-; exists s; cbn; auto].
    destruct c' as [d' typ' s1|]; [|injection H as <- <-; exists s; cbn; auto].
    destruct (match o with STime _ => true | _ => false end) eqn:T; [destruct o; try discriminate; injection H as <- <-; exists s; cbn; auto|].
    assert (H' : (let '(s', r) := plain_step V veq is_none typ' d' s1 o in (put V i' j' (n', CPlain d' typ' s') w, RS r)) = (w', r))
      by (destruct o; [exact H|exact H|discriminate T]). clear H.
    destruct (plain_step V veq is_none typ' d' s1 o) as [s2 r2] eqn:E. injection H' as <- <-.
    rewrite (comp_at_put _ _ _ _ i j _ C'), put_now.
    destruct (Nat.eqb i' i && Nat.eqb j' j) eqn:S; [|exists s; cbn; auto].
    apply andb_prop in S as [S1 S2]. apply Nat.eqb_eq in S1, S2. subst i' j'. rewrite C in C'. discriminate.
  - destruct (comp_at w i' j') as [[n' c']|] eqn:C'; [|injection H as <- <-; exists s; cbn; auto].
    destruct c' as [|b' d' typ' s1]; [injection H as <- <-; exists s; cbn; auto|].
    destruct (fits V b' o) eqn:F; [|injection H as <- <-; exists s; cbn; auto].
    destruct (keyed_step V veq typ' d' s1 o) as [s2 r2] eqn:E. injection H as <- <-.
    rewrite (comp_at_put _ _ _ _ i j _ C'), put_now. cbn [keyed_part flat_map].
    destruct (Nat.eqb i' i && Nat.eqb j' j) eqn:S; [|exists s; cbn; auto].
    apply andb_prop in S as [S1 S2]. apply Nat.eqb_eq in S1, S2. subst i' j'. rewrite C in C'. injection C' as <- <- <- <- <-.
    exists s2. split; [reflexivity|]. split; [|cbn [map fst app StateModel.kvrun]; fold (keyed_step V veq typ d s o); rewrite E; reflexivity].
    rewrite <- N. unfold keyed_step in E. destruct o; cbn [fits] in F; try discriminate F; cbn [kvstep] in E.
    + destruct (kv_dict s); [injection E as <- _; reflexivity|]. destruct (dict_fill V typ l []) as [m [|]]; injection E as <- _; reflexivity.
    + destruct (kv_dict s); injection E as <- _; reflexivity.
    + destruct (kv_dict s); [|injection E as <- _; reflexivity]. unfold set_item, record_key in E. destruct (typ v), (kd_recording d); injection E as <- _; reflexivity.
    + destruct (kv_dict s); [|injection E as <- _; reflexivity]. destruct (kget k l); [injection E as <- _; reflexivity|].
      unfold set_item, record_key in E. destruct (typ v), (kd_recording d); injection E as <- _; reflexivity.
    + destruct (kv_dict s); [|injection E as <- _; reflexivity]. destruct (kget k l); [|injection E as <- _; reflexivity].
      destruct (kget k (kd_fields d)) as [[[|] ok]|]; try (injection E as <- _; reflexivity).
      unfold record_key in E. destruct (ok v), (kd_recording d); injection E as <- _; reflexivity.
  - destruct (Qleb (rw_now w) t) eqn:E; injection H as <- <-; [|exists s; cbn; auto].
    rewrite comp_at_tick, C. cbn [option_map fst snd clock]. unfold keyed_step. cbn [StateModel.kvstep]. rewrite N, E. cbn [fst].
    eexists. split; [reflexivity|]. split; [reflexivity|]. cbn [keyed_part flat_map app map fst StateModel.kvrun StateModel.kvstep]. rewrite N, E. reflexivity.
Qed.
Lemma kvrun_app typ d : forall os s os' s1 tr1, kvrun typ d s os = (s1, tr1) ->
  kvrun typ d s (os ++ os') = let '(s2, tr2) := kvrun typ d s1 os' in (s2, tr1 ++ tr2).
Proof.
  induction os as [|o os IH]; intros s os' s1 tr1 H; cbn [app StateModel.kvrun] in *.
  - injection H as <- <-. destruct (kvrun typ d s os'); reflexivity.
  - destruct (StateModel.kvstep V veq typ d s o) as [s0 r]. destruct (kvrun typ d s0 os) as [s3 tr3] eqn:E.
    injection H as <- <-. rewrite (IH s0 os' _ _ E). destruct (kvrun typ d s3 os'). reflexivity.
Qed.
Lemma run_keyed : forall os w w' tr i j n b d typ s, rrun w os = (w', tr) -> comp_at w i j = Some (n, CKeyed b d typ s) -> kv_now s = rw_now w ->
  exists s', comp_at w' i j = Some (n, CKeyed b d typ s') /\ kv_now s' = rw_now w' /\
    kvrun typ d s (map fst (keyed_part V i j tr)) = (s', keyed_part V i j tr).
Proof.
  induction os as [|o os IH]; intros w w' tr i j n b d typ s H C N; cbn [RepModel.rrun] in H.
  - injection H as <- <-. exists s. cbn. auto.
  - destruct (rstep w o) as [w1 r] eqn:E1. destruct (rrun w1 os) as [w2 tr2] eqn:E2. injection H as <- <-.
    destruct (step_keyed _ _ _ _ i j n b d typ s E1 C N) as (s1 & C1 & N1 & R1).
    destruct (IH _ _ _ i j n b d typ s1 E2 C1 N1) as (s2 & C2 & N2 & R2). exists s2. split; [exact C2|]. split; [exact N2|].
    assert (X : keyed_part V i j ((o, r) :: tr2) = keyed_part V i j [(o, r)] ++ keyed_part V i j tr2).
    { change ((o, r) :: tr2) with ([(o, r)] ++ tr2). unfold keyed_part. apply flat_map_app. }
    rewrite X, map_app, (kvrun_app _ _ _ _ _ _ _ R1), R2. reflexivity.
Qed.

(** ** Names *)
Definition shape (w : rworld V) := map (fun a => (ra_name a, ra_kind a, map fst (ra_comps a))) (rw_actors w).
Lemma map_put_nth {X Y} (f : X -> Y) x : forall l i y, nth_error l i = Some y -> f x = f y -> map f (put_nth i x l) = map f l.
Proof.
  induction l as [|z l IH]; intros [|i] y H E; try discriminate; cbn in *; [injection H as <-; congruence|].
  f_equal. eapply IH; eassumption.
Qed.
Lemma put_shape i j n c c0 w : comp_at w i j = Some (n, c0) -> shape (put V i j (n, c) w) = shape w.
Proof.
  unfold comp_at, put, shape. intro H. destruct (nth_error (rw_actors w) i) as [a|] eqn:A; [|reflexivity]. cbn [rw_actors].
  apply map_put_nth with a; [exact A|]. cbn. f_equal. apply map_put_nth with (n, c0); [exact H|reflexivity].
Qed.
Lemma step_shape w o w' r : rstep w o = (w', r) -> shape w' = shape w.
Proof.
  intro H. destruct o as [i j o|i j o|t]; cbn [RepModel.rstep] in H.
  - destruct (comp_at w i j) as [[n c]|] eqn:C; [|injection H as <- <-; reflexivity]. destruct c as [d typ s|]; [|injection H as <- <-; reflexivity].
    destruct o as [v| |t]; try (injection H as <- <-; reflexivity).
    + destruct (plain_step V veq is_none typ d s (SAssign v)). injection H as <- <-. eapply put_shape; exact C.
    + destruct (plain_step V veq is_none typ d s SRecord). injection H as <- <-. eapply put_shape; exact C.
  - destruct (comp_at w i j) as [[n c]|] eqn:C; [|injection H as <- <-; reflexivity]. destruct c as [|b d typ s]; [injection H as <- <-; reflexivity|].
    destruct (fits V b o); [|injection H as <- <-; reflexivity]. destruct (keyed_step V veq typ d s o). injection H as <- <-. eapply put_shape; exact C.
  - destruct (Qleb (rw_now w) t); injection H as <- <-; [|reflexivity]. unfold shape. cbn [rw_actors]. rewrite map_map. apply map_ext. intro a. cbn.
    f_equal. rewrite map_map. reflexivity.
Qed.
Lemma run_shape : forall os w w' tr, rrun w os = (w', tr) -> shape w' = shape w.
Proof.
  induction os as [|o os IH]; intros w w' tr H; cbn [RepModel.rrun] in H; [injection H as <- <-; reflexivity|].
  destruct (rstep w o) as [w1 r] eqn:E1. destruct (rrun w1 os) as [w2 tr2] eqn:E2. injection H as <- <-.
  rewrite (IH _ _ _ E2). eapply step_shape. exact E1.
Qed.

(** ** Histories and their rows *)
Lemma entries_map h : entries V h = map (fun tv => (fst tv, HVal V (snd tv))) (rev h).
Proof. unfold entries. symmetry. apply map_rev. Qed.
Lemma entries_good h : good_history V (entries V h).
Proof.
  rewrite entries_map. split.
  - intros t b h' E. destruct (rev h); discriminate.
  - intros t I. apply in_map_iff in I. destruct I as (x & E & _). discriminate.
Qed.
Definition plain_row (name kind s : string) (k : option string) (tv : Q * V) : row V := mkRow V name kind s k (fst tv) (snd tv) SNone.
Lemma entries_rows name kind s k h l : shows V name kind s k false (entries V h) l -> l = map (plain_row name kind s k) (rev h).
Proof.
  intro S. rewrite (shows_unique V _ _ _ _ _ _ _ _ S (expected_shows V name kind s k false (entries V h))). clear S.
  rewrite entries_map. generalize (rev h). clear h. intro l0. cbn [default].
  assert (M : forall l1 : list (Q * V), marker_after V (map (fun tv => (fst tv, HVal V (snd tv))) l1) = None) by (intros [|? ?]; reflexivity).
  induction l0 as [|tv l0 IH]; [reflexivity|]. cbn [map expected]. rewrite M. cbn [annotate cells map app fst snd]. unfold plain_row at 1. f_equal. exact IH.
Qed.
Lemma told_rows name kind s k h : told V (map (plain_row name kind s k) (rev h)) = h.
Proof.
  unfold told. rewrite map_map. cbn [plain_row r_time r_value]. rewrite map_ext with (g := fun x => x); [|intros [? ?]; reflexivity].
  rewrite map_id. apply rev_involutive.
Qed.

(** ** The world after a run from a fresh one *)
Lemma kset_keys {X} k (x : X) : forall l, NoDup (map fst l) -> NoDup (map fst (kset k x l)) /\ (forall j, In j (map fst (kset k x l)) <-> j = k \/ In j (map fst l)).
Proof.
  induction l as [|[j y] l IH]; intro N; cbn.
  - split; [constructor; [intros []|constructor]|]. intro i. split; [intros [<-|[]]; auto|intros [->|[]]; auto].
  - cbn in N. inversion N as [|? ? N1 N2]; subst. destruct (Z.eqb j k) eqn:E; cbn.
    + apply Z.eqb_eq in E. subst j. split; [exact N|]. intro i. split; [intros [<-|I]; auto|intros [->|I]; auto].
    + apply Z.eqb_neq in E. destruct (IH N2) as [IH1 IH2]. split.
      * constructor; [|exact IH1]. rewrite IH2. intros [C|C]; [congruence|contradiction].
      * intro i. rewrite IH2. split; [intros [C|[C|C]]; auto|intros [C|[C|C]]; auto].
Qed.
Definition keys_ok (s : kvst V) : Prop :=
  (forall m, kv_dict s = Some m -> NoDup (map fst m)) /\ NoDup (map fst (kv_hist s)).
Lemma record_single_keys now k v h : NoDup (map fst h) -> NoDup (map fst (record_single V veq now k v h)).
Proof. intro N. unfold record_single. destruct (kget k h); apply kset_keys; exact N. Qed.
Lemma record_all_keys now : forall l h, NoDup (map fst h) -> NoDup (map fst (record_all V veq now l h)).
Proof. induction l as [|[k v] l IH]; intros h N; cbn; [exact N|]. apply IH. apply record_single_keys. exact N. Qed.
Lemma dict_fill_keys typ : forall l acc, NoDup (map fst acc) -> NoDup (map fst (fst (dict_fill V typ l acc))).
Proof. induction l as [|[k v] l IH]; intros acc N; cbn; [exact N|]. destruct (typ v); [|exact N]. apply IH. apply kset_keys. exact N. Qed.
Lemma set_item_keys typ d k v m s s' r : NoDup (map fst m) -> NoDup (map fst (kv_hist s)) -> set_item V veq typ d k v m s = (s', r) -> keys_ok s'.
Proof.
  intros N N2 E. unfold set_item, record_key in E.
  destruct (typ v); [destruct (kd_recording d)|]; injection E as <- _; split; cbn; try (intros m' [= <-]; apply kset_keys; exact N); try exact N2.
  apply record_single_keys. exact N2.
Qed.
Lemma kvstep_keys typ d s o s' r : op_wf V o -> keys_ok s -> kvstep V veq typ d s o = (s', r) -> keys_ok s'.
Proof.
  intros W [K1 K2] E. destruct o; cbn [kvstep] in E.
  - destruct (kv_dict s) as [m0|] eqn:D; [injection E as <- _; split; [rewrite D; exact K1|exact K2]|].
    pose proof (dict_fill_keys typ l [] (NoDup_nil _)) as F. destruct (dict_fill V typ l []) as [m [|]]; injection E as <- _; split; cbn.
    + intros m' [= <-]. exact F.
    + destruct (kd_recording d); [apply record_all_keys|]; exact K2.
    + intros m' [= <-]. exact F.
    + exact K2.
  - destruct (kv_dict s) as [m0|] eqn:D; injection E as <- _; [split; [rewrite D; exact K1|exact K2]|]. split; cbn.
    + intros m' [= <-]. exact W.
    + destruct (kd_recording d); [apply record_all_keys|]; exact K2.
  - destruct (kv_dict s) as [m0|] eqn:D; [|injection E as <- _; split; [rewrite D; exact K1|exact K2]].
    eapply set_item_keys; [apply K1; reflexivity|exact K2|exact E].
  - destruct (kv_dict s) as [m0|] eqn:D; [|injection E as <- _; split; [rewrite D; exact K1|exact K2]].
    destruct (kget k m0); [injection E as <- _; split; [rewrite D; exact K1|exact K2]|].
    destruct (set_item V veq typ d k v m0 s) as [s1 r1] eqn:E1. injection E as <- _.
    eapply set_item_keys; [apply K1; reflexivity|exact K2|exact E1].
  - destruct (kv_dict s) as [m0|] eqn:D; [|injection E as <- _; split; [rewrite D; exact K1|exact K2]].
    destruct (kget k m0); [|injection E as <- _; split; [rewrite D; exact K1|exact K2]].
    destruct (kget k (kd_fields d)) as [[[|] ok]|]; try (injection E as <- _; split; [rewrite D; exact K1|exact K2]).
    unfold record_key in E. destruct (ok v); [destruct (kd_recording d)|]; injection E as <- _; split; cbn; try (intros m' [= <-]; apply kset_keys; apply K1; reflexivity); try exact K2.
    + apply record_single_keys. exact K2.
    + rewrite D. exact K1.
  - destruct (Qleb (kv_now s) t); injection E as <- _; split; cbn; assumption.
Qed.
Lemma kvrun_keys typ d : forall os s s' tr, Forall (op_wf V) os -> keys_ok s -> kvrun typ d s os = (s', tr) -> keys_ok s'.
Proof.
  induction os as [|o os IH]; intros s s' tr W K E; cbn [StateModel.kvrun] in E; [injection E as <- _; exact K|].
  inversion W as [|? ? W1 W2]; subst. destruct (kvstep V veq typ d s o) as [s1 r] eqn:E1. destruct (kvrun typ d s1 os) as [s2 tr2] eqn:E2. injection E as <- _.
  eapply IH; [exact W2| |exact E2]. eapply kvstep_keys; eassumption.
Qed.
Lemma part_wf i j : forall os w w' tr, Forall (rop_wf V) os -> rrun w os = (w', tr) -> Forall (op_wf V) (map fst (keyed_part V i j tr)).
Proof.
  induction os as [|o os IH]; intros w w' tr W E; cbn [RepModel.rrun] in E; [injection E as <- <-; constructor|].
  inversion W as [|? ? W1 W2]; subst. destruct (rstep w o) as [w1 r] eqn:E1. destruct (rrun w1 os) as [w2 tr2] eqn:E2. injection E as <- <-.
  specialize (IH _ _ _ W2 E2). unfold keyed_part in *. cbn [flat_map]. rewrite map_app. apply Forall_app. split; [|exact IH].
  destruct o as [i' j' o|i' j' o|t]; destruct r; try (constructor; fail); [|repeat constructor].
  destruct (Nat.eqb i' i && Nat.eqb j' j); [|constructor]. constructor; [|constructor]. cbn. destruct o; cbn in *; auto.
Qed.

Section Run.
Variables (w0 w : rworld V) (os : list (rop V)) (tr : list (rop V * rout V)).
Hypothesis Hfresh : fresh V w0.
Hypothesis Hwf : Forall (rop_wf V) os.
Hypothesis Hrun : rrun w0 os = (w, tr).

Lemma names_after : NoDup (map ra_name (rw_actors w)) /\
  forall a, In a (rw_actors w) -> NoDup (map fst (ra_comps a)) /\ ~ In "Resource"%string (map fst (ra_comps a)).
Proof.
  destruct Hfresh as [N C]. pose proof (run_shape _ _ _ _ Hrun) as S. unfold shape in S. split.
  - assert (E : map ra_name (rw_actors w) = map ra_name (rw_actors w0)).
    { apply (f_equal (map (fun x => fst (fst x)))) in S. rewrite !map_map in S. cbn in S. exact S. }
    rewrite E. exact N.
  - intros a I. apply (in_map (fun a => (ra_name a, ra_kind a, map fst (ra_comps a)))) in I. rewrite S in I.
    apply in_map_iff in I. destruct I as (a0 & E & I). injection E as _ _ E. rewrite <- E. destruct (C a0 I) as [C1 C2]. split; [exact C1|].
    intro R. apply in_map_iff in R. destruct R as ([n c] & En & Ic). cbn in En. subst n. destruct (C2 _ _ Ic) as [_ K]. congruence.
Qed.
(** A state in the end, and in the beginning. *)
Lemma comp_before i j n c : comp_at w i j = Some (n, c) -> exists c0, comp_at w0 i j = Some (n, c0) /\ unset V (rw_now w0) c0.
Proof.
  intro H. unfold comp_at in H. destruct (nth_error (rw_actors w) i) as [a|] eqn:A; [|discriminate].
  pose proof (run_shape _ _ _ _ Hrun) as S. unfold shape in S.
  assert (E : nth_error (map (fun a => (ra_name a, ra_kind a, map fst (ra_comps a))) (rw_actors w0)) i = Some (ra_name a, ra_kind a, map fst (ra_comps a))).
  { rewrite <- S, nth_error_map, A. reflexivity. }
  rewrite nth_error_map in E. destruct (nth_error (rw_actors w0) i) as [a0|] eqn:A0; [|discriminate]. injection E as _ _ E.
  assert (F : nth_error (map fst (ra_comps a0)) j = Some n) by (rewrite E, nth_error_map, H; reflexivity).
  rewrite nth_error_map in F. destruct (nth_error (ra_comps a0) j) as [[n0 c0]|] eqn:C0; [|discriminate]. injection F as ->.
  exists c0. unfold comp_at. rewrite A0. split; [exact C0|]. destruct Hfresh as [_ C]. destruct (C a0 (nth_error_In _ _ A0)) as [_ K].
  destruct (K _ _ (nth_error_In _ _ C0)) as [U _]. exact U.
Qed.
Lemma plain_after i j n d typ s : comp_at w i j = Some (n, CPlain d typ s) ->
  srun typ d (sinit (rw_now w0) []) (map fst (plain_part V i j tr)) = (s, plain_part V i j tr).
Proof.
  intro H. destruct (comp_before _ _ _ _ H) as (c0 & C0 & U). destruct c0 as [d0 typ0 s0|b0 d0 typ0 s0]; cbn in U; subst s0.
  - destruct (run_plain _ _ _ _ i j _ _ _ _ Hrun C0 eq_refl) as (s' & C' & _ & R). rewrite H in C'. injection C' as <- <- <-. exact R.
  - destruct (run_keyed _ _ _ _ i j _ _ _ _ _ Hrun C0 eq_refl) as (s' & C' & _ & R). congruence.
Qed.
Lemma keyed_after i j n b d typ s : comp_at w i j = Some (n, CKeyed b d typ s) ->
  kvrun typ d (kvinit (rw_now w0)) (map fst (keyed_part V i j tr)) = (s, keyed_part V i j tr) /\ keys_ok s.
Proof.
  intro H. destruct (comp_before _ _ _ _ H) as (c0 & C0 & U). destruct c0 as [d0 typ0 s0|b0 d0 typ0 s0]; cbn in U; subst s0.
  - destruct (run_plain _ _ _ _ i j _ _ _ _ Hrun C0 eq_refl) as (s' & C' & _ & R). congruence.
  - destruct (run_keyed _ _ _ _ i j _ _ _ _ _ Hrun C0 eq_refl) as (s' & C' & _ & R). rewrite H in C'. injection C' as <- <- <- <-.
    split; [exact R|]. refine (kvrun_keys _ _ _ _ _ _ _ _ R); [eapply part_wf; eassumption|split; [intros m E; discriminate E|constructor]].
Qed.

(** ** The table *)
Lemma comp_keys_ok a n b d typ s : In a (rw_actors w) -> In (n, CKeyed b d typ s) (ra_comps a) -> keys_ok s.
Proof.
  intros I C. apply In_nth_error in I. destruct I as [i I]. apply In_nth_error in C. destruct C as [j C].
  apply (keyed_after i j n b d typ s). unfold comp_at. rewrite I. exact C.
Qed.
Lemma NoDup_kname {X} : forall l : list (key * X), NoDup (map fst l) -> NoDup (map (fun kv => kname (fst kv)) l).
Proof.
  induction l as [|[k x] l IH]; intro N; cbn in *; [constructor|]. inversion N as [|? ? N1 N2]; subst. constructor; [|apply IH; exact N2].
  intro C. apply in_map_iff in C. destruct C as ([k' x'] & E & I). apply kname_inj in E. cbn in E. subst k'. apply N1. apply (in_map fst) in I. exact I.
Qed.
Lemma table_named : well_named V (map tab_actor (rw_actors w)).
Proof.
  intros a' I. apply in_map_iff in I. destruct I as (a & <- & I). cbn [a_states RepModel.tab_actor]. destruct names_after as [_ C]. split.
  - rewrite map_map. cbn [sd_name RepModel.comp_def]. apply (C a I).
  - intros d v J Ev. apply in_map_iff in J. destruct J as ([n c] & <- & J). cbn [sd_stored RepModel.comp_def snd fst] in Ev. destruct c as [d0 typ s|b d0 typ s].
    + destruct (s_val s); [|discriminate]. injection Ev as <-. constructor.
    + destruct (comp_keys_ok a n b d0 typ s I J) as [K _]. destruct b; destruct (kv_dict s) as [m|] eqn:D; try discriminate; injection Ev as <-; cbn [keys_of].
      * rewrite map_map. cbn [fst]. apply NoDup_kname. apply K. reflexivity.
      * apply NoDup_kname. apply K. reflexivity.
Qed.
Lemma hist_in a s k h : In (s, k, h) (a_hist V (tab_actor a)) -> exists c, In (s, c) (ra_comps a) /\ In (s, k, h) (comp_hist (s, c)) /\ exists l, h = entries V l.
Proof.
  cbn [a_hist RepModel.tab_actor]. intro I. apply in_flat_map in I. destruct I as ([n c] & J & I).
  assert (E : n = s /\ exists l, h = entries V l).
  { unfold RepModel.comp_hist in I. cbn [snd fst] in I. destruct c as [d typ s0|b d typ s0].
    - destruct (s_hist s0) as [|e l]; [destruct I|]. destruct I as [E|[]]. injection E as <- _ <-. split; [reflexivity|eexists; reflexivity].
    - apply in_map_iff in I. destruct I as (kh & E & _). injection E as <- _ <-. split; [reflexivity|eexists; reflexivity]. }
  destruct E as [-> El]. exists c. auto.
Qed.
Lemma table_good : good_histories V (map tab_actor (rw_actors w)).
Proof.
  intros a' s k h I H. apply in_map_iff in I. destruct I as (a & <- & I). destruct (hist_in _ _ _ _ H) as (_ & _ & _ & l & ->). apply entries_good.
Qed.
Lemma split_comps a j n c : In a (rw_actors w) -> nth_error (ra_comps a) j = Some (n, c) ->
  exists l1 l2, ra_comps a = l1 ++ (n, c) :: l2 /\ forall k h, In (n, k, h) (flat_map comp_hist l1) \/ In (n, k, h) (flat_map comp_hist l2) -> False.
Proof.
  intros I H. destruct names_after as [_ C]. destruct (C a I) as [N _]. destruct (nth_error_split _ _ H) as (l1 & l2 & E & _).
  exists l1, l2. split; [exact E|]. rewrite E, map_app in N. cbn in N. apply NoDup_remove_2 in N.
  intros k h K. apply N. apply in_or_app.
  assert (X : forall l, In (n, k, h) (flat_map comp_hist l) -> In n (map fst l)).
  { intros l K0. apply in_flat_map in K0. destruct K0 as ([n' c'] & J & K1). apply in_map_iff. exists (n', c'). split; [|exact J].
    unfold RepModel.comp_hist in K1. cbn [snd fst] in *. destruct c' as [d typ s0|b d typ s0].
    - destruct (s_hist s0); [destruct K1|]. destruct K1 as [E1|[]]. congruence.
    - apply in_map_iff in K1. destruct K1 as (kh & E1 & _). congruence. }
  destruct K as [K|K]; [left|right]; apply X; exact K.
Qed.
Lemma tab_state i a n c v : nth_error (rw_actors w) i = Some a -> In (n, c) (ra_comps a) -> sd_stored V (comp_def (n, c)) = Some v ->
  state_of V true (map tab_actor (rw_actors w)) i (tab_actor a) (comp_def (n, c)) v.
Proof.
  intros A I Ev. split; [rewrite nth_error_map, A; reflexivity|]. split; [cbn; apply in_map; exact I|]. split; [exact Ev|reflexivity].
Qed.
Lemma tab_names : NoDup (map (a_name V) (map tab_actor (rw_actors w))).
Proof. rewrite map_map. cbn. apply names_after. Qed.

Lemma plain_told save i j a n d typ s l : table V whole kname save w = inl l ->
  nth_error (rw_actors w) i = Some a -> nth_error (ra_comps a) j = Some (n, CPlain d typ s) ->
  d_recording d = true -> assigned [] (plain_part V i j tr) <> [] ->
  let rows := filter (about V (ra_name a) n) l in
  faithful veq (d_dups d) (told V rows) (writes (rw_now w0) None [] (plain_part V i j tr)) /\
  Forall (fun r => r_kind V r = ra_kind a /\ r_key V r = None /\ r_status V r = SNone) rows.
Proof.
  intros T A C R As rows. assert (C' : comp_at w i j = Some (n, CPlain d typ s)) by (unfold comp_at; rewrite A; exact C).
  pose proof (plain_after _ _ _ _ _ _ C') as P.
  destruct (state_faithful V veq is_none typ unit (no_fun V) _ _ _ _ _ _ P R) as [F Hv].
  destruct (assigned [] (plain_part V i j tr)) as [|v asg] eqn:Ea; [congruence|]. cbn in Hv.
  assert (Hne : s_hist s <> []).
  { assert (W : writes (rw_now w0) None [] (plain_part V i j tr) <> []).
    { assert (G : forall (tr0 : list (sop V * sout)) t (cur : option V) (acc : list V) (acc' : list (Q * V)), (acc <> [] -> acc' <> []) -> assigned acc tr0 <> [] -> writes t cur acc' tr0 <> []).
      { clear. induction tr0 as [|[o r] tr0 IH]; intros t cur acc acc' I H; cbn in *; [auto|].
        destruct o as [v| |t']; destruct r; try (now apply (IH _ _ acc)).
        - apply (IH t (Some v) (v :: acc) ((t, v) :: acc')); [discriminate|exact H].
        - destruct cur; [apply (IH t (Some v) acc ((t, v) :: acc'))|apply (IH t None acc acc')]; try exact H; [discriminate|exact I]. }
      apply (G _ _ _ [] []); [auto|]. rewrite Ea. discriminate. }
    destruct (writes (rw_now w0) None [] (plain_part V i j tr)) as [|[t x] ws]; [congruence|].
    destruct (f_shown _ _ _ _ F t x (or_introl eq_refl)) as (u & y & I & _). intro E. rewrite E in I. destruct I. }
  assert (I : In a (rw_actors w)) by (eapply nth_error_In; exact A).
  destruct (split_comps a j n _ I C) as (l1 & l2 & El & Hno).
  assert (HH : has_history V (tab_actor a) n None (entries V (s_hist s))).
  { exists (flat_map comp_hist l1), (flat_map comp_hist l2). cbn [a_hist RepModel.tab_actor]. rewrite El, flat_map_app. cbn [flat_map]. split.
    - unfold RepModel.comp_hist at 2. cbn [snd fst]. destruct (s_hist s); [congruence|]. reflexivity.
    - intros h' K. apply (Hno None h'). left. exact K. }
  assert (St : sd_stored V (comp_def (n, CPlain d typ s)) = Some (DVal V v)) by (cbn; rewrite Hv; reflexivity).
  assert (NR : n <> "Resource"%string).
  { destruct names_after as [_ K]. destruct (K a I) as [_ K2]. intros ->. apply K2. apply (in_map fst) with (x := ("Resource"%string, CPlain d typ s)). eapply nth_error_In; exact C. }
  destruct (C45_state_rows V (fun _ => mkRs V "" "" []) true save _ [] table_named table_good (NoDup_nil _) i (tab_actor a) (comp_def (n, CPlain d typ s)) _ _ l T tab_names
              (tab_state i a n _ _ A (nth_error_In _ _ C) St) HH NR) as (b & Sh & Fi).
  change (filter (about V (ra_name a) n) l = b) in Fi. unfold rows. rewrite Fi.
  cbn [sd_active RepModel.comp_def a_name a_kind RepModel.tab_actor sd_name fst] in Sh. rewrite (entries_rows _ _ _ _ _ _ Sh). rewrite told_rows. split; [exact F|].
  apply Forall_forall. intros r Ir. apply in_map_iff in Ir. destruct Ir as (tv & <- & _). auto.
Qed.

Lemma kget_in {X} k : forall (l : list (key * X)) x, kget k l = Some x -> exists l1 l2, l = l1 ++ (k, x) :: l2 /\ ~ In k (map fst l1).
Proof.
  induction l as [|[j y] l IH]; intros x H; cbn in H; [discriminate|]. destruct (Z.eqb j k) eqn:E.
  - apply Z.eqb_eq in E. subst j. injection H as ->. exists [], l. auto.
  - destruct (IH x H) as (l1 & l2 & -> & N). exists ((j, y) :: l1), l2. split; [reflexivity|]. apply Z.eqb_neq in E. cbn. intros [C|C]; [congruence|contradiction].
Qed.
Lemma keyed_told save i j a n b d typ s l k : table V whole kname save w = inl l ->
  nth_error (rw_actors w) i = Some a -> nth_error (ra_comps a) j = Some (n, CKeyed b d typ s) ->
  kd_recording d = true -> (forall o, ~ In (o, KType) (keyed_part V i j tr)) -> kwrites k (rw_now w0) [] (keyed_part V i j tr) <> [] ->
  let rows := filter (about_key V (ra_name a) n (kname k)) l in
  faithful veq false (told V rows) (kwrites k (rw_now w0) [] (keyed_part V i j tr)) /\
  Forall (fun r => r_kind V r = ra_kind a /\ r_status V r = SNone) rows.
Proof.
  intros T A C R Nt Wr rows. assert (C' : comp_at w i j = Some (n, CKeyed b d typ s)) by (unfold comp_at; rewrite A; exact C).
  destruct (keyed_after _ _ _ _ _ _ _ C') as [P [KO1 KO2]].
  assert (Wf : Forall (op_wf V) (map fst (keyed_part V i j tr))) by (eapply part_wf; eassumption).
  pose proof (kv_faithful V veq typ _ _ _ _ _ k R Wf P) as F. pose proof (kv_current V veq typ _ _ _ _ _ k Wf P Nt) as Hc.
  destruct (kwrites k (rw_now w0) [] (keyed_part V i j tr)) as [|[t x] ws] eqn:Ek; [congruence|]. cbn in Hc.
  destruct (kv_dict s) as [m|] eqn:Dm; [|discriminate Hc].
  destruct (f_shown _ _ _ _ F t x (or_introl eq_refl)) as (u & y & Ih & _).
  unfold StateProofs.hget in F, Ih. destruct (kget k (kv_hist s)) as [h|] eqn:Hh; [|destruct Ih].
  assert (I : In a (rw_actors w)) by (eapply nth_error_In; exact A).
  destruct (split_comps a j n _ I C) as (l1 & l2 & El & Hno).
  assert (HH : has_history V (tab_actor a) n (Some (kname k)) (entries V h)).
  { destruct (kget_in _ _ _ Hh) as (h1 & h2 & Eh & Nh).
    exists (flat_map comp_hist l1 ++ map (fun kh => (n, Some (kname (fst kh)), entries V (snd kh))) h1),
           (map (fun kh => (n, Some (kname (fst kh)), entries V (snd kh))) h2 ++ flat_map comp_hist l2).
    cbn [a_hist RepModel.tab_actor]. rewrite El, flat_map_app. cbn [flat_map]. split.
    - unfold RepModel.comp_hist at 2. cbn [snd fst]. rewrite Eh, map_app. cbn [map fst snd]. rewrite <- !app_assoc. reflexivity.
    - intros h' K. apply in_app_or in K. destruct K as [K|K]; [apply (Hno (Some (kname k)) h'); left; exact K|].
      apply in_map_iff in K. destruct K as ([k' h0] & E & K). injection E as E _. apply kname_inj in E. cbn in E. subst k'. apply Nh. apply (in_map fst) in K. exact K. }
  assert (Inm : exists v, sd_stored V (comp_def (n, CKeyed b d typ s)) = Some v /\ In (kname k) (keys_of V v)).
  { assert (Km : In (kname k) (map (fun kv : key * V => kname (fst kv)) m)).
    { destruct (kget_in _ _ _ Hc) as (m1 & m2 & -> & _). rewrite map_app. apply in_or_app. right. left. reflexivity. }
    cbn [sd_stored RepModel.comp_def snd]. rewrite Dm. destruct b; eexists; (split; [reflexivity|]); cbn [keys_of]; [rewrite map_map; exact Km|exact Km]. }
  destruct Inm as (v & St & Kv).
  assert (NR : n <> "Resource"%string).
  { destruct names_after as [_ K]. destruct (K a I) as [_ K2]. intros ->. apply K2. apply (in_map fst) with (x := ("Resource"%string, CKeyed b d typ s)). eapply nth_error_In; exact C. }
  assert (NP : forall h', ~ In (n, None, h') (a_hist V (tab_actor a))).
  { intros h' K. cbn [a_hist RepModel.tab_actor] in K. rewrite El, flat_map_app in K. cbn [flat_map] in K. apply in_app_or in K. destruct K as [K|K]; [apply (Hno None h'); auto|].
    apply in_app_or in K. destruct K as [K|K]; [|apply (Hno None h'); auto]. unfold RepModel.comp_hist in K. cbn [snd] in K. apply in_map_iff in K. destruct K as (kh & E & _). discriminate. }
  assert (NF : forall k' h' t0 e, In (n, Some k', h') (a_hist V (tab_actor a)) -> In (t0, HFields V e) h' -> False).
  { intros k' h' t0 e K1 K2. destruct (hist_in _ _ _ _ K1) as (_ & _ & _ & l0 & ->). rewrite entries_map in K2. apply in_map_iff in K2. destruct K2 as (? & E & _). discriminate. }
  destruct (C45_key_rows V (fun _ => mkRs V "" "" []) true save _ [] table_named table_good (NoDup_nil _) i (tab_actor a) (comp_def (n, CKeyed b d typ s)) v _ (kname k) l T tab_names
              (tab_state i a n _ _ A (nth_error_In _ _ C) St) NP Kv HH NF NR) as (b0 & Sh & Fi).
  change (filter (about_key V (ra_name a) n (kname k)) l = b0) in Fi. unfold rows. rewrite Fi.
  cbn [sd_active RepModel.comp_def a_name a_kind RepModel.tab_actor sd_name fst] in Sh. rewrite (entries_rows _ _ _ _ _ _ Sh). rewrite told_rows. split; [exact F|].
  apply Forall_forall. intros r Ir. apply in_map_iff in Ir. destruct Ir as (tv & <- & _). auto.
Qed.

(** It is made. *)
Definition set_ok (i j : nat) (c : comp V) : Prop :=
  match c with
  | CPlain _ _ s => s_val s <> None
  | CKeyed _ d _ s => kv_dict s <> None /\ forall o, ~ In (o, KType) (keyed_part V i j tr)
  end.
Lemma made save : (forall i j n c, comp_at w i j = Some (n, c) -> set_ok i j c) -> exists l, table V whole kname save w = inl l.
Proof.
  intro H. apply (C45_made_partial V (fun _ => mkRs V "" "" []) true save _ [] table_good).
  intros a' d' Ia Id _. apply in_map_iff in Ia. destruct Ia as (a & <- & Ia). cbn [a_states RepModel.tab_actor] in Id. apply in_map_iff in Id. destruct Id as ([n c] & <- & Ic).
  apply In_nth_error in Ia. destruct Ia as [i A]. apply In_nth_error in Ic. destruct Ic as [j C].
  assert (C' : comp_at w i j = Some (n, c)) by (unfold comp_at; rewrite A; exact C). pose proof (H _ _ _ _ C') as Ok.
  assert (I : In a (rw_actors w)) by (eapply nth_error_In; exact A).
  destruct (split_comps a j n _ I C) as (l1 & l2 & El & Hno).
  assert (BK : by_key V (tab_actor a) n -> exists k h, In (n, Some k, h) (comp_hist (n, c))).
  { intros (k & h & K). cbn [a_hist RepModel.tab_actor] in K. rewrite El, flat_map_app in K. cbn [flat_map] in K. apply in_app_or in K. destruct K as [K|K]; [destruct (Hno (Some k) h); auto|].
    apply in_app_or in K. destruct K as [K|K]; [eauto|destruct (Hno (Some k) h); auto]. }
  destruct c as [d typ s|b d typ s]; cbn [set_ok] in Ok.
  - destruct (s_val s) as [v|] eqn:Ev; [|congruence]. exists (DVal V v). cbn [sd_stored RepModel.comp_def snd sd_name fst]. rewrite Ev. split; [reflexivity|]. split; [|intros _ k []].
    intro B. exfalso. destruct (BK B) as (k & h & K). unfold RepModel.comp_hist in K. cbn [snd fst] in K. destruct (s_hist s); [destruct K|]. destruct K as [K|[]]. discriminate.
  - destruct Ok as [Dm Nt]. destruct (kv_dict s) as [m|] eqn:Em; [|congruence]. clear Dm.
    destruct (keyed_after _ _ _ _ _ _ _ C') as [P _].
    assert (Wf : Forall (op_wf V) (map fst (keyed_part V i j tr))) by (eapply part_wf; eassumption).
    assert (KK : by_key V (tab_actor a) n -> forall k, In k (map (fun kv : key * V => kname (fst kv)) m) -> exists h, In (n, Some k, h) (a_hist V (tab_actor a))).
    { intros B k Ik. destruct (BK B) as (k0 & h0 & K0). apply in_map_iff in Ik. destruct Ik as ([kk x] & <- & Ik). cbn [fst].
      assert (R : kd_recording d = true).
      { destruct (kd_recording d) eqn:R; [reflexivity|]. exfalso. unfold RepModel.comp_hist in K0. cbn [snd] in K0.
        assert (E : kv_hist s = []).
        { clear - P R. revert P. generalize (keyed_part V i j tr) at 2. generalize (map fst (keyed_part V i j tr)). intros ops tr0.
          assert (G : forall ops s0 s1 tr1, kv_hist s0 = [] -> kvrun typ d s0 ops = (s1, tr1) -> kv_hist s1 = []).
          { induction ops0 as [|o ops0 IH]; intros s0 s1 tr1 Z E; cbn [StateModel.kvrun] in E; [injection E as <- _; exact Z|].
            destruct (kvstep V veq typ d s0 o) as [s2 r] eqn:E1. destruct (kvrun typ d s2 ops0) as [s3 tr3] eqn:E2. injection E as <- _. eapply IH; [|exact E2].
            destruct o; cbn [kvstep] in E1.
            - destruct (kv_dict s0); [injection E1 as <- _; exact Z|]. destruct (dict_fill V typ l []) as [m [|]]; injection E1 as <- _; cbn; rewrite ?R; exact Z.
            - destruct (kv_dict s0); injection E1 as <- _; cbn; rewrite ?R; exact Z.
            - destruct (kv_dict s0); [|injection E1 as <- _; exact Z]. unfold set_item, record_key in E1. rewrite R in E1. destruct (typ v); injection E1 as <- _; exact Z.
            - destruct (kv_dict s0); [|injection E1 as <- _; exact Z]. destruct (kget k l); [injection E1 as <- _; exact Z|]. unfold set_item, record_key in E1. rewrite R in E1. destruct (typ v); injection E1 as <- _; exact Z.
            - destruct (kv_dict s0); [|injection E1 as <- _; exact Z]. destruct (kget k l); [|injection E1 as <- _; exact Z].
              destruct (kget k (kd_fields d)) as [[[|] ok]|]; try (injection E1 as <- _; exact Z). unfold record_key in E1. rewrite R in E1. destruct (ok v); injection E1 as <- _; exact Z.
            - destruct (Qleb (kv_now s0) t); injection E1 as <- _; exact Z. }
          intro P. eapply G; [|exact P]. reflexivity. }
        rewrite E in K0. destruct K0. }
      pose proof (kv_faithful V veq typ _ _ _ _ _ kk R Wf P) as F. pose proof (kv_current V veq typ _ _ _ _ _ kk Wf P Nt) as Hc. rewrite Em in Hc.
      assert (Hk : kget kk m <> None).
      { clear - Ik. induction m as [|[q y] m IH]; [destruct Ik|]. cbn. destruct (Z.eqb q kk) eqn:E; [discriminate|]. apply Z.eqb_neq in E.
        destruct Ik as [Ik|Ik]; [congruence|]. apply IH. exact Ik. }
      destruct (kwrites kk (rw_now w0) [] (keyed_part V i j tr)) as [|[t y] ws]; [cbn in Hc; congruence|].
      destruct (f_shown _ _ _ _ F t y (or_introl eq_refl)) as (u & z & Ih & _). unfold StateProofs.hget in Ih.
      destruct (kget kk (kv_hist s)) as [h|] eqn:Hh; [|destruct Ih]. exists (entries V h). cbn [a_hist RepModel.tab_actor]. rewrite El, flat_map_app. cbn [flat_map].
      apply in_or_app. right. apply in_or_app. left. unfold RepModel.comp_hist. cbn [snd fst]. destruct (kget_in _ _ _ Hh) as (h1 & h2 & -> & _).
      rewrite map_app. apply in_or_app. right. left. reflexivity. }
    cbn [sd_stored RepModel.comp_def snd sd_name fst]. rewrite Em. destruct b; eexists; (split; [reflexivity|]); (split; [intros _ _; eauto|]); cbn [keys_of]; intros B k Ik; apply (KK B).
    + rewrite map_map in Ik. exact Ik.
    + exact Ik.
Qed.

(** Nothing else is in it. *)
Lemma only save l r : table V whole kname save w = inl l -> In r l ->
  exists a n c, In a (rw_actors w) /\ In (n, c) (ra_comps a) /\ r_name V r = ra_name a /\ r_kind V r = ra_kind a /\ r_state V r = n.
Proof.
  intros T I. unfold table in T.
  destruct (C45_table V (fun _ => mkRs V "" "" []) true save _ [] table_named table_good (NoDup_nil _) l T) as (bs & -> & _ & B).
  apply in_flat_map in I. destruct I as ([src b] & Ib & Ir). apply B in Ib. cbn [snd] in Ir.
  assert (ST : forall i a' d v, state_of V true (map tab_actor (rw_actors w)) i a' d v -> exists a c, a' = tab_actor a /\ In a (rw_actors w) /\ In (sd_name V d, c) (ra_comps a)).
  { intros i a' d v (A & Id & _). apply nth_error_In in A. apply in_map_iff in A. destruct A as (a & <- & Ia). cbn [a_states RepModel.tab_actor] in Id. apply in_map_iff in Id.
    destruct Id as ([n c] & <- & Ic). exists a, c. auto. }
  destruct src as [i s k|i s q|i s|q]; cbn [block] in Ib.
  - assert (X : exists a' d v k0 h, state_of V true (map tab_actor (rw_actors w)) i a' d v /\ sd_name V d = s /\ shows V (a_name V a') (a_kind V a') s k0 (sd_active V d) h b).
    { destruct k as [k|].
      - destruct Ib as (a' & d & v & h & S & N & _ & _ & _ & Sh). eauto 10.
      - destruct Ib as (a' & d & v & h & S & N & _ & Sh). eauto 10. }
    destruct X as (a' & d & v & k0 & h & S & N & Sh). destruct (ST _ _ _ _ S) as (a & c & -> & Ia & Ic). rewrite N in Ic.
    destruct (shows_all V _ _ _ _ _ _ _ _ Sh Ir) as (E1 & E2 & E3). exists a, s, c. split; [exact Ia|]. split; [exact Ic|]. auto.
  - destruct Ib as (a' & d & x & S & N & _ & ->). destruct (ST _ _ _ _ S) as (a & c & -> & Ia & Ic). rewrite N in Ic.
    apply in_map_iff in Ir. destruct Ir as (tv & <- & _). exists a, s, c. split; [exact Ia|]. split; [exact Ic|]. auto.
  - destruct Ib as (_ & a' & d & v & S & N & _ & _ & ->). destruct (ST _ _ _ _ S) as (a & c & -> & Ia & Ic). subst s.
    exists a, (sd_name V d), c. split; [exact Ia|]. split; [exact Ic|]. unfold static_rows in Ir. destruct v; try (destruct Ir as [<-|[]]; auto; fail).
    apply in_map_iff in Ir. destruct Ir as (tv & <- & _). auto.
  - destruct Ib as ([] & _).
Qed.
(** States that are not recorded. *)
Lemma NoDup_fst {X} : forall (l : list (string * X)) n x y, NoDup (map fst l) -> In (n, x) l -> In (n, y) l -> x = y.
Proof.
  induction l as [|[m z] l IH]; intros n x y N I J; [destruct I|]. cbn in N. inversion N as [|? ? N1 N2]; subst.
  destruct I as [I|I], J as [J|J].
  - congruence.
  - injection I as -> ->. exfalso. apply N1. apply (in_map fst) in J. exact J.
  - injection J as -> ->. exfalso. apply N1. apply (in_map fst) in I. exact I.
  - eapply IH; eassumption.
Qed.
Lemma static_src save i j a n d typ s src b r : nth_error (rw_actors w) i = Some a -> nth_error (ra_comps a) j = Some (n, CPlain d typ s) ->
  s_hist s = [] -> block V (fun _ => mkRs V "" "" []) true save (map tab_actor (rw_actors w)) [] src b -> In r b -> about V (ra_name a) n r = true ->
  save = true /\ src = FromStatic i n.
Proof.
  intros A C Hh Bl Ir Ab. apply andb_prop in Ab as [Ab1 Ab2]. apply String.eqb_eq in Ab1, Ab2.
  assert (I : In a (rw_actors w)) by (eapply nth_error_In; exact A).
  destruct (split_comps a j n _ I C) as (l1 & l2 & El & Hno).
  assert (NoH : forall k h, ~ In (n, k, h) (a_hist V (tab_actor a))).
  { intros k h K. cbn [a_hist RepModel.tab_actor] in K. rewrite El, flat_map_app in K. cbn [flat_map] in K. apply in_app_or in K. destruct K as [K|K]; [apply (Hno k h); auto|].
    apply in_app_or in K. destruct K as [K|K]; [|apply (Hno k h); auto]. unfold RepModel.comp_hist in K. cbn [snd] in K. rewrite Hh in K. destruct K. }
  assert (ST : forall i' a' d' v, state_of V true (map tab_actor (rw_actors w)) i' a' d' v -> a_name V a' = ra_name a ->
     i' = i /\ a' = tab_actor a /\ (sd_name V d' = n -> exists x, v = DVal V x)).
  { intros i' a' d' v (A' & Id & Ev & _) En. rewrite nth_error_map in A'. destruct (nth_error (rw_actors w) i') as [a1|] eqn:A1; [|discriminate]. injection A' as <-. cbn in En.
    assert (i' = i).
    { destruct names_after as [N _]. apply (proj1 (NoDup_nth_error (map ra_name (rw_actors w))) N).
      - rewrite map_length. apply nth_error_Some. congruence.
      - rewrite !nth_error_map, A, A1. cbn. rewrite En. reflexivity. }
    subst i'. rewrite A in A1. injection A1 as <-. split; [reflexivity|]. split; [reflexivity|]. intro Es.
    cbn [a_states RepModel.tab_actor] in Id. apply in_map_iff in Id. destruct Id as ([n' c'] & <- & Ic). cbn in Es. subst n'.
    destruct names_after as [_ N]. destruct (N a I) as [N1 _]. rewrite (NoDup_fst _ _ _ _ N1 Ic (nth_error_In _ _ C)) in Ev. cbn in Ev.
    destruct (s_val s); [|discriminate]. injection Ev as <-. eauto. }
  destruct src as [i' s' k|i' s' q|i' s'|q]; cbn [block] in Bl.
  - exfalso. assert (X : exists a' d' v k0 h, state_of V true (map tab_actor (rw_actors w)) i' a' d' v /\ sd_name V d' = s' /\ has_history V a' s' k0 h /\ shows V (a_name V a') (a_kind V a') s' k0 (sd_active V d') h b).
    { destruct k as [k|].
      - destruct Bl as (a' & d' & v & h & S & N & _ & _ & HH & Sh). exists a', d', v, (Some k), h. auto.
      - destruct Bl as (a' & d' & v & h & S & N & HH & Sh). exists a', d', v, None, h. auto. }
    destruct X as (a' & d' & v & k0 & h & S & N & HH & Sh). destruct (shows_all V _ _ _ _ _ _ _ _ Sh Ir) as (E1 & _ & E3).
    destruct (ST _ _ _ _ S ltac:(congruence)) as (-> & -> & _). destruct HH as (pre & post & EH & _). apply (NoH k0 h). assert (Es : s' = n) by (rewrite <- E3; exact Ab2). subst s'. rewrite Es in EH. rewrite EH. apply in_or_app. right. left. reflexivity.
  - exfalso. destruct Bl as (a' & d' & x & S & N & _ & ->). apply in_map_iff in Ir. destruct Ir as (tv & <- & _). cbn in Ab1, Ab2.
    destruct (ST _ _ _ _ S Ab1) as (_ & _ & K). destruct K as [y E]; [congruence|discriminate].
  - destruct Bl as (Sv & a' & d' & v & S & N & _ & _ & ->). split; [exact Sv|].
    assert (E : a_name V a' = ra_name a /\ s' = n).
    { subst s'. unfold static_rows in Ir. destruct v; try (destruct Ir as [<-|[]]; cbn in Ab1, Ab2; auto; fail).
      apply in_map_iff in Ir. destruct Ir as (tv & <- & _). cbn in Ab1, Ab2. auto. }
    destruct E as [E1 ->]. destruct (ST _ _ _ _ S E1) as (-> & _). reflexivity.
  - destruct Bl as ([] & _).
Qed.
Lemma static_told save i j a n d typ s l : table V whole kname save w = inl l ->
  nth_error (rw_actors w) i = Some a -> nth_error (ra_comps a) j = Some (n, CPlain d typ s) -> d_recording d = false ->
  forall v asg, assigned [] (plain_part V i j tr) = v :: asg ->
  filter (about V (ra_name a) n) l = if save then [mkRow V (ra_name a) (ra_kind a) n None 0 v SLastSeen] else [].
Proof.
  intros T A C R v asg Ea. assert (C' : comp_at w i j = Some (n, CPlain d typ s)) by (unfold comp_at; rewrite A; exact C).
  pose proof (plain_after _ _ _ _ _ _ C') as P.
  destruct (state_notifications V veq is_none typ unit (no_fun V) _ _ _ _ _ _ P) as (_ & _ & Hh). specialize (Hh R).
  assert (Hv : s_val s = Some v).
  { assert (G : forall ops s0 s1 tr1 acc, s_val s0 = hd_error acc -> srun typ d s0 ops = (s1, tr1) -> s_val s1 = hd_error (assigned acc tr1)).
    { clear - R. induction ops as [|o ops IH]; intros s0 s1 tr1 acc Z E; cbn [StateModel.srun] in E; [injection E as <- <-; exact Z|].
      destruct (StateModel.sstep V veq is_none typ unit (no_fun V) d s0 o) as [s2 r] eqn:E1. destruct (srun typ d s2 ops) as [s3 tr3] eqn:E2. injection E as <- <-.
      destruct o as [x| |t]; cbn [StateModel.sstep] in E1.
      - unfold do_set in E1. destruct (d_frozen d && _); [injection E1 as <- <-; cbn; (eapply IH; [|exact E2]; exact Z)|].
        destruct (negb (typ x)); [injection E1 as <- <-; cbn; (eapply IH; [|exact E2]; exact Z)|]. unfold do_record in E1. rewrite R in E1. injection E1 as <- <-. cbn. eapply IH; [|exact E2]. reflexivity.
      - destruct (s_val s0) eqn:Es; injection E1 as <- <-; cbn; (eapply IH; [|exact E2]); [unfold do_record; rewrite R; congruence|congruence].
      - destruct (Qleb (s_now s0) t); injection E1 as <- <-; cbn; (eapply IH; [|exact E2]; exact Z). }
    rewrite (G _ (sinit (rw_now w0) []) _ _ [] eq_refl P), Ea. reflexivity. }
  assert (I : In a (rw_actors w)) by (eapply nth_error_In; exact A).
  unfold table in T. rewrite (table_rows V _ true save _ [] table_good (NoDup_nil _) l T).
  assert (NS : forall src b r, In (src, b) (table_blocks V (fun _ => mkRs V "" "" []) true save (map tab_actor (rw_actors w)) []) -> In r b -> about V (ra_name a) n r = true -> save = true /\ src = FromStatic i n).
  { intros src b r Ib Ir Ab. eapply static_src; try eassumption. apply table_block; [exact table_named|exact Ib]. }
  destruct save.
  - apply filter_block with (src0 := FromStatic i n).
    + apply table_nodup; [exact table_named|constructor].
    + apply table_block; [exact table_named|]. split; [reflexivity|].
      exists (tab_actor a), (comp_def (n, CPlain d typ s)), (DVal V v). split; [apply tab_state; [exact A|eapply nth_error_In; exact C|cbn; rewrite Hv; reflexivity]|].
      split; [reflexivity|]. split; [|split; [intros q x; discriminate|reflexivity]].
      destruct (split_comps a j n _ I C) as (l1 & l2 & El & Hno).
      assert (NoH : forall k h, ~ In (n, k, h) (a_hist V (tab_actor a))).
      { intros k h K. cbn [a_hist RepModel.tab_actor] in K. rewrite El, flat_map_app in K. cbn [flat_map] in K. apply in_app_or in K. destruct K as [K|K]; [apply (Hno k h); auto|].
        apply in_app_or in K. destruct K as [K|K]; [|apply (Hno k h); auto]. unfold RepModel.comp_hist in K. cbn [snd] in K. rewrite Hh in K. destruct K. }
      intros [(h & pre & post & EH & _)|(k & h & K)].
      * apply (NoH None h). rewrite EH. apply in_or_app. right. left. reflexivity.
      * apply (NoH (Some k) h). exact K.
    + intros r [<-|[]]. unfold about. cbn. rewrite !String.eqb_refl. reflexivity.
    + intros src b r Ib Ne Ir. destruct (about V (ra_name a) n r) eqn:E; [|reflexivity]. destruct (NS _ _ _ Ib Ir E) as [_ K]. congruence.
  - apply filter_none. intros r Ir. apply in_flat_map in Ir. destruct Ir as ([src b] & Ib & Ir). destruct (about V (ra_name a) n r) eqn:E; [|reflexivity].
    destruct (NS _ _ _ Ib Ir E) as [K _]. discriminate.
Qed.
Lemma kv_stays typ d : forall ops s0 s1 tr1, kvrun typ d s0 ops = (s1, tr1) -> kv_dict s0 <> None -> kv_dict s1 <> None.
Proof.
  induction ops as [|o ops IH]; intros s0 s1 tr1 E N; cbn [StateModel.kvrun] in E; [injection E as <- <-; exact N|].
  destruct (kvstep V veq typ d s0 o) as [s2 r] eqn:E1. destruct (kvrun typ d s2 ops) as [s3 tr3] eqn:E2. injection E as <- <-.
  eapply IH; [exact E2|]. clear E2 IH. destruct (kv_dict s0) as [m|] eqn:D; [|congruence].
  assert (SI : forall k v s2 r, set_item V veq typ d k v m s0 = (s2, r) -> kv_dict s2 <> None).
  { intros k v s4 r4 X. unfold set_item, record_key in X. destruct (typ v); [destruct (kd_recording d)|]; injection X as <- <-; discriminate. }
  destruct o as [l|l|k v|k v|k v|t]; cbn [kvstep] in E1.
  - rewrite D in E1. injection E1 as <- <-. congruence.
  - rewrite D in E1. injection E1 as <- <-. congruence.
  - rewrite D in E1. eapply SI. exact E1.
  - rewrite D in E1. destruct (kget k m); [injection E1 as <- <-; congruence|]. destruct (set_item V veq typ d k v m s0) as [s4 r4] eqn:X. injection E1 as <- <-. eapply SI. exact X.
  - rewrite D in E1. destruct (kget k m); [|injection E1 as <- <-; congruence]. destruct (kget k (kd_fields d)) as [[[|] ok]|]; try (injection E1 as <- <-; congruence).
    destruct (ok v); [|injection E1 as <- <-; congruence]. unfold record_key in E1. destruct (kd_recording d); injection E1 as <- <-; discriminate.
  - destruct (Qleb (kv_now s0) t); injection E1 as <- <-; cbn; congruence.
Qed.
Lemma kv_given typ d : forall ops s0 s1 tr1 l, kvrun typ d s0 ops = (s1, tr1) -> In (KInit l, KOk) tr1 \/ In (KInitDc l, KOk) tr1 -> kv_dict s1 <> None.
Proof.
  induction ops as [|o ops IH]; intros s0 s1 tr1 l E I; cbn [StateModel.kvrun] in E; [injection E as <- <-; destruct I as [[]|[]]|].
  destruct (kvstep V veq typ d s0 o) as [s2 r] eqn:E1. destruct (kvrun typ d s2 ops) as [s3 tr3] eqn:E2. injection E as <- <-.
  assert (K : (o, r) = (KInit l, KOk) \/ (o, r) = (KInitDc l, KOk) -> kv_dict s2 <> None).
  { intros [K|K]; injection K as -> ->; unfold kvstep in E1; destruct (kv_dict s0); try discriminate.
    - destruct (dict_fill V typ l []) as [m ok]; destruct ok; [injection E1 as <-; discriminate|discriminate].
    - injection E1 as <-. discriminate. }
  destruct I as [[I|I]|[I|I]]; [eapply kv_stays; [exact E2|]; apply K; auto| |eapply kv_stays; [exact E2|]; apply K; auto|]; (eapply IH; [exact E2|]); eauto.
Qed.
Lemma plain_val typ d : forall ops s0 s1 tr1 (acc : list V), s_val s0 = hd_error acc -> srun typ d s0 ops = (s1, tr1) -> s_val s1 = hd_error (assigned acc tr1).
Proof.
  induction ops as [|o ops IH]; intros s0 s1 tr1 acc Z E; cbn [StateModel.srun] in E; [injection E as <- <-; exact Z|].
  destruct (StateModel.sstep V veq is_none typ unit (no_fun V) d s0 o) as [s2 r] eqn:E1. destruct (srun typ d s2 ops) as [s3 tr3] eqn:E2. injection E as <- <-.
  assert (DR : forall v s', s_val (do_record V veq unit (no_fun V) d v s') = s_val s') by (intros v s'; unfold do_record; destruct (d_recording d); reflexivity).
  destruct o as [x| |t]; cbn [StateModel.sstep] in E1.
  - unfold do_set in E1. destruct (d_frozen d && _); [injection E1 as <- <-; cbn; (eapply IH; [|exact E2]; exact Z)|].
    destruct (negb (typ x)); injection E1 as <- <-; cbn; (eapply IH; [|exact E2]); [exact Z|]. rewrite DR. reflexivity.
  - destruct (s_val s0) eqn:Es; injection E1 as <- <-; cbn; (eapply IH; [|exact E2]); [rewrite DR; congruence|congruence].
  - destruct (Qleb (s_now s0) t); injection E1 as <- <-; cbn; (eapply IH; [|exact E2]; exact Z).
Qed.
Lemma made_given save : (forall i j n c, comp_at w i j = Some (n, c) -> given V i j tr c) -> exists l, table V whole kname save w = inl l.
Proof.
  intro H. apply made. intros i j n c C. pose proof (H _ _ _ _ C) as K. destruct c as [d typ s|b d typ s]; cbn in K |- *.
  - rewrite (plain_val _ _ _ (sinit (rw_now w0) []) _ _ [] eq_refl (plain_after _ _ _ _ _ _ C)). destruct (assigned [] (plain_part V i j tr)); [congruence|discriminate].
  - destruct K as [[l K] N]. split; [|exact N]. destruct (keyed_after _ _ _ _ _ _ _ C) as [P _]. eapply kv_given; [exact P|exact K].
Qed.
End Run.
End RepProofs.
