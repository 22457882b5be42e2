From Verif Require Import Common StateModel StateSpec.

Section Hist.
Context {V : Type}.
Variable veq : V -> V -> bool.
Notation append_entry := (append_entry V veq).

Definition upto (now : Q) (h : list (Q * V)) : Prop := match h with (u, _) :: _ => u <= now | [] => True end.

Lemma faithful_nil dups : faithful veq dups [] [].
Proof. split; cbn; auto. constructor. intros t v []. Qed.

Lemma at_time_cons (t u : Q) v (h : list (Q * V)) :
  at_time t ((u, v) :: h) = if Qleb u t then Some v else at_time t h.
Proof. reflexivity. Qed.

Lemma append_faithful dups now v h ws :
  faithful veq dups h ws -> upto now h -> faithful veq dups (append_entry dups (now, v) h) ((now, v) :: ws).
Proof.
  intros [H1 H2 H3 H4 H6 H5] Hu. unfold StateModel.append_entry. destruct h as [|[u w] h].
  - split.
    + exact I.
    + intros _. exact I.
    + intro Hd. rewrite <- (H3 Hd). reflexivity.
    + constructor. exact H4.
    + intros t x [E|Hin]; [injection E as <- <-; exists now, v; split; [left; reflexivity|split; [reflexivity|left; reflexivity]]|].
      destruct (H6 t x Hin) as (? & ? & [] & _).
    + intro t. rewrite !at_time_cons. destruct (Qleb now t); [left; reflexivity|]. apply H5.
  - destruct (dups || negb (entry_eq V veq (now, v) (u, w))) eqn:E.
    + split.
      * split; [exact Hu|exact H1].
      * intro Hd. subst dups. split; [|apply H2; reflexivity]. intros [E1 E2]. cbn [orb] in E.
        unfold entry_eq in E. cbn [fst snd] in E. apply Qeqb_eq in E1. rewrite E1, E2 in E. discriminate.
      * intro Hd. rewrite <- (H3 Hd). reflexivity.
      * constructor. exact H4.
      * intros t x [E0|Hin]; [injection E0 as <- <-; exists now, v; split; [left; reflexivity|split; [reflexivity|left; reflexivity]]|].
        destruct (H6 t x Hin) as (a & b & Hab & R). exists a, b. split; [right; exact Hab|exact R].
      * intro t. rewrite !(at_time_cons t now). destruct (Qleb now t); [left; reflexivity|]. apply H5.
    + apply orb_false_iff in E. destruct E as [Ed E]. apply negb_false_iff in E.
      unfold entry_eq in E. cbn [fst snd] in E. apply andb_prop in E. destruct E as [E1 E2]. qbool.
      split; auto.
      * intro Hd. congruence.
      * constructor. exact H4.
      * intros t x [E0|Hin]; [|apply (H6 t x Hin)]. injection E0 as <- <-. exists u, w.
        split; [left; reflexivity|]. split; [symmetry; exact E1|right; exact E2].
      * intro t. rewrite (at_time_cons t now). destruct (Qleb now t) eqn:E3; [|apply H5].
        rewrite at_time_cons. qbool. assert (E4 : Qleb u t = true) by (apply Qleb_le; lra).
        rewrite E4. right. exact E2.
Qed.

Lemma append_upto dups now v h : upto now h -> upto now (append_entry dups (now, v) h).
Proof.
  unfold StateModel.append_entry. destruct h as [|[u w] h]; [intros _; apply Qle_refl|]. intro H.
  destruct (_ || _); [apply Qle_refl|exact H].
Qed.
Lemma upto_le now now' h : upto now h -> now <= now' -> upto now' h.
Proof. destruct h as [|[u w] h]; cbn; [auto|lra]. Qed.
End Hist.

Section State.
Variables (V : Type) (veq : V -> V -> bool) (is_none typ : V -> bool).
Variables (RS : Type) (rfun : RS -> Q -> V -> RS * V).
Notation sst := (sst V RS).
Notation sstep := (sstep V veq is_none typ RS rfun).
Notation srun := (srun V veq is_none typ RS rfun).
Notation results := (results RS rfun).

(** The relation between a state and what was written so far. *)
Definition fun_ok (d : sdef) (now : Q) (ws : list (Q * V)) (r0 : RS) (f : RS * list (Q * V)) : Prop :=
  fst f = fst (results r0 ws) /\ faithful veq (d_dups d) (snd f) (snd (results r0 ws)) /\ upto now (snd f).
Record J (d : sdef) (rs : list RS) (t : Q) (cur : option V) (ws : list (Q * V)) (asg : list V) (s : sst) : Prop := {
  j_now : s_now s = t;
  j_val : s_val s = cur;
  j_hist : d_recording d = true -> faithful veq (d_dups d) (s_hist s) ws;
  j_upto : upto (s_now s) (s_hist s);
  j_funs : d_recording d = true -> Forall2 (fun_ok d (s_now s) ws) rs (s_funs s);
  j_off : d_recording d = false -> s_hist s = [] /\ s_funs s = map (fun r => (r, [])) rs;
  j_called : s_called s = asg;
  j_sent : s_sent s = asg;
  j_cur : cur = hd_error asg }.

Lemma record_fun_ok d now ws r0 f v :
  fun_ok d now ws r0 f -> fun_ok d now ((now, v) :: ws) r0 (record_fun V veq RS rfun (d_dups d) now v f).
Proof.
  intros (H1 & H2 & H3). unfold fun_ok, record_fun. cbn [StateSpec.results].
  destruct (results r0 ws) as [r l] eqn:E. cbn [fst snd] in *. rewrite H1.
  destruct (rfun r now v) as [r' x]. cbn [fst snd]. split; [reflexivity|].
  split; [apply append_faithful; assumption|apply append_upto; assumption].
Qed.

Lemma do_record_J d rs t cur ws asg s v :
  J d rs t cur ws asg s ->
  J d rs t cur ((t, v) :: ws) asg (do_record V veq RS rfun d v s).
Proof.
  intros [A1 A2 A3 A4 A5 A6 A7 A8 A9]. unfold do_record. destruct (d_recording d) eqn:E.
  - split; cbn [s_now s_val s_hist s_funs s_called s_sent]; auto; try congruence.
    + intros _. rewrite A1 in *. apply append_faithful; auto.
    + apply append_upto. exact A4.
    + intros _. specialize (A5 eq_refl). rewrite A1 in *. induction A5 as [|r f rs' fs H HF IH]; [constructor|].
      cbn [map]. constructor; [apply record_fun_ok; exact H|]. apply IH. intro; discriminate.
  - split; auto; congruence.
Qed.

Lemma upto_fun_le d now now' ws r f : now <= now' -> fun_ok d now ws r f -> fun_ok d now' ws r f.
Proof. intros Hl (H1 & H2 & H3). split; [exact H1|]. split; [exact H2|]. eapply upto_le; eassumption. Qed.

Lemma sstep_J d rs t cur ws asg s o s' r :
  J d rs t cur ws asg s -> sstep d s o = (s', r) ->
  match o, r with
  | SAssign v, ROk => J d rs t (Some v) ((t, v) :: ws) (v :: asg) s'
  | SRecord, ROk => exists v, cur = Some v /\ J d rs t cur ((t, v) :: ws) asg s'
  | STime t', ROk => J d rs t' cur ws asg s'
  | _, _ => s' = s
  end.
Proof.
  intros HJ H. destruct o as [v| |t'].
  - cbn [StateModel.sstep] in H. unfold do_set in H.
    destruct (d_frozen d && _); [injection H as <- <-; reflexivity|].
    destruct (negb (typ v)); [injection H as <- <-; reflexivity|].
    injection H as <- <-.
    assert (H0 : J d rs t (Some v) ws (v :: asg)
       (mkS (s_now s) (Some v) (s_hist s) (s_funs s) (v :: s_called s) (v :: s_sent s))).
    { destruct HJ. split; cbn [s_now s_val s_hist s_funs s_called s_sent]; auto; congruence. }
    apply (do_record_J _ _ _ _ _ _ _ v) in H0. unfold do_record in *. destruct (d_recording d); exact H0.
  - cbn [StateModel.sstep] in H. pose proof (j_val _ _ _ _ _ _ _ HJ) as Hv. rewrite Hv in H.
    destruct cur as [v|]; injection H as <- <-; [|reflexivity].
    exists v. split; [reflexivity|]. apply do_record_J. exact HJ.
  - cbn [StateModel.sstep] in H. destruct (Qleb (s_now s) t') eqn:E; injection H as <- <-; [|reflexivity].
    qbool. destruct HJ as [A1 A2 A3 A4 A5 A6 A7 A8 A9].
    split; cbn [s_now s_val s_hist s_funs s_called s_sent]; auto.
    + eapply upto_le; eassumption.
    + intro Hr. specialize (A5 Hr). clear - A5 E. induction A5; constructor; auto. eapply upto_fun_le; eassumption.
Qed.

Lemma srun_J d rs os : forall t cur ws asg s s' tr,
  J d rs t cur ws asg s -> srun d s os = (s', tr) ->
  exists t' cur', J d rs t' cur' (writes t cur ws tr) (assigned asg tr) s'.
Proof.
  induction os as [|o os IH]; intros t cur ws asg s s' tr HJ H; cbn [StateModel.srun] in H.
  - injection H as <- <-. exists t, cur. exact HJ.
  - destruct (sstep d s o) as [s1 r] eqn:E1. destruct (srun d s1 os) as [s2 tr2] eqn:E2.
    injection H as <- <-. pose proof (sstep_J _ _ _ _ _ _ _ _ _ _ HJ E1) as HS.
    destruct o as [v| |t']; destruct r; cbn [writes assigned];
      try (subst s1; eapply IH; eassumption).
    + eapply IH; eassumption.
    + destruct HS as (v & -> & HS). eapply IH; eassumption.
    + eapply IH; eassumption.
Qed.

Lemma sinit_J d rs t0 : J d rs t0 None [] [] (sinit t0 rs).
Proof.
  split; cbn; auto.
  - intros _. apply faithful_nil.
  - intros _. induction rs as [|r rs IH]; cbn [map]; constructor; auto.
    split; [reflexivity|]. split; [apply faithful_nil|exact I].
Qed.

Lemma state_faithful d t0 rs os s tr :
  srun d (sinit t0 rs) os = (s, tr) -> d_recording d = true ->
  faithful veq (d_dups d) (s_hist s) (writes t0 None [] tr) /\
  s_val s = hd_error (assigned [] tr).
Proof.
  intros H Hr. destruct (srun_J _ _ _ _ _ _ _ _ _ _ (sinit_J d rs t0) H) as (t' & cur & HJ).
  split; [apply (j_hist _ _ _ _ _ _ _ HJ Hr)|]. rewrite (j_val _ _ _ _ _ _ _ HJ). apply (j_cur _ _ _ _ _ _ _ HJ).
Qed.

Lemma state_functions d t0 rs os s tr :
  srun d (sinit t0 rs) os = (s, tr) -> d_recording d = true ->
  Forall2 (fun r0 f => fst f = fst (results r0 (writes t0 None [] tr)) /\
                       faithful veq (d_dups d) (snd f) (snd (results r0 (writes t0 None [] tr))))
          rs (s_funs s).
Proof.
  intros H Hr. destruct (srun_J _ _ _ _ _ _ _ _ _ _ (sinit_J d rs t0) H) as (t' & cur & HJ).
  pose proof (j_funs _ _ _ _ _ _ _ HJ Hr) as HF. clear - HF. induction HF as [|r f rs fs (H1 & H2 & _) HF IH]; constructor; auto.
Qed.

Lemma state_notifications d t0 rs os s tr :
  srun d (sinit t0 rs) os = (s, tr) ->
  s_called s = assigned [] tr /\ s_sent s = assigned [] tr /\
  (d_recording d = false -> s_hist s = []).
Proof.
  intros H. destruct (srun_J _ _ _ _ _ _ _ _ _ _ (sinit_J d rs t0) H) as (t' & cur & HJ).
  split; [apply (j_called _ _ _ _ _ _ _ HJ)|]. split; [apply (j_sent _ _ _ _ _ _ _ HJ)|].
  intro Hr. apply (j_off _ _ _ _ _ _ _ HJ Hr).
Qed.

(** Only values of the declared type get in. *)
Lemma assigned_typed d os : forall s s' tr acc,
  srun d s os = (s', tr) -> Forall (fun v => typ v = true) acc -> Forall (fun v => typ v = true) (assigned acc tr).
Proof.
  induction os as [|o os IH]; intros s s' tr acc H HF; cbn [StateModel.srun] in H.
  - injection H as <- <-. exact HF.
  - destruct (sstep d s o) as [s1 r] eqn:E1. destruct (srun d s1 os) as [s2 tr2] eqn:E2. injection H as <- <-.
    destruct o as [v| |t']; cbn [assigned]; try (eapply IH; eassumption).
    destruct r; try (eapply IH; eassumption). eapply IH; [eassumption|]. constructor; [|exact HF].
    cbn [StateModel.sstep] in E1. unfold do_set in E1.
    destruct (d_frozen d && _); [discriminate|]. destruct (typ v) eqn:E; [reflexivity|discriminate].
Qed.
Lemma state_typed d t0 rs os s tr v :
  srun d (sinit t0 rs) os = (s, tr) -> s_val s = Some v -> typ v = true.
Proof.
  intros H Hv. destruct (srun_J _ _ _ _ _ _ _ _ _ _ (sinit_J d rs t0) H) as (t' & cur & HJ).
  pose proof (assigned_typed _ _ _ _ _ [] H (Forall_nil _)) as HF.
  rewrite (j_val _ _ _ _ _ _ _ HJ), (j_cur _ _ _ _ _ _ _ HJ) in Hv.
  destruct (assigned [] tr) as [|w l]; [discriminate|]. injection Hv as ->. inversion HF; assumption.
Qed.

(** When an assignment is accepted *)
Lemma assign_accepted d s v s' r :
  sstep d s (SAssign v) = (s', r) ->
  (r = ROk <-> typ v = true /\ (d_frozen d = true -> forall w, s_val s = Some w -> is_none w = true)) /\
  (r = ROk -> s_val s' = Some v) /\ (r <> ROk -> s' = s).
Proof.
  cbn [StateModel.sstep]. unfold StateModel.do_set. intro H.
  destruct (d_frozen d && match s_val s with Some w => negb (is_none w) | None => false end) eqn:E.
  - injection H as <- <-. apply andb_true_iff in E. destruct E as [E1 E2]. split; [|split; [discriminate|reflexivity]].
    split; [discriminate|]. intros [_ N]. destruct (s_val s) as [w|]; [|discriminate].
    rewrite (N E1 w eq_refl) in E2. discriminate.
  - destruct (typ v) eqn:Et; cbn [negb] in H; injection H as <- <-.
    + split; [|split; [|congruence]].
      * split; [|reflexivity]. intros _. split; [reflexivity|]. intros Hf w Hw. rewrite Hf, Hw in E. cbn [andb] in E.
        destruct (is_none w); [reflexivity|discriminate].
      * intros _. unfold StateModel.do_record. destruct (d_recording d); reflexivity.
    + split; [|split; [discriminate|reflexivity]]. split; [discriminate|]. intros [N _]. discriminate.
Qed.

(** *** Frozen states *)
Lemma frozen_run d os : d_frozen d = true ->
  forall s v s' tr, s_val s = Some v -> is_none v = false -> srun d s os = (s', tr) ->
  s_val s' = Some v /\ s_called s' = s_called s /\ s_sent s' = s_sent s /\
  (forall w r, In (SAssign w, r) tr -> r = RFrozen) /\
  (Forall (fun o => match o with SRecord => False | _ => True end) os -> s_hist s' = s_hist s /\ s_funs s' = s_funs s) /\
  (exists newer, s_hist s' = newer ++ s_hist s /\ Forall (fun e => snd e = v) newer).
Proof.
  intro Hf. induction os as [|o os IH]; intros s v s' tr Hv Hn H; cbn [StateModel.srun] in H.
  - injection H as <- <-. split; [exact Hv|].
    split; [reflexivity|]. split; [reflexivity|]. split; [intros ? ? []|]. split; [auto|]. exists []. auto.
  - destruct (sstep d s o) as [s1 r] eqn:E1. destruct (srun d s1 os) as [s2 tr2] eqn:E2. injection H as <- <-.
    assert (HS : s_val s1 = Some v /\ s_called s1 = s_called s /\ s_sent s1 = s_sent s /\
       (forall w, o = SAssign w -> r = RFrozen) /\
       (match o with SRecord => False | _ => True end -> s_hist s1 = s_hist s /\ s_funs s1 = s_funs s) /\
       (exists newer, s_hist s1 = newer ++ s_hist s /\ Forall (fun e => snd e = v) newer)).
    { destruct o as [w| |t']; cbn [StateModel.sstep] in E1.
      - unfold do_set in E1. rewrite Hv, Hf, Hn in E1. cbn [andb negb] in E1. injection E1 as <- <-.
        split; [exact Hv|]. split; [reflexivity|]. split; [reflexivity|]. split; [reflexivity|]. split; [auto|]. exists []. auto.
      - rewrite Hv in E1. injection E1 as <- <-. unfold do_record. destruct (d_recording d); cbn.
        + split; [exact Hv|]. split; [reflexivity|]. split; [reflexivity|]. split; [discriminate|]. split; [intros []|].
          unfold append_entry. destruct (s_hist s) as [|e h]; [exists [(s_now s, v)]; auto|].
          destruct (_ || _); [exists [(s_now s, v)]; auto|exists []; auto].
        + split; [exact Hv|]. split; [reflexivity|]. split; [reflexivity|]. split; [discriminate|]. split; [intros []|]. exists []. auto.
      - destruct (Qleb (s_now s) t'); injection E1 as <- <-; cbn;
          (split; [exact Hv|]; split; [reflexivity|]; split; [reflexivity|]; split; [discriminate|]; split; [auto|]; exists []; auto). }
    destruct HS as (A1 & A2 & A3 & A4 & A5 & (n1 & A6 & A7)).
    destruct (IH s1 v s2 tr2 A1 Hn E2) as (B1 & B2 & B3 & B4 & B5 & (n2 & B6 & B7)).
    split; [exact B1|]. split; [congruence|]. split; [congruence|]. split.
    { intros w r' [E|Hin]; [injection E as -> ->; apply (A4 w); reflexivity|]. apply (B4 w r' Hin). }
    split.
    { intro HF. inversion HF as [|? ? Ho HF']; subst. destruct (A5 Ho), (B5 HF'). split; congruence. }
    exists (n2 ++ n1). rewrite B6, A6, app_assoc. split; [reflexivity|]. apply Forall_app. auto.
Qed.

(** *** Dictionary and dataclass states *)
Notation kvstep := (kvstep V veq typ).
Notation kvrun := (kvrun V veq typ).
Notation record_single := (record_single V veq).

Lemma kget_kset {X} k j (x : X) l : kget k (kset j x l) = if Z.eqb j k then Some x else kget k l.
Proof.
  induction l as [|[i y] l IH]; cbn [kset kget].
  - reflexivity.
  - destruct (Z.eqb i j) eqn:E; cbn [kget].
    + apply Z.eqb_eq in E. subst i. destruct (Z.eqb j k); reflexivity.
    + rewrite IH. destruct (Z.eqb i k) eqn:E2; [|reflexivity].
      apply Z.eqb_eq in E2. subst i. rewrite Z.eqb_sym in E. rewrite E. reflexivity.
Qed.
Definition hget (k : key) (h : list (key * list (Q * V))) : list (Q * V) :=
  match kget k h with Some l => l | None => [] end.
Lemma hget_record_single now j v h k :
  hget k (record_single now j v h) = if Z.eqb j k then append_entry V veq false (now, v) (hget j h) else hget k h.
Proof.
  unfold StateModel.record_single, hget. destruct (kget j h) as [l|] eqn:E; rewrite kget_kset;
    destruct (Z.eqb j k) eqn:E2; try reflexivity; rewrite ?E; reflexivity.
Qed.
Lemma kget_notin {X} k (l : list (key * X)) : ~ In k (map fst l) -> kget k l = None.
Proof.
  induction l as [|[i y] l IH]; cbn; [auto|]. intro H. destruct (Z.eqb i k) eqn:E.
  - apply Z.eqb_eq in E. exfalso. apply H. left. exact E.
  - apply IH. intro Hin. apply H. right. exact Hin.
Qed.
Lemma hget_record_all now l : NoDup (map fst l) -> forall h k,
  hget k (record_all V veq now l h) =
  match kget k l with Some v => append_entry V veq false (now, v) (hget k h) | None => hget k h end.
Proof.
  induction l as [|[j v] l IH]; intros Hn h k; cbn [record_all kget map fst] in *; [reflexivity|].
  inversion Hn as [|? ? Hj Hn']; subst. rewrite IH by exact Hn'. rewrite hget_record_single.
  destruct (Z.eqb j k) eqn:E; [|reflexivity]. apply Z.eqb_eq in E. subst j.
  rewrite kget_notin by exact Hj. reflexivity.
Qed.
Lemma kset_new {X} k (v : X) l : ~ In k (map fst l) -> kset k v l = l ++ [(k, v)].
Proof.
  induction l as [|[i y] l IH]; cbn; [auto|]. intro H. destruct (Z.eqb i k) eqn:E.
  - apply Z.eqb_eq in E. exfalso. apply H. left. exact E.
  - rewrite IH; [reflexivity|]. intro Hin. apply H. right. exact Hin.
Qed.
Lemma dict_fill_ok l : forall acc m, NoDup (map fst (acc ++ l)) -> dict_fill V typ l acc = (m, true) ->
  m = acc ++ l /\ Forall (fun p => typ (snd p) = true) l.
Proof.
  induction l as [|[k v] l IH]; intros acc m Hn H; cbn [dict_fill] in H.
  - injection H as <-. rewrite app_nil_r. auto.
  - destruct (typ v) eqn:E; [|discriminate].
    assert (Hk : ~ In k (map fst acc)).
    { rewrite map_app in Hn. cbn in Hn. apply NoDup_remove_2 in Hn. intro Hin. apply Hn. apply in_or_app. auto. }
    rewrite (kset_new k v acc Hk) in H. apply IH in H.
    + destruct H as [-> HF]. rewrite <- app_assoc. split; [reflexivity|]. constructor; assumption.
    + rewrite <- app_assoc. exact Hn.
Qed.

Definition op_wf (o : kvop V) : Prop :=
  match o with KInit l | KInitDc l => NoDup (map fst l) | _ => True end.

Definition KJ (k : key) (t : Q) (ws : list (Q * V)) (s : kvst V) : Prop :=
  kv_now s = t /\ faithful veq false (hget k (kv_hist s)) ws /\ upto t (hget k (kv_hist s)).

Lemma kvstep_J d k t ws s o s' r :
  kd_recording d = true -> op_wf o ->
  KJ k t ws s -> kvstep d s o = (s', r) ->
  match o, r with
  | KTime t', KOk => KJ k t' ws s'
  | KInit l, KOk | KInitDc l, KOk => KJ k t (match kget k l with Some v => (t, v) :: ws | None => ws end) s'
  | KSetItem j v, KOk | KSetAttr j v, KOk | KSetDefault j v, KStored _ =>
      KJ k t (if Z.eqb j k then (t, v) :: ws else ws) s'
  | _, _ => KJ k t ws s'
  end.
Proof.
  intros Hr Hw (A1 & A2 & A3) H.
  assert (Hset : forall j v m s0, kv_now s0 = t -> kv_hist s0 = kv_hist s ->
     KJ k t (if Z.eqb j k then (t, v) :: ws else ws) (record_key V veq d j v (mkKV (kv_now s0) m (kv_hist s0)))).
  { intros j v m s0 E1 E2. unfold record_key. rewrite Hr. split; [cbn; exact E1|]. cbn [kv_hist kv_now].
    rewrite hget_record_single, E1, E2. destruct (Z.eqb j k) eqn:E.
    - apply Z.eqb_eq in E. subst j. split; [apply append_faithful; assumption|apply append_upto; assumption].
    - auto. }
  destruct o as [l|l|j v|j v|j v|t']; cbn [StateModel.kvstep] in H.
  - destruct (kv_dict s) as [m0|]; [injection H as <- <-; split; [exact A1|]; auto|].
    destruct (dict_fill V typ l []) as [m ok] eqn:EF. destruct ok; injection H as <- <-.
    + rewrite Hr. split; [exact A1|]. cbn [kv_hist]. destruct (dict_fill_ok l [] m Hw EF) as [-> _]. cbn [app].
      rewrite hget_record_all by exact Hw. rewrite A1. destruct (kget k l) as [v|]; [|auto].
      split; [apply append_faithful; assumption|apply append_upto; assumption].
    + split; [exact A1|]. auto.
  - destruct (kv_dict s) as [m0|]; injection H as <- <-; [split; [exact A1|]; auto|].
    rewrite Hr. split; [exact A1|]. cbn [kv_hist]. cbn in Hw. rewrite hget_record_all by exact Hw. rewrite A1.
    destruct (kget k l) as [v|]; [|auto].
    split; [apply append_faithful; assumption|apply append_upto; assumption].
  - destruct (kv_dict s) as [m0|]; [|injection H as <- <-; split; [exact A1|]; auto].
    unfold set_item in H. destruct (typ v); injection H as <- <-; [|split; [exact A1|]; auto].
    apply (Hset j v _ s); auto.
  - destruct (kv_dict s) as [m0|]; [|injection H as <- <-; split; [exact A1|]; auto].
    destruct (kget j m0); [injection H as <- <-; split; [exact A1|]; auto|].
    unfold set_item in H. destruct (typ v); injection H as <- <-; [|split; [exact A1|]; auto].
    apply (Hset j v _ s); auto.
  - destruct (kv_dict s) as [m0|]; [|injection H as <- <-; split; [exact A1|]; auto].
    destruct (kget j m0); [|injection H as <- <-; split; [exact A1|]; auto].
    destruct (kget j (kd_fields d)) as [[[|] ok]|]; try (injection H as <- <-; split; [exact A1|]; auto; fail).
    destruct (ok v); injection H as <- <-; [|split; [exact A1|]; auto]. apply (Hset j v _ s); auto.
  - destruct (Qleb (kv_now s) t') eqn:E; injection H as <- <-; [|split; [exact A1|]; auto].
    qbool. split; [reflexivity|]. cbn. split; [exact A2|]. eapply upto_le; [exact A3|]. rewrite <- A1. exact E.
Qed.

Lemma kvrun_J d k os : kd_recording d = true -> Forall op_wf os ->
  forall t ws s s' tr, KJ k t ws s -> kvrun d s os = (s', tr) -> exists t', KJ k t' (kwrites k t ws tr) s'.
Proof.
  intros Hr. induction os as [|o os IH]; intros Hw t ws s s' tr HJ H; cbn [StateModel.kvrun] in H.
  - injection H as <- <-. exists t. exact HJ.
  - destruct (kvstep d s o) as [s1 r] eqn:E1. destruct (kvrun d s1 os) as [s2 tr2] eqn:E2. injection H as <- <-.
    inversion Hw as [|? ? Ho Hw']; subst.
    pose proof (kvstep_J _ _ _ _ _ _ _ _ Hr Ho HJ E1) as HS.
    destruct o; destruct r; cbn [kwrites]; eapply IH; eassumption.
Qed.

Lemma kv_faithful d t0 os s tr k :
  kd_recording d = true -> Forall op_wf os -> kvrun d (kvinit t0) os = (s, tr) ->
  faithful veq false (hget k (kv_hist s)) (kwrites k t0 [] tr).
Proof.
  intros Hr Hw H. destruct (kvrun_J d k os Hr Hw t0 [] (kvinit t0) s tr) as (t' & _ & HF & _).
  - split; [reflexivity|]. split; [apply faithful_nil|exact I].
  - exact H.
  - exact HF.
Qed.

(** Values shown are the last written, as long as nothing raised a TypeError. *)
Definition VJ (k : key) (ws : list (Q * V)) (s : kvst V) : Prop :=
  match kv_dict s with
  | Some m => kget k m = option_map snd (hd_error ws)
  | None => ws = []
  end.
Lemma kvstep_V d k t ws s o s' r :
  op_wf o -> VJ k ws s -> kvstep d s o = (s', r) -> r <> KType ->
  match o, r with
  | KTime t', KOk => VJ k ws s'
  | KInit l, KOk | KInitDc l, KOk => VJ k (match kget k l with Some v => (t, v) :: ws | None => ws end) s'
  | KSetItem j v, KOk | KSetAttr j v, KOk | KSetDefault j v, KStored _ =>
      VJ k (if Z.eqb j k then (t, v) :: ws else ws) s'
  | _, _ => VJ k ws s'
  end.
Proof.
  intros Hw A H Hnt. unfold VJ in *.
  destruct o as [l|l|j v|j v|j v|t']; cbn [StateModel.kvstep] in H.
  - destruct (kv_dict s) as [m0|] eqn:Em; [injection H as <- <-; rewrite Em; exact A|].
    destruct (dict_fill V typ l []) as [m ok] eqn:EF. destruct ok; injection H as <- <-; [|congruence].
    destruct (dict_fill_ok l [] m Hw EF) as [-> _]. subst ws. cbn [kv_dict app]. destruct (kget k l); reflexivity.
  - destruct (kv_dict s) as [m0|] eqn:Em; injection H as <- <-; [rewrite Em; exact A|].
    subst ws. cbn [kv_dict app]. destruct (kget k l); reflexivity.
  - destruct (kv_dict s) as [m0|] eqn:Em; [|injection H as <- <-; rewrite Em; exact A].
    unfold set_item in H. destruct (typ v); injection H as <- <-; [|congruence].
    unfold record_key. destruct (kd_recording d); cbn [kv_dict]; rewrite kget_kset; destruct (Z.eqb j k); auto.
  - destruct (kv_dict s) as [m0|] eqn:Em; [|injection H as <- <-; rewrite Em; exact A].
    destruct (kget j m0); [injection H as <- <-; rewrite Em; exact A|].
    unfold set_item in H. destruct (typ v); injection H as <- <-; [|congruence].
    unfold record_key. destruct (kd_recording d); cbn [kv_dict]; rewrite kget_kset; destruct (Z.eqb j k); auto.
  - destruct (kv_dict s) as [m0|] eqn:Em; [|injection H as <- <-; rewrite Em; exact A].
    destruct (kget j m0); [|injection H as <- <-; rewrite Em; exact A].
    destruct (kget j (kd_fields d)) as [[[|] ok]|]; try (injection H as <- <-; rewrite Em; exact A; fail).
    destruct (ok v); injection H as <- <-; [|congruence].
    unfold record_key. destruct (kd_recording d); cbn [kv_dict]; rewrite kget_kset; destruct (Z.eqb j k); auto.
  - destruct (Qleb (kv_now s) t'); injection H as <- <-; exact A.
Qed.
Lemma kvrun_V d k os : Forall op_wf os ->
  forall t ws s s' tr, VJ k ws s -> kvrun d s os = (s', tr) -> (forall o, ~ In (o, KType) tr) ->
  VJ k (kwrites k t ws tr) s'.
Proof.
  induction os as [|o os IH]; intros Hw t ws s s' tr HJ H Hn; cbn [StateModel.kvrun] in H.
  - injection H as <- <-. exact HJ.
  - destruct (kvstep d s o) as [s1 r] eqn:E1. destruct (kvrun d s1 os) as [s2 tr2] eqn:E2. injection H as <- <-.
    inversion Hw as [|? ? Ho Hw']; subst.
    assert (Hr : r <> KType) by (intros ->; apply (Hn o); left; reflexivity).
    assert (Hn2 : forall o, ~ In (o, KType) tr2) by (intros o' Hin; apply (Hn o'); right; exact Hin).
    pose proof (kvstep_V d k t ws s o s1 r Ho HJ E1 Hr) as HS.
    destruct o; destruct r; cbn [kwrites]; try (eapply IH; eassumption); congruence.
Qed.

(** Typing, as long as nothing raised a TypeError. *)
Definition typed (s : kvst V) : Prop :=
  match kv_dict s with Some m => Forall (fun p => typ (snd p) = true) m | None => True end.
Lemma kset_typed k v m : typ v = true -> Forall (fun p => typ (snd p) = true) m ->
  Forall (fun p : key * V => typ (snd p) = true) (kset k v m).
Proof.
  intros Hv. induction m as [|[j w] m IH]; intro H; cbn; [constructor; auto|].
  inversion H; subst. destruct (Z.eqb j k); constructor; auto.
Qed.
Definition dict_op (o : kvop V) : Prop := match o with KInitDc _ | KSetAttr _ _ => False | _ => True end.
Lemma dict_fill_typed l : forall acc, Forall (fun p => typ (snd p) = true) acc ->
  Forall (fun p => typ (snd p) = true) (fst (dict_fill V typ l acc)).
Proof.
  induction l as [|[k v] l IH]; intros acc H; cbn; [exact H|].
  destruct (typ v) eqn:E; [|exact H]. apply IH. apply kset_typed; assumption.
Qed.
Lemma kvstep_typed d s o s' r : dict_op o -> typed s -> kvstep d s o = (s', r) ->
  (forall k v, o = KSetItem k v \/ o = KSetDefault k v -> r <> KType) -> typed s'.
Proof.
  intros Ho A H Hn. unfold typed in *.
  assert (Hset : forall j v m0, r <> KType -> Forall (fun p => typ (snd p) = true) m0 ->
     forall s1 r1, set_item V veq typ d j v m0 s = (s1, r1) -> (r1 = KOk \/ r1 = r) ->
     match kv_dict s1 with Some m => Forall (fun p => typ (snd p) = true) m | None => True end).
  { intros j v m0 Hr Hm s1 r1 E Hr1. unfold set_item in E. destruct (typ v) eqn:Et; injection E as <- <-.
    - unfold record_key. destruct (kd_recording d); cbn [kv_dict]; apply kset_typed; assumption.
    - destruct Hr1; congruence. }
  destruct o as [l|l|j v|j v|j v|t']; cbn [StateModel.kvstep] in H; try destruct Ho.
  - destruct (kv_dict s) as [m0|] eqn:Em; [injection H as <- <-; rewrite Em; exact A|].
    pose proof (dict_fill_typed l [] (Forall_nil _)) as HT.
    destruct (dict_fill V typ l []) as [m ok] eqn:EF. destruct ok; injection H as <- <-; exact HT.
  - destruct (kv_dict s) as [m0|] eqn:Em; [|injection H as <- <-; rewrite Em; exact I].
    eapply Hset; [apply (Hn j v); auto|exact A|exact H|auto].
  - destruct (kv_dict s) as [m0|] eqn:Em; [|injection H as <- <-; rewrite Em; exact I].
    destruct (kget j m0); [injection H as <- <-; rewrite Em; exact A|].
    destruct (set_item V veq typ d j v m0 s) as [s1 r1] eqn:E. injection H as <- <-.
    eapply Hset; [|exact A|exact E|].
    + apply (Hn j v). auto.
    + specialize (Hn j v (or_intror eq_refl)). destruct r1; auto.
  - destruct (Qleb (kv_now s) t'); injection H as <- <-; exact A.
Qed.
Lemma kvrun_typed d os : Forall dict_op os -> forall s s' tr, typed s -> kvrun d s os = (s', tr) ->
  (forall k v, ~ In (KSetItem k v, KType) tr /\ ~ In (KSetDefault k v, KType) tr) -> typed s'.
Proof.
  induction os as [|o os IH]; intros Hd s s' tr A H Hn; cbn [StateModel.kvrun] in H.
  - injection H as <- <-. exact A.
  - destruct (kvstep d s o) as [s1 r] eqn:E1. destruct (kvrun d s1 os) as [s2 tr2] eqn:E2. injection H as <- <-.
    inversion Hd as [|? ? Ho Hd']; subst. eapply (IH Hd' s1 s2 tr2); [|exact E2|].
    + eapply kvstep_typed; [exact Ho|exact A|exact E1|]. intros k v [->| ->] ->; destruct (Hn k v) as [N1 N2];
        [apply N1|apply N2]; left; reflexivity.
    + intros k v. destruct (Hn k v) as [N1 N2]. split; intro Hin; [apply N1|apply N2]; right; exact Hin.
Qed.

(** What a refused item assignment can change. *)
Lemma refused_scope d s k v s' : kvstep d s (KSetItem k v) = (s', KType) ->
  kv_hist s' = kv_hist s /\ kv_now s' = kv_now s /\
  forall j, j <> k -> kget j (match kv_dict s' with Some m => m | None => [] end) =
                      kget j (match kv_dict s with Some m => m | None => [] end).
Proof.
  cbn [StateModel.kvstep]. destruct (kv_dict s) as [m|]; [|discriminate]. unfold set_item. destruct (typ v); [discriminate|].
  intro H. injection H as <-. cbn. split; [reflexivity|]. split; [reflexivity|]. intros j Hj. rewrite kget_kset.
  destruct (Z.eqb k j) eqn:E; [|reflexivity]. apply Z.eqb_eq in E. congruence.
Qed.

(** Dataclass fields. *)
Lemma setattr_effect d s k v m ok :
  kv_dict s = Some m -> kget k m <> None -> kget k (kd_fields d) = Some (true, ok) ->
  forall s' r, kvstep d s (KSetAttr k v) = (s', r) ->
  if ok v then r = KOk /\ kget k (match kv_dict s' with Some m' => m' | None => [] end) = Some v /\
               (forall j, j <> k -> kget j (match kv_dict s' with Some m' => m' | None => [] end) = kget j m) /\
               (forall j, j <> k -> hget j (kv_hist s') = hget j (kv_hist s))
  else r = KType /\ s' = s.
Proof.
  intros Hm Hk Hf s' r H. cbn [StateModel.kvstep] in H. rewrite Hm in H. destruct (kget k m) as [w|]; [|congruence].
  rewrite Hf in H. destruct (ok v); injection H as <- <-; [|auto]. split; [reflexivity|].
  unfold record_key. destruct (kd_recording d); cbn [kv_dict kv_hist].
  - split; [rewrite kget_kset, Z.eqb_refl; reflexivity|]. split; intros j Hj.
    + rewrite kget_kset. destruct (Z.eqb k j) eqn:E; [apply Z.eqb_eq in E; congruence|reflexivity].
    + cbn [kv_now]. rewrite hget_record_single. destruct (Z.eqb k j) eqn:E; [apply Z.eqb_eq in E; congruence|reflexivity].
  - split; [rewrite kget_kset, Z.eqb_refl; reflexivity|]. split; intros j Hj; [|reflexivity].
    rewrite kget_kset. destruct (Z.eqb k j) eqn:E; [apply Z.eqb_eq in E; congruence|reflexivity].
Qed.
Lemma kv_current d t0 os s tr k :
  Forall op_wf os -> kvrun d (kvinit t0) os = (s, tr) -> (forall o, ~ In (o, KType) tr) ->
  kget k (match kv_dict s with Some m => m | None => [] end) = option_map snd (hd_error (kwrites k t0 [] tr)).
Proof.
  intros Hw H Hn. pose proof (kvrun_V d k os Hw t0 [] (kvinit t0) s tr eq_refl H Hn) as HV. unfold VJ in HV.
  destruct (kv_dict s); [exact HV|]. rewrite HV. reflexivity.
Qed.
End State.
