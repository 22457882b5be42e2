(** Proofs about cancellation. *)
From Verif Require Import Common ActiveModel EvModel EvSpec.

Lemma ev_ind2 (P : ev -> Prop) : (forall i, P (ELeaf i)) ->
  (forall i subs, Forall P subs -> P (EMulti i subs)) -> forall e, P e.
Proof.
  intros H1 H2. fix F 1. intros [i|i subs]; [apply H1|]. apply H2.
  induction subs as [|e l IH]; constructor; [apply F|exact IH].
Qed.

Fixpoint cancel_list (l : list ev) (h : heap) : heap * bool :=
  match l with
  | [] => (h, true)
  | e' :: l' => let '(h1, ok) := cancel e' h in
                if ok then cancel_list l' h1 else (h1, false)
  end.
Lemma cancel_multi i subs h : cancel (EMulti i subs) h =
  match nth_error h i with
  | Some (KMulti _, SPend) => cancel_list subs (setst i SFail h)
  | _ => (h, false)
  end.
Proof.
  cbn [cancel]. destruct (nth_error h i) as [[[] []]|]; try reflexivity.
Qed.

Lemma upd_length {X} i (x : X) l : length (upd i x l) = length l.
Proof. revert i; induction l; intros [|i]; simpl; auto. Qed.
Lemma nth_upd {X} i j (x : X) l :
  nth_error (upd i x l) j = if Nat.eqb i j then match nth_error l j with Some _ => Some x | None => None end
                            else nth_error l j.
Proof.
  revert i j; induction l as [|y l IH]; intros [|i] [|j]; simpl; auto.
  - destruct (Nat.eqb i j); reflexivity.
Qed.
Lemma nth_setst i s h j : nth_error (setst i s h) j =
  if Nat.eqb i j then match nth_error h j with Some (k, _) => Some (k, s) | None => None end else nth_error h j.
Proof.
  unfold setst. destruct (nth_error h i) as [[k s']|] eqn:E.
  - rewrite nth_upd. destruct (Nat.eqb i j) eqn:Ei; [|reflexivity].
    apply Nat.eqb_eq in Ei. subst. rewrite E. reflexivity.
  - destruct (Nat.eqb i j) eqn:Ei; [|reflexivity]. apply Nat.eqb_eq in Ei. subst. rewrite E. reflexivity.
Qed.
Lemma kind_setst i s h j : ekind_of (setst i s h) j = ekind_of h j.
Proof.
  unfold ekind_of. rewrite nth_setst. destruct (Nat.eqb i j); [|reflexivity].
  destruct (nth_error h j) as [[k s']|]; reflexivity.
Qed.

(** Effects that hold whether or not the cancellation went through. *)
Definition gentle (h h' : heap) (ids : list nat) : Prop :=
  (forall i, ekind_of h' i = ekind_of h i) /\
  (forall i, ~ In i ids -> nth_error h' i = nth_error h i) /\
  (forall i, ekind_of h i = Some KReq -> estat_of h i <> Some SPend -> estat_of h' i = estat_of h i) /\
  (forall i, ekind_of h i = Some KWait -> estat_of h' i = estat_of h i) /\
  (forall i, noisy h i = true -> ~ waiting h i -> ~ waiting h' i).
Lemma gentle_refl h ids : gentle h h ids.
Proof. repeat split; auto. Qed.
Lemma gentle_trans h h1 h2 a b : gentle h h1 a -> gentle h1 h2 b -> gentle h h2 (a ++ b).
Proof.
  intros (K & U & R & W & N) (K' & U' & R' & W' & N').
  split; [intro i; rewrite K'; auto|]. split.
  { intros i Hi. rewrite U' by (intro; apply Hi; apply in_or_app; auto).
    apply U. intro; apply Hi; apply in_or_app; auto. }
  split.
  { intros i Hk Hs. rewrite R', R; auto; [rewrite K; auto|rewrite R; auto]. }
  split.
  { intros i Hk. rewrite W', W; auto. rewrite K; auto. }
  intros i Hn Hw. apply N'; auto. unfold noisy in *. rewrite K. exact Hn.
Qed.
Lemma gentle_noisy h h' ids i : gentle h h' ids -> noisy h' i = noisy h i.
Proof. intros (K & _). unfold noisy. rewrite K. reflexivity. Qed.
Lemma gentle_incl h h' a b : incl a b -> gentle h h' a -> gentle h h' b.
Proof. intros I (K & U & R). split; [exact K|]. split; [|exact R]. intros i Hi. apply U. intro. apply Hi, I. auto. Qed.

Lemma gentle_fits h h' ids e : gentle h h' ids -> fits h e -> fits h' e.
Proof.
  intros (K & _). revert e. apply (ev_ind2 (fun e => fits h e -> fits h' e)).
  - intros i H. inversion H; subst. econstructor; [rewrite K; eassumption|assumption].
  - intros i subs IH H. inversion H; subst. econstructor; [rewrite K; eassumption|].
    rewrite Forall_forall in *. intros x Hx. apply IH; auto.
Qed.

Definition spent (h h' : heap) (ids : list nat) : Prop :=
  (forall i, In i ids -> ekind_of h i = Some KReq -> estat_of h' i <> Some SPend) /\
  (forall i, In i ids -> noisy h i = true -> ~ waiting h' i).

Definition cancel_spec (ids : list nat) (h : heap) (r : heap * bool) : Prop :=
  gentle h (fst r) ids /\
  (snd r = true <-> Forall (waiting h) ids /\ NoDup (filter (noisy h) ids)) /\
  (snd r = true -> spent h (fst r) ids).

Ltac hd := repeat match goal with
  | H : ?x = _ |- context [?x] => rewrite H
  | H : Some _ = Some _ |- _ => inversion H; clear H; subst
  end.

Lemma waiting_quiet h h' i ids : gentle h h' ids -> noisy h i = false -> waiting h i <-> waiting h' i.
Proof.
  intros (K & U & R & W & N) Hn. unfold noisy in Hn. specialize (K i).
  unfold waiting. unfold ekind_of in *.
  destruct (nth_error h i) as [[k s]|] eqn:E, (nth_error h' i) as [[k' s']|] eqn:E'; try discriminate; try tauto.
  inversion K; subst. destruct k; try discriminate; try tauto.
  specialize (W i). unfold estat_of, ekind_of in W. rewrite E, E' in W. specialize (W eq_refl). inversion W; subst. tauto.
Qed.

Lemma setst_gentle i s h : (noisy h i = true -> match ekind_of h i, s with
    Some KEvt, STrig | Some (KMulti _), SFail => True | _, _ => False end) ->
  (ekind_of h i = Some KReq -> estat_of h i = Some SPend) -> ekind_of h i <> Some KWait ->
  gentle h (setst i s h) [i].
Proof.
  intros Hn Hr Hw. split; [apply kind_setst|].
  assert (O : forall j, i <> j -> nth_error (setst i s h) j = nth_error h j).
  { intros j Hj. rewrite nth_setst. destruct (Nat.eqb i j) eqn:E; [apply Nat.eqb_eq in E; contradiction|reflexivity]. }
  split; [intros j Hj; apply O; intro; subst; apply Hj; simpl; auto|].
  assert (D : forall j, j = i \/ i <> j) by (intro j; destruct (Nat.eq_dec j i); auto).
  split.
  { intros j Hk Hs. destruct (D j) as [->|Hj]; [apply Hr in Hk; contradiction|]. unfold estat_of. rewrite O; auto. }
  split.
  { intros j Hk. destruct (D j) as [->|Hj]; [contradiction|]. unfold estat_of. rewrite O; auto. }
  intros j Hk Hw'. destruct (D j) as [->|Hj].
  - specialize (Hn Hk). unfold waiting, ekind_of in *. rewrite nth_setst, Nat.eqb_refl.
    destruct (nth_error h i) as [[[] s0]|]; try contradiction; destruct s; auto.
  - unfold waiting. rewrite O; auto.
Qed.

Lemma leaf_spec i h k : ekind_of h i = Some k -> (forall a, k <> KMulti a) -> cancel_spec [i] h (cancel_leaf i h).
Proof.
  intros Hk Hm. unfold cancel_leaf. unfold ekind_of in Hk.
  destruct (nth_error h i) as [[k' s]|] eqn:E; [|discriminate]. inversion Hk; subst k'.
  assert (EK : ekind_of h i = Some k) by (unfold ekind_of; rewrite E; reflexivity).
  assert (ES : estat_of h i = Some s) by (unfold estat_of; rewrite E; reflexivity).
  assert (EW : waiting h i <-> waiting h i) by tauto. unfold waiting in EW at 2. rewrite E in EW.
  assert (NN : NoDup (filter (noisy h) [i])).
  { simpl. destruct (noisy h i); repeat constructor; simpl; tauto. }
  assert (B : forall b : bool, (b = true <-> waiting h i) -> (b = true <-> Forall (waiting h) [i] /\ NoDup (filter (noisy h) [i]))).
  { intros b Hb. rewrite Hb. split; [intro; split; [repeat constructor; auto|exact NN]|].
    intros [F _]. inversion F; auto. }
  assert (EN : noisy h i = match k with KEvt | KMulti _ => true | _ => false end).
  { unfold noisy. rewrite EK. destruct k; reflexivity. }
  assert (SR : (k <> KReq \/ s <> SPend) -> noisy h i = false -> spent h h [i]).
  { intros O Nf. split; intros j [<-|[]] Hj; [|congruence]. rewrite EK in Hj. rewrite ES.
    destruct O; congruence. }
  destruct k; try congruence.
  - destruct s; (split; [apply gentle_refl|split; [apply B; cbn [snd]; rewrite EW; split; [discriminate||auto|tauto||reflexivity]|]]);
      cbn [snd fst]; intro; try discriminate; apply SR; auto; left; discriminate.
  - destruct s; cbn [fst snd]; try (split; [apply gentle_refl|split; [apply B; cbn [snd]; rewrite EW; split; [discriminate|tauto]|cbn; discriminate]]).
    all: split; [apply setst_gentle; rewrite ?EK, ?EN; try discriminate; auto|]; split;
      [apply B; cbn [snd]; rewrite EW; split; auto|];
      intros _; split; intros j [<-|[]] Hj; [congruence|]; unfold waiting; cbn [fst];
      rewrite nth_setst, Nat.eqb_refl, E; auto.
  - destruct s; cbn [fst snd]; try (split; [apply gentle_refl|split; [apply B; cbn [snd]; rewrite EW; split; [auto|reflexivity]|]]; intros _; apply SR; auto; right; discriminate).
    split; [apply setst_gentle; rewrite ?EK, ?EN; try discriminate; auto|]. split; [apply B; cbn [snd]; rewrite EW; split; auto|].
    intros _; split; intros j [<-|[]] Hj; [|congruence]. unfold estat_of; cbn [fst].
    rewrite nth_setst, Nat.eqb_refl, E. discriminate.
  - split; [apply gentle_refl|split; [apply B; cbn [snd]; rewrite EW; destruct s; split; auto|]].
    intros _. apply SR; auto. left; discriminate.
Qed.

Lemma filter_ext_in' {X} (f g : X -> bool) l : (forall x, f x = g x) -> filter f l = filter g l.
Proof. intro H. induction l; simpl; auto. rewrite H, IHl. reflexivity. Qed.

Lemma classic_waiting h i : waiting h i \/ ~ waiting h i.
Proof. unfold waiting. destruct (nth_error h i) as [[[] []]|]; tauto. Qed.
Lemma NoDup_app_iff' {X} (a b : list X) :
  NoDup (a ++ b) <-> NoDup a /\ NoDup b /\ forall x, In x a -> In x b -> False.
Proof.
  induction a as [|x a IH]; simpl.
  - split; [intro; split; [constructor|split; [assumption|tauto]]|tauto].
  - split.
    + intro H. inversion H; subst. apply IH in H3. destruct H3 as (A & B & D).
      rewrite in_app_iff in H2. split; [constructor; tauto|]. split; [exact B|].
      intros y [->|Hy] Hb; [tauto|eauto].
    + intros (A & B & D). inversion A; subst. constructor.
      * rewrite in_app_iff. intros [?|?]; [contradiction|]. eapply D; eauto.
      * apply IH. split; [assumption|]. split; [assumption|]. intros y Hy Hb. eapply D; eauto.
Qed.

(** One after the other. *)
Lemma spec_seq a b h h1 ok1 r2 : cancel_spec a h (h1, ok1) ->
  (ok1 = true -> cancel_spec b h1 r2) -> (ok1 = false -> r2 = (h1, false)) ->
  cancel_spec (a ++ b) h r2.
Proof.
  intros (G1 & I1 & S1) H2 H2'. cbn [fst snd] in *. destruct ok1.
  - destruct (H2 eq_refl) as (G2 & I2 & S2). clear H2 H2'. specialize (S1 eq_refl). destruct S1 as [SR SN].
    destruct I1 as [I1 _]. specialize (I1 eq_refl). destruct I1 as [WA ND].
    assert (NE : forall x, noisy h1 x = noisy h x) by (intro; eapply gentle_noisy; eauto).
    split; [eapply gentle_trans; eauto|]. split.
    + rewrite I2, Forall_app, filter_app. rewrite (filter_ext_in' _ _ b NE). split.
      * intros [WB NDB]. split; [split; [exact WA|]|].
        -- rewrite Forall_forall in *. intros x Hx. specialize (WB x Hx).
           destruct (noisy h x) eqn:En.
           ++ destruct G1 as (_ & _ & _ & _ & N). destruct (classic_waiting h x) as [Y|Y]; auto. exfalso. eapply N; eauto.
           ++ apply (waiting_quiet h h1 x a); auto.
        -- apply NoDup_app_iff'. split; [exact ND|]. split; [exact NDB|]. intros x Hx Hx'.
           apply filter_In in Hx, Hx'. destruct Hx, Hx'. rewrite Forall_forall in WB. eapply SN; eauto.
      * intros [[_ WB] NDB]. apply NoDup_app_iff' in NDB. destruct NDB as (_ & NDB & Dis). split; [|exact NDB].
        rewrite Forall_forall in *. intros x Hx. specialize (WB x Hx).
        destruct (noisy h x) eqn:En; [|apply (waiting_quiet h h1 x a); auto].
        destruct G1 as (_ & U & _). unfold waiting. rewrite U; [exact WB|]. intro Ha.
        apply (Dis x); apply filter_In; auto.
    + intro OK. specialize (S2 OK). destruct S2 as [SR2 SN2]. destruct G2 as (K & U & R & W & N).
      destruct G1 as (K1 & U1 & R1 & W1 & N1).
      split; intros x Hx Hk; apply in_app_or in Hx.
      * destruct (in_dec Nat.eq_dec x b) as [Hb|Hb]; [apply SR2; auto; rewrite K1; auto|].
        destruct Hx as [Hx|Hx]; [|contradiction]. rewrite R; auto; rewrite K1; auto.
      * destruct (in_dec Nat.eq_dec x b) as [Hb|Hb]; [apply SN2; auto; rewrite NE; auto|].
        destruct Hx as [Hx|Hx]; [|contradiction]. apply N; [rewrite NE; auto|auto].
  - rewrite (H2' eq_refl). cbn [fst snd]. split.
    + eapply gentle_incl; [|exact G1]. intros x Hx. apply in_or_app. auto.
    + split; [|discriminate]. split; [discriminate|]. rewrite Forall_app, filter_app. intros [[WA _] ND].
      apply I1. split; [exact WA|]. apply NoDup_app_iff' in ND. tauto.
Qed.

Lemma multi_head i a0 subs h : ekind_of h i = Some (KMulti a0) ->
  (forall h1, gentle h h1 [i] -> cancel_spec (flat_map below subs) h1 (cancel_list subs h1)) ->
  cancel_spec (i :: flat_map below subs) h (cancel (EMulti i subs) h).
Proof.
  intros K HL. rewrite cancel_multi. unfold ekind_of in K.
  destruct (nth_error h i) as [[k s]|] eqn:E; [|discriminate]. inversion K; subst k.
  assert (EK : ekind_of h i = Some (KMulti a0)) by (unfold ekind_of; rewrite E; reflexivity).
  assert (EN : noisy h i = true) by (unfold noisy; rewrite EK; reflexivity).
  assert (F : s <> SPend -> cancel_spec (i :: flat_map below subs) h (h, false)).
  { intro Hs. split; [apply gentle_refl|]. split; [|discriminate]. cbn [snd]. split; [discriminate|].
    intros [W _]. inversion W; subst. unfold waiting in H1. rewrite E in H1. destruct s; tauto. }
  destruct s; try (apply F; discriminate).
  change (i :: flat_map below subs) with ([i] ++ flat_map below subs).
  assert (G : gentle h (setst i SFail h) [i]).
  { apply setst_gentle; rewrite ?EK; try discriminate; auto. }
  apply (spec_seq [i] _ h (setst i SFail h) true); [|intros _; apply HL; exact G|discriminate].
  split; [exact G|]. cbn [fst snd]. split.
  - split; [intros _|reflexivity]. split.
    + repeat constructor. unfold waiting. rewrite E. exact I.
    + simpl. rewrite EN. repeat constructor. simpl. tauto.
  - intros _. split; intros j [<-|[]] Hj; [congruence|]. unfold waiting. rewrite nth_setst, Nat.eqb_refl, E. auto.
Qed.

Lemma cancel_correct e : forall h, fits h e -> cancel_spec (below e) h (cancel e h).
Proof.
  revert e. apply (ev_ind2 (fun e => forall h, fits h e -> cancel_spec (below e) h (cancel e h))).
  - intros i h H. inversion H; subst. eapply leaf_spec; eauto.
  - intros i subs IH h H. inversion H; subst. cbn [below]. eapply multi_head; [eassumption|].
    intros h1 G. assert (FS : Forall (fits h1) subs).
    { rewrite Forall_forall in *. intros x Hx. eapply gentle_fits; eauto. }
    clear H H2 H3 G h. revert h1 FS. induction subs as [|e l IHl]; intros h1 FS.
    + split; [apply gentle_refl|]. split; [cbn; split; [split; constructor|reflexivity]|].
      intros _. split; intros j [].
    + inversion IH; subst. inversion FS; subst. cbn [flat_map cancel_list].
      specialize (H1 h1 H3). destruct (cancel e h1) as [h2 ok] eqn:E.
      apply (spec_seq _ _ h1 h2 ok); [exact H1| |].
      * intro OK. subst ok. apply IHl; [assumption|]. destruct H1 as (G & _).
        rewrite Forall_forall in *. intros x Hx. eapply gentle_fits; [exact G|]. auto.
      * intros ->. reflexivity.
Qed.

Lemma cancel_done e h : fits h e -> snd (cancel e h) = true -> cancelled h (fst (cancel e h)) e.
Proof.
  intros F OK. destruct (cancel_correct e h F) as (G & _ & S). specialize (S OK). destruct S as [SR _].
  destruct G as (K & U & R & W & _). repeat split; auto.
Qed.
Lemma cancel_iff e h : fits h e ->
  snd (cancel e h) = true <-> Forall (waiting h) (below e) /\ NoDup (noisy_below h e).
Proof. intro F. apply (cancel_correct e h F). Qed.

Lemma top_cases e h : fits h e ->
  cancel_top e h = cancel e h \/ (exists i, e = ELeaf i /\ ekind_of h i = Some KProc).
Proof.
  intro F. destruct e as [i|i subs]; [|left; reflexivity]. unfold cancel_top, ekind_of.
  destruct (nth_error h i) as [[[] s]|] eqn:E; try (left; reflexivity).
  right. exists i. rewrite E. auto.
Qed.

(** ** Yielding *)
Fixpoint arm_list (l : list ev) (h : heap) : heap :=
  match l with [] => h | e' :: l' => arm_list l' (arm e' h) end.
Lemma arm_multi i subs h : arm (EMulti i subs) h =
  setst i (if at_once (arm_list subs h) i subs then STrig else SPend) (arm_list subs h).
Proof. reflexivity. Qed.

Definition leafy (h : heap) (i : nat) : Prop := forall a, ekind_of h i <> Some (KMulti a).
Lemma leafy_dec h i : leafy h i \/ exists a, ekind_of h i = Some (KMulti a).
Proof. unfold leafy. destruct (ekind_of h i) as [[]|]; try (left; intros; discriminate). right. eauto. Qed.

(** What yielding does to the heap. *)
Definition forward (h h' : heap) (ids : list nat) : Prop :=
  (forall i, ekind_of h' i = ekind_of h i) /\
  (forall i, ~ In i ids -> nth_error h' i = nth_error h i) /\
  (forall i, leafy h i -> waiting h i -> waiting h' i) /\
  (forall i, ekind_of h i = Some KEvt -> usable h i -> usable h' i) /\
  (forall i, leafy h i -> estat_of h i <> Some SDone -> estat_of h' i <> Some SDone).
Lemma forward_refl h ids : forward h h ids.
Proof. repeat split; auto. Qed.
Lemma forward_leafy h h' ids i : forward h h' ids -> leafy h i -> leafy h' i.
Proof. intros (K & _) L a. rewrite K. apply L. Qed.
Lemma forward_trans h h1 h2 a b : forward h h1 a -> forward h1 h2 b -> forward h h2 (a ++ b).
Proof.
  intros F1 F2. destruct F1 as (K & U & W & A & D), F2 as (K' & U' & W' & A' & D').
  assert (LL : forall i, leafy h i -> leafy h1 i) by (intros i X b0; rewrite K; apply X).
  split; [intro; rewrite K'; auto|]. split.
  { intros i Hi. rewrite U' by (intro; apply Hi; apply in_or_app; auto).
    apply U. intro; apply Hi; apply in_or_app; auto. }
  split; [auto|]. split; [|auto]. intros i Hk Hu. apply A'; [rewrite K; auto|auto].
Qed.
Lemma forward_fits h h' ids e : forward h h' ids -> fits h e -> fits h' e.
Proof.
  intros (K & _). revert e. apply (ev_ind2 (fun e => fits h e -> fits h' e)).
  - intros i H. inversion H; subst. econstructor; [rewrite K; eassumption|assumption].
  - intros i subs IH H. inversion H; subst. econstructor; [rewrite K; eassumption|].
    rewrite Forall_forall in *. intros x Hx. apply IH; auto.
Qed.
Lemma forward_usable h h' ids l : forward h h' ids -> all_usable h l -> all_usable h' l.
Proof. intros (K & _ & _ & A & _) H i Hi Hk. rewrite K in Hk. apply A; auto. Qed.

Lemma set_forward i s h : s <> SDone -> (exists a, ekind_of h i = Some (KMulti a)) \/ (s = SPend /\ usable h i) -> forward h (setst i s h) [i].
Proof.
  intros Hs Hu. split; [apply kind_setst|].
  assert (O : forall j, i <> j -> nth_error (setst i s h) j = nth_error h j).
  { intros j Hj. rewrite nth_setst. destruct (Nat.eqb i j) eqn:E; [apply Nat.eqb_eq in E; contradiction|reflexivity]. }
  split; [intros j Hj; apply O; intro; subst; apply Hj; simpl; auto|].
  assert (D : forall j, j = i \/ i <> j) by (intro j; destruct (Nat.eq_dec j i); auto).
  split; [|split].
  - intros j L H. destruct (D j) as [->|Hj]; [|unfold waiting; rewrite O; auto].
    destruct Hu as [[a Hu]|[-> Hu]]; [exfalso; exact (L a Hu)|].
    unfold waiting in *. rewrite nth_setst, Nat.eqb_refl. destruct (nth_error h i) as [[[] s0]|]; auto.
  - intros j H H'. destruct (D j) as [->|Hj]; [|unfold usable, estat_of in *; rewrite O; auto].
    destruct Hu as [[a Hu]|[-> Hu]]; [congruence|].
    unfold usable, estat_of. rewrite nth_setst, Nat.eqb_refl. destruct (nth_error h i) as [[k s0]|] eqn:E; auto.
    unfold ekind_of in H. rewrite E in H. discriminate.
  - intros j L H. destruct (D j) as [->|Hj]; [|unfold estat_of in *; rewrite O; auto].
    unfold estat_of. rewrite nth_setst, Nat.eqb_refl. destruct (nth_error h i) as [[]|]; congruence.
Qed.

Lemma arm_leaf_ok i h k : ekind_of h i = Some k -> (forall a, k <> KMulti a) -> forward h (arm_leaf i h) [i] /\
  (all_usable h [i] -> waiting (arm_leaf i h) i).
Proof.
  intros Hk Hm. unfold arm_leaf. unfold ekind_of in Hk.
  destruct (nth_error h i) as [[k' s]|] eqn:E; [|discriminate]. inversion Hk; subst k'.
  assert (US : forall s', (s' = SFresh \/ s' = SPend \/ s' = SDone) -> s = s' -> usable h i).
  { intros s' Hs <-. unfold usable, estat_of. rewrite E. destruct s; auto; destruct Hs as [?|[?|?]]; discriminate. }
  assert (SP : waiting (setst i SPend h) i).
  { unfold waiting. rewrite nth_setst, Nat.eqb_refl, E. destruct k; auto. }
  destruct k; try (exfalso; eapply Hm; reflexivity); destruct s; cbn;
    try (split; [apply set_forward; [discriminate|right; split; [reflexivity|eapply US; [|reflexivity]; auto]]|intros _; exact SP]);
    (split; [apply forward_refl|]); intro A; try (unfold waiting; rewrite E; exact I).
  all: exfalso; assert (U : usable h i) by (apply A; [left; reflexivity|unfold ekind_of; rewrite E; reflexivity]);
    unfold usable, estat_of in U; rewrite E in U; exact U.
Qed.
Lemma multi_forward i a h b : ekind_of h i = Some (KMulti a) -> forward h (setst i (if b : bool then STrig else SPend) h) [i].
Proof. intro K. apply set_forward; [destruct b; discriminate|left; eauto]. Qed.

Lemma arm_forward e : forall h, fits h e -> forward h (arm e h) (below e).
Proof.
  revert e. apply (ev_ind2 (fun e => forall h, fits h e -> forward h (arm e h) (below e))).
  - intros i h H. inversion H; subst. apply (arm_leaf_ok i h k); assumption.
  - intros i subs IH h H. inversion H as [|? a ? KI FS]; subst. rewrite arm_multi. cbn [below].
    assert (F1 : forward h (arm_list subs h) (flat_map below subs)).
    { clear H KI. revert h FS. induction subs as [|e l IHl]; intros h FS; cbn [arm_list flat_map]; [apply forward_refl|].
      inversion IH; subst. inversion FS; subst. pose proof (H1 h H3) as F1.
      eapply forward_trans; [exact F1|]. apply IHl; [assumption|].
      rewrite Forall_forall in *. intros x Hx. eapply forward_fits; [exact F1|auto]. }
    assert (F2 : forward (arm_list subs h) (setst i (if at_once (arm_list subs h) i subs then STrig else SPend) (arm_list subs h)) [i]).
    { eapply multi_forward. destruct F1 as (K & _). rewrite K. eassumption. }
    destruct (forward_trans _ _ _ _ _ F1 F2) as (K & U & R). split; [exact K|]. split; [|exact R].
    intros j Hj. apply U. intro X. apply Hj. apply in_app_or in X. destruct X as [X|[X|[]]]; simpl; auto.
Qed.
Lemma arm_list_forward l : forall h, Forall (fits h) l -> forward h (arm_list l h) (flat_map below l).
Proof.
  induction l as [|e l IH]; intros h FS; cbn [arm_list flat_map]; [apply forward_refl|]. inversion FS; subst.
  pose proof (arm_forward e h H1) as F1. eapply forward_trans; [exact F1|]. apply IH.
  rewrite Forall_forall in *. intros x Hx. eapply forward_fits; [exact F1|auto].
Qed.

(** Nothing is over already: no condition is triggered when made. *)
Definition ahead_list (h : heap) (l : list ev) : Prop := Forall (ahead h) l.
Lemma ahead_multi h i subs : ahead h (EMulti i subs) <-> subs <> [] /\ Forall (ahead h) subs.
Proof.
  cbn [ahead]. assert (E : (fix all l := match l with [] => True | e' :: l' => ahead h e' /\ all l' end) subs <-> Forall (ahead h) subs).
  { induction subs as [|e l IH]; [split; [constructor|auto]|]. rewrite IH. split; [intros [A B]; constructor; assumption|intro F; inversion F; auto]. }
  rewrite E. tauto.
Qed.
Lemma forward_ahead h h' ids e : forward h h' ids -> fits h e -> ahead h e -> ahead h' e.
Proof.
  intros (K & _ & _ & _ & D). revert e. apply (ev_ind2 (fun e => fits h e -> ahead h e -> ahead h' e)).
  - intros i F A. inversion F; subst. cbn [ahead] in *. rewrite K. destruct A as [A|A]; [auto|]. right. apply D; [|exact A].
    intros a X. rewrite H0 in X. injection X as ->. eapply H1; reflexivity.
  - intros i subs IH F A. inversion F; subst. apply ahead_multi in A as [A1 A2]. apply ahead_multi. split; [exact A1|].
    rewrite Forall_forall in *. auto.
Qed.
(** After arming, nothing that is ahead is over. *)
Lemma arm_not_over e h : fits h e -> ahead h e -> is_over (arm e h) e = false.
Proof.
  intros F A. destruct e as [i|i subs]; [|reflexivity]. inversion F; subst. cbn [is_over arm]. cbn [ahead] in A.
  unfold arm_leaf. unfold ekind_of, estat_of in *. destruct (nth_error h i) as [[k' s]|] eqn:E; [|discriminate]. injection H0 as ->.
  destruct k; try (exfalso; eapply H1; reflexivity); destruct s; rewrite ?nth_setst, ?Nat.eqb_refl, ?E; try reflexivity;
    destruct A as [A|A]; congruence.
Qed.
Lemma over_kept h h' ids e : forward h h' ids -> fits h e -> is_over h e = false -> is_over h' e = false.
Proof.
  intros (K & _ & _ & _ & D) F O. destruct e as [i|]; [|reflexivity]. inversion F; subst. cbn [is_over] in *.
  assert (L : leafy h i) by (intros a X; rewrite H0 in X; injection X as ->; eapply H1; reflexivity).
  specialize (D i L). unfold estat_of in D. destruct (nth_error h i) as [[k1 s1]|], (nth_error h' i) as [[k2 s2]|]; try reflexivity.
  - destruct s1; try discriminate; destruct s2; try reflexivity; exfalso; apply D; congruence.
  - destruct s2; try reflexivity. exfalso; apply D; congruence.
Qed.
Lemma list_not_over l : forall h, Forall (fits h) l -> Forall (ahead h) l -> Forall (fun e => is_over (arm_list l h) e = false) l.
Proof.
  induction l as [|e l IH]; intros h F A; [constructor|]. inversion F as [|? ? F1 F2]; inversion A as [|? ? A1 A2]; subst. cbn [arm_list].
  pose proof (arm_forward e h F1) as FW.
  assert (F2' : Forall (fits (arm e h)) l) by (rewrite Forall_forall in *; intros; eapply forward_fits; eauto).
  assert (A2' : Forall (ahead (arm e h)) l) by (rewrite Forall_forall in *; intros; eapply forward_ahead; eauto).
  constructor; [|apply IH; assumption]. eapply over_kept; [apply arm_list_forward, F2'|eapply forward_fits; eauto|apply arm_not_over; assumption].
Qed.
Lemma not_at_once i subs h : Forall (fits h) subs -> Forall (ahead h) subs -> subs <> [] -> at_once (arm_list subs h) i subs = false.
Proof.
  intros F A N. pose proof (list_not_over subs h F A) as O. unfold at_once.
  assert (E1 : existsb (is_over (arm_list subs h)) subs = false).
  { apply Bool.not_true_is_false. intro X. apply existsb_exists in X as (x & I & X). rewrite Forall_forall in O. rewrite O in X by exact I. discriminate. }
  assert (E2 : forallb (is_over (arm_list subs h)) subs = false).
  { destruct subs as [|x l]; [congruence|]. inversion O; subst. cbn [forallb]. rewrite H1. reflexivity. }
  rewrite E1, E2. destruct subs; [congruence|]. destruct (nth_error _ i) as [[[| | | [] |] ]|]; reflexivity.
Qed.

Lemma arm_waiting e : forall h, fits h e -> ahead h e ->
  (forall i, waiting h i -> waiting (arm e h) i) /\ (all_usable h (below e) -> Forall (waiting (arm e h)) (below e)).
Proof.
  revert e. apply (ev_ind2 (fun e => forall h, fits h e -> ahead h e ->
    (forall i, waiting h i -> waiting (arm e h) i) /\ (all_usable h (below e) -> Forall (waiting (arm e h)) (below e)))).
  - intros i h H A. inversion H; subst. destruct (arm_leaf_ok i h k H1 H2) as [F W]. cbn [below arm]. split.
    + intros j J. destruct F as (_ & U & WW & _). destruct (leafy_dec h j) as [L|[a L]]; [apply WW; assumption|].
      unfold waiting. rewrite U; [exact J|]. intros [<-|[]]. rewrite H1 in L. injection L as ->. eapply H2; reflexivity.
    + intro AU. constructor; auto.
  - intros i subs IH h H A. inversion H as [|? a0 ? KI FS]; subst. apply ahead_multi in A as [NE AL]. rewrite arm_multi, not_at_once by assumption. cbn [below].
    assert (L : (forall j, waiting h j -> waiting (arm_list subs h) j) /\
      (all_usable h (flat_map below subs) -> Forall (waiting (arm_list subs h)) (flat_map below subs))).
    { clear H KI NE. revert h FS AL. induction subs as [|e l IHl]; intros h FS AL; cbn [arm_list flat_map].
      - split; [auto|constructor].
      - inversion IH as [|? ? I1 I2]; inversion FS as [|? ? F1 F2]; inversion AL as [|? ? A1 A2]; subst. destruct (I1 h F1 A1) as [W1 V1].
        pose proof (arm_forward e h F1) as FW.
        assert (FS' : Forall (fits (arm e h)) l) by (rewrite Forall_forall in *; intros; eapply forward_fits; eauto).
        assert (AL' : Forall (ahead (arm e h)) l) by (rewrite Forall_forall in *; intros; eapply forward_ahead; eauto).
        destruct (IHl I2 (arm e h) FS' AL') as [W2 V2]. split; [auto|].
        intro A. apply Forall_app. split.
        + eapply Forall_impl; [|apply V1; intros j Hj; apply A; apply in_or_app; auto]. auto.
        + apply V2. eapply forward_usable; [exact FW|]. intros j Hj. apply A. apply in_or_app; auto. }
    destruct L as [W1 V1].
    assert (KI' : ekind_of (arm_list subs h) i = Some (KMulti a0)) by (destruct (arm_list_forward subs h FS) as (K & _); rewrite K; exact KI).
    assert (WI : waiting (setst i SPend (arm_list subs h)) i).
    { unfold waiting, ekind_of in *. rewrite nth_setst, Nat.eqb_refl. destruct (nth_error (arm_list subs h) i) as [[k s]|]; [|discriminate]. injection KI' as ->. exact I. }
    assert (WO : forall j, waiting (arm_list subs h) j -> waiting (setst i SPend (arm_list subs h)) j).
    { intros j J. destruct (Nat.eq_dec i j) as [<-|N]; [exact WI|]. unfold waiting. rewrite nth_setst. destruct (Nat.eqb_spec i j); [congruence|exact J]. }
    split; [auto|]. intro A. constructor; [exact WI|]. eapply Forall_impl; [exact WO|]. apply V1. intros j Hj. apply A. simpl; auto.
Qed.

Lemma noisy_forward h h' ids e : forward h h' ids -> noisy_below h' e = noisy_below h e.
Proof. intros (K & _). unfold noisy_below. apply filter_ext_in'. intro. unfold noisy. rewrite K. reflexivity. Qed.

Lemma cancel_after_yield e h : fits h e -> ahead h e -> all_usable h (below e) -> NoDup (noisy_below h e) ->
  snd (cancel e (arm e h)) = true.
Proof.
  intros F AH A N. pose proof (arm_forward e h F) as FW. apply cancel_iff; [eapply forward_fits; eauto|].
  split; [apply arm_waiting; assumption|]. rewrite (noisy_forward h _ (below e)); auto.
Qed.

(** What is pending stays pending, what is fresh becomes so. *)
Definition plain (h : heap) (i : nat) : Prop := leafy h i /\ ekind_of h i <> Some KProc.
Definition rises (h h' : heap) : Prop :=
  (forall i, ekind_of h' i = ekind_of h i) /\
  (forall i, leafy h i -> estat_of h i = Some SPend -> estat_of h' i = Some SPend) /\
  (forall i, plain h i -> estat_of h i = Some SFresh \/ (ekind_of h i = Some KEvt /\ estat_of h i = Some SDone) ->
     estat_of h' i = Some SPend \/ estat_of h' i = estat_of h i).
Definition pended (h h' : heap) (l : list nat) : Prop :=
  forall i, In i l -> plain h i -> estat_of h i = Some SFresh \/ (ekind_of h i = Some KEvt /\ estat_of h i = Some SDone) -> estat_of h' i = Some SPend.
Lemma rises_refl h : rises h h. Proof. repeat split; auto. Qed.
Lemma kinds_leafy h h' i : (forall i, ekind_of h' i = ekind_of h i) -> leafy h i -> leafy h' i.
Proof. intros K L a. rewrite K. apply L. Qed.
Lemma kinds_plain h h' i : (forall i, ekind_of h' i = ekind_of h i) -> plain h i -> plain h' i.
Proof. intros K [L P]. split; [eapply kinds_leafy; eauto|rewrite K; exact P]. Qed.
Lemma rises_trans h1 h2 h3 : rises h1 h2 -> rises h2 h3 -> rises h1 h3.
Proof.
  intros (K & P & F) (K' & P' & F'). split; [intro i; rewrite K'; apply K|].
  split; [intros i L X; apply P'; [eapply kinds_leafy; eauto|auto]|].
  intros i N S. destruct (F i N S) as [H|H]; [left; apply P'; [eapply kinds_leafy; [exact K|apply N]|exact H]|].
  destruct (F' i) as [H'|H']; [eapply kinds_plain; eauto|rewrite K, H; exact S|left; exact H'|right; congruence].
Qed.
Lemma pended_app h h1 h2 a b : rises h h1 -> rises h1 h2 -> pended h h1 a -> pended h1 h2 b -> pended h h2 (a ++ b).
Proof.
  intros (K & P & F) (K' & P' & F') A B i I N S.
  assert (L : leafy h1 i) by (eapply kinds_leafy; [exact K|apply N]).
  destruct (F i N S) as [H|H]; [apply P'; assumption|].
  apply in_app_or in I as [I|I]; [apply P'; [exact L|]; apply A; assumption|].
  apply B; [exact I|eapply kinds_plain; eauto|rewrite K, H; exact S].
Qed.
Lemma setst_rises i s h : s = SPend \/ (exists a, ekind_of h i = Some (KMulti a)) -> rises h (setst i s h) /\ pended h (setst i s h) [i].
Proof.
  intro Hs. assert (E : forall j, estat_of (setst i s h) j = if Nat.eqb i j then match estat_of h j with Some _ => Some s | None => None end else estat_of h j).
  { intro j. unfold estat_of. rewrite nth_setst. destruct (Nat.eqb i j); [|reflexivity]. destruct (nth_error h j) as [[]|]; reflexivity. }
  split; [split; [apply kind_setst|split]|].
  - intros j L H. rewrite E, H. destruct (Nat.eqb_spec i j) as [<-|]; [|reflexivity]. destruct Hs as [->|[a X]]; [reflexivity|exfalso; exact (L a X)].
  - intros j [L _] S. rewrite E. destruct (Nat.eqb_spec i j) as [<-|]; [|right; reflexivity]. left.
    destruct Hs as [->|[a X]]; [|exfalso; exact (L a X)]. destruct S as [->|[_ ->]]; reflexivity.
  - intros j [<-|[]] [L _] S. rewrite E, Nat.eqb_refl. destruct Hs as [->|[a X]]; [|exfalso; exact (L a X)]. destruct S as [->|[_ ->]]; reflexivity.
Qed.
Lemma arm_leaf_pends i h k : ekind_of h i = Some k -> (forall a, k <> KMulti a) -> rises h (arm_leaf i h) /\ pended h (arm_leaf i h) [i].
Proof.
  intros K M. unfold arm_leaf. destruct (nth_error h i) as [[k' s]|] eqn:E; [|split; [apply rises_refl|]; intros j [<-|[]] _; unfold estat_of, ekind_of in *; rewrite E in *; intros [H|[H _]]; discriminate].
  assert (KK : ekind_of h i = Some k') by (unfold ekind_of; rewrite E; reflexivity).
  assert (SS : estat_of h i = Some s) by (unfold estat_of; rewrite E; reflexivity).
  assert (Z : rises h (setst i SPend h) /\ pended h (setst i SPend h) [i]) by (apply setst_rises; auto).
  rewrite KK in K. injection K as ->.
  destruct k, s; try exact Z; try (exfalso; eapply M; reflexivity);
    (split; [apply rises_refl|intros j [<-|[]] [_ N] S; rewrite KK, SS in S; destruct S as [S|[S1 S2]]; try discriminate; congruence]).
Qed.
Lemma rises_fits h h' e : rises h h' -> fits h e -> fits h' e.
Proof.
  intros (K & _). revert e. apply (ev_ind2 (fun e => fits h e -> fits h' e)).
  - intros i H. inversion H; subst. econstructor; [rewrite K; eassumption|assumption].
  - intros i subs IH H. inversion H; subst. econstructor; [rewrite K; eassumption|].
    rewrite Forall_forall in *. auto.
Qed.
Lemma arm_rises e : forall h, fits h e -> rises h (arm e h) /\ pended h (arm e h) (below e).
Proof.
  revert e. apply (ev_ind2 (fun e => forall h, fits h e -> rises h (arm e h) /\ pended h (arm e h) (below e))).
  - intros i h H. inversion H; subst. eapply arm_leaf_pends; eauto.
  - intros i subs IH h H. inversion H as [|? a ? KI FS]; subst. rewrite arm_multi. cbn [below].
    assert (G : forall l h, Forall (fun e => forall h, fits h e -> rises h (arm e h) /\ pended h (arm e h) (below e)) l -> Forall (fits h) l ->
      rises h (arm_list l h) /\ pended h (arm_list l h) (flat_map below l)).
    { induction l as [|e l IHl]; intros h0 A B; [split; [apply rises_refl|intros j []]|]. inversion A as [|? ? A1 A2]; inversion B as [|? ? B1 B2]; subst. cbn [arm_list flat_map].
      destruct (A1 h0 B1) as [R1 P1]. destruct (IHl (arm e h0) A2) as [R2 P2]; [eapply Forall_impl; [|exact B2]; intros; eapply rises_fits; eassumption|].
      split; [eapply rises_trans; eassumption|]. eapply pended_app; eassumption. }
    destruct (G subs h IH FS) as [R P]. assert (KM : ekind_of (arm_list subs h) i = Some (KMulti a)) by (destruct R as (K & _); rewrite K, KI; reflexivity).
    destruct (setst_rises i (if at_once (arm_list subs h) i subs then STrig else SPend) (arm_list subs h)) as [R2 P2]; [right; eauto|].
    split; [eapply rises_trans; eassumption|].
    intros j J N S. change (i :: flat_map below subs) with ([i] ++ flat_map below subs) in J. apply in_app_or in J. 
    apply (pended_app _ _ _ (flat_map below subs) [i] R R2 P P2 j); auto. apply in_or_app. tauto.
Qed.
Lemma arm_pends e h : fits h e -> pended h (arm e h) (below e).
Proof. apply arm_rises. Qed.

(** ** What triggers a combination when it is yielded *)
Definition over_sub (h : heap) (e : ev) : Prop :=
  exists j, e = ELeaf j /\ ekind_of h j <> Some KEvt /\ estat_of h j = Some SDone.
Lemma arm_keeps_done e : forall h j, fits h e -> leafy h j -> ekind_of h j <> Some KEvt -> estat_of h j = Some SDone -> estat_of (arm e h) j = Some SDone.
Proof.
  revert e. apply (ev_ind2 (fun e => forall h j, fits h e -> leafy h j -> ekind_of h j <> Some KEvt -> estat_of h j = Some SDone -> estat_of (arm e h) j = Some SDone)).
  - intros i h j _ _ NE S. cbn [arm]. unfold arm_leaf, estat_of, ekind_of in *. destruct (nth_error h i) as [[k s]|] eqn:E; [|exact S].
    assert (Z : s <> SDone \/ k = KEvt -> match nth_error (setst i SPend h) j with Some (_, s0) => Some s0 | None => None end = Some SDone).
    { intro H. rewrite nth_setst. destruct (Nat.eqb_spec i j) as [<-|]; [|exact S]. rewrite E in *. destruct H as [H|H]; congruence. }
    destruct k, s; try exact S; apply Z; (left; discriminate) || (right; reflexivity).
  - intros i subs IH h j F L NE S. inversion F as [|? a ? KI FS]; subst. rewrite arm_multi.
    assert (G : estat_of (arm_list subs h) j = Some SDone).
    { clear F KI. revert h FS L NE S. induction subs as [|e l IHl]; intros h FS L NE S; [exact S|]. inversion IH as [|? ? I1 I2]; inversion FS as [|? ? F1 F2]; subst. cbn [arm_list].
      pose proof (arm_forward e h F1) as FW. pose proof FW as FW0. destruct FW0 as (K & _).
      apply IHl; [exact I2| |eapply kinds_leafy; eauto|rewrite K; exact NE|apply I1; assumption].
      rewrite Forall_forall in *. intros; eapply forward_fits; eauto. }
    unfold estat_of in *. rewrite nth_setst. destruct (Nat.eqb_spec i j) as [<-|]; [exfalso; exact (L a KI)|exact G].
Qed.
Lemma list_keeps_done l : forall h j, Forall (fits h) l -> leafy h j -> ekind_of h j <> Some KEvt -> estat_of h j = Some SDone -> estat_of (arm_list l h) j = Some SDone.
Proof.
  induction l as [|e l IH]; intros h j FS L NE S; [exact S|]. inversion FS as [|? ? F1 F2]; subst. cbn [arm_list].
  pose proof (arm_forward e h F1) as FW. pose proof FW as FW0. destruct FW0 as (K & _).
  apply IH; [|eapply kinds_leafy; eauto|rewrite K; exact NE|apply arm_keeps_done; assumption].
  rewrite Forall_forall in *. intros; eapply forward_fits; eauto.
Qed.
Lemma is_over_stat h j : is_over h (ELeaf j) = true <-> estat_of h j = Some SDone.
Proof. cbn. unfold estat_of. destruct (nth_error h j) as [[k []]|]; split; congruence. Qed.
Lemma over_iff subs : forall h e, Forall (fits h) subs -> In e subs -> (is_over (arm_list subs h) e = true <-> over_sub h e).
Proof.
  intros h e FS I. assert (F : fits h e) by (rewrite Forall_forall in FS; auto). split.
  - destruct e as [j|]; [|discriminate]. intro O. inversion F; subst. exists j. split; [reflexivity|].
    assert (L : leafy h j) by (intros a X; rewrite H0 in X; injection X as ->; eapply H1; reflexivity).
    assert (N : ~ (ekind_of h j = Some KEvt \/ estat_of h j <> Some SDone)).
    { intro A. enough (is_over (arm_list subs h) (ELeaf j) = false) by congruence. clear O.
      revert h FS H0 L A F. induction subs as [|x l IH]; intros h FS H0 L A F; [destruct I|]. inversion FS as [|? ? F1 F2]; subst. cbn [arm_list].
      pose proof (arm_forward x h F1) as FW.
      assert (F2' : Forall (fits (arm x h)) l) by (rewrite Forall_forall in *; intros; eapply forward_fits; eauto).
      destruct I as [->|I].
      - eapply over_kept; [apply arm_list_forward, F2'|eapply forward_fits; eauto|apply arm_not_over; assumption].
      - pose proof FW as (K & _).
        eapply IH; [exact I|exact F2'|rewrite K; exact H0|eapply kinds_leafy; eauto| |eapply forward_fits; eauto].
        rewrite K. destruct A as [A|A]; [left; exact A|right]. destruct FW as (_ & _ & _ & _ & D). apply D; assumption. }
    split; [tauto|]. destruct (estat_of h j) as [[]|]; try reflexivity; exfalso; apply N; right; discriminate.
  - intros (j & -> & NE & S). apply is_over_stat. apply list_keeps_done; try assumption.
    inversion F; subst. intros a X. rewrite H0 in X; injection X as ->; eapply H1; reflexivity.
Qed.
Lemma at_once_iff i all subs h : fits h (EMulti i subs) -> ekind_of h i = Some (KMulti all) ->
  (at_once (arm_list subs h) i subs = true <-> if all then Forall (over_sub h) subs else subs = [] \/ Exists (over_sub h) subs).
Proof.
  intros F K. inversion F as [|? ? ? KI FS]; subst. clear KI.
  assert (K' : ekind_of (arm_list subs h) i = Some (KMulti all)) by (destruct (arm_list_forward subs h FS) as (Z & _); rewrite Z; exact K).
  unfold at_once. unfold ekind_of in K'. destruct (nth_error (arm_list subs h) i) as [[k s]|]; [|discriminate]. injection K' as ->.
  destruct all.
  - rewrite forallb_forall, Forall_forall. split; intros H x I; apply (over_iff subs h x FS I); auto.
  - rewrite Bool.orb_true_iff, existsb_exists, Exists_exists. split.
    + intros [(x & I & O)|E]; [right; exists x; split; [exact I|apply (over_iff subs h x FS I); exact O]|left; destruct subs; [reflexivity|discriminate]].
    + intros [->|(x & I & O)]; [right; reflexivity|left]. exists x. split; [exact I|]. apply (over_iff subs h x FS I). exact O.
Qed.
Lemma arm_top i all subs h : fits h (EMulti i subs) -> ekind_of h i = Some (KMulti all) ->
  estat_of (arm (EMulti i subs) h) i = Some (if at_once (arm_list subs h) i subs then STrig else SPend).
Proof.
  intros F K. inversion F as [|? ? ? KI FS]; subst. rewrite arm_multi. unfold estat_of. rewrite nth_setst, Nat.eqb_refl.
  destruct (arm_list_forward subs h FS) as (Z & _). specialize (Z i). rewrite K in Z. unfold ekind_of in Z.
  destruct (nth_error (arm_list subs h) i) as [[]|]; [reflexivity|discriminate].
Qed.
