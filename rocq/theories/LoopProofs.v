(** Proofs about running networks. *)
From Verif Require Import Common NetModel LoopModel LoopSpec.

(** A summary of what happened. *)
Record sm := mkSm {
  m_st : option (string * Q * iact); m_aw : option nat; m_in : option (string * lkind * Q);
  m_ml : option nat; m_over : bool; m_dead : bool; m_dec : nat; m_last : option lout; m_bound : nat }.
Definition sm0 : sm := mkSm None None None None false false 0 None 0.
Definition upd (m : sm) (y : Q * lout) : sm :=
  let '(t, o) := y in
  mkSm (match o with OMark x a => Some (x, t, a) | OUnmark => None | OBegin _ _ => None | _ => m_st m end)
       (match o with OWait e => Some e | _ => m_aw m end)
       (match o with OBegin n k => Some (n, k, t) | _ => m_in m end)
       (match o with OMade p => Some p | _ => m_ml m end)
       (match o with OMade _ => false | OOver _ => true | _ => m_over m end)
       (match o with ODead _ => true | _ => m_dead m end)
       (match o with OBegin _ _ => O | ODecided => S (m_dec m) | _ => m_dec m end)
       (Some o)
       (match o with OMade p => Nat.max (m_bound m) (S p) | OOver p => Nat.max (m_bound m) (S p) | _ => m_bound m end).
Definition summary (h : happened) : sm := fold_left upd h sm0.

Lemma summary_snoc h y : summary (h ++ [y]) = upd (summary h) y.
Proof. unfold summary. rewrite fold_left_app. reflexivity. Qed.

(** ** The summary and the vocabulary *)
Lemma snoc_inj {A} (l l' : list A) x x' : l ++ [x] = l' ++ [x'] -> l = l' /\ x = x'.
Proof. apply app_inj_tail. Qed.

Ltac other := match goal with H : forall a, _ <> _ |- _ => exfalso; eapply H; reflexivity
  | H : forall a b, _ <> _ |- _ => exfalso; eapply H; reflexivity | H : ?x <> ?x |- _ => exfalso; apply H; reflexivity end.
Lemma standing_iff h x : standing h x <-> m_st (summary h) = x.
Proof.
  split.
  - induction 1; try (rewrite summary_snoc); try reflexivity.
    rewrite <- IHstanding. destruct o; try reflexivity; other.
  - revert x. induction h as [|y h IH] using rev_ind; intros x <-; [constructor|].
    rewrite summary_snoc. destruct y as [t o].
    destruct o; simpl; try constructor; try (apply IH; reflexivity); try congruence.
Qed.
Lemma awaited_iff h e : awaited h e <-> m_aw (summary h) = Some e.
Proof.
  split.
  - induction 1; rewrite summary_snoc; try reflexivity.
    rewrite <- IHawaited. destruct o; try reflexivity; other.
  - induction h as [|y h IH] using rev_ind; [discriminate|].
    rewrite summary_snoc. destruct y as [t o].
    destruct o; simpl; intro H; try (constructor; [apply IH; exact H|congruence]).
    injection H as <-. constructor.
Qed.
Lemma made_last_iff h e : made_last h e <-> m_ml (summary h) = Some e.
Proof.
  split.
  - induction 1; rewrite summary_snoc; try reflexivity.
    rewrite <- IHmade_last. destruct o; try reflexivity; other.
  - induction h as [|y h IH] using rev_ind; [discriminate|].
    rewrite summary_snoc. destruct y as [t o].
    destruct o; simpl; intro H; try (constructor; [apply IH; exact H|congruence]).
    injection H as <-. constructor.
Qed.
Lemma in_task_iff h n k : in_task h n k <-> exists t, m_in (summary h) = Some (n, k, t).
Proof.
  split.
  - induction 1; rewrite summary_snoc; simpl; [eauto|].
    destruct IHin_task as [t0 E]. exists t0. rewrite <- E. destruct o; try reflexivity; other.
  - induction h as [|y h IH] using rev_ind; [intros (t & H); discriminate|].
    rewrite summary_snoc. destruct y as [t o].
    intros (t0 & H). destruct o; simpl in H; try (constructor; [apply IH; exists t0; exact H|congruence]).
    injection H as -> -> ->. constructor.
Qed.
Lemma dead_iff h : dead h <-> m_dead (summary h) = true.
Proof.
  split.
  - intros (t & x & H). induction h as [|y h IH] using rev_ind; [destruct H|].
    rewrite summary_snoc. apply in_app_iff in H. destruct H as [H|[->|[]]]; [|reflexivity].
    destruct y as [t0 o]. destruct o; simpl; auto.
  - induction h as [|y h IH] using rev_ind; [discriminate|].
    rewrite summary_snoc. destruct y as [t o]. intro H.
    assert (m_dead (summary h) = true \/ exists x, o = ODead x) as [E|(x & ->)]
      by (destruct o; simpl in H; eauto).
    + destruct (IH E) as (t0 & x & I). exists t0, x. apply in_app_iff. auto.
    + exists t, x. apply in_app_iff. right. left. reflexivity.
Qed.
Lemma last_iff h o : (exists h' t, h = h' ++ [(t, o)]) <-> m_last (summary h) = Some o.
Proof.
  split.
  - intros (h' & t & ->). rewrite summary_snoc. destruct o; reflexivity.
  - destruct h as [|y h] using rev_ind; [discriminate|]. clear IHh.
    rewrite summary_snoc. destruct y as [t o']. intro H.
    assert (o' = o) as -> by (destruct o'; simpl in H; congruence). eauto.
Qed.
Lemma bound_ok h p t : In (t, OMade p) h \/ In (t, OOver p) h -> (p < m_bound (summary h))%nat.
Proof.
  induction h as [|y h IH] using rev_ind; [intros [[]|[]]|].
  rewrite summary_snoc. rewrite !in_app_iff. intros [[H|[->|[]]]|[H|[->|[]]]]; cbn [upd m_bound]; try lia;
    (specialize (IH (or_introl H)) || specialize (IH (or_intror H))); destruct y as [? []]; cbn [upd m_bound]; lia.
Qed.

(** ** The invariant *)
Definition mark_of (x : option (string * Q * iact)) : option string * option Q * iact :=
  match x with Some (m, t, a) => (Some m, Some t, a) | None => (None, None, IEnd) end.
(** What one more happening may be, given what happened. *)
Definition okm (m : sm) (y : Q * lout) : Prop :=
  let '(t, o) := y in
  (* markers *)
  match o with
  | OAnswer a => a = action_of (m_st m)
  | OMarkerIs k tm => (k, tm) = fst (mark_of (m_st m))
  | _ => True
  end /\
  (* after an answer *)
  match m_last m with
  | Some (OAnswer a) | Some (OOwn a) =>
      match a with
      | IEnd => exists p, o = OOver p /\ m_ml m = Some p
      | IIgnore => exists e, o = OSame e /\ m_aw m = Some e
      | IRestart => o = OAgain
      | _ => o = ODead DSim
      end
  | Some (OOver _) => (exists n k, o = OBegin n k) \/ (exists x, o = ODead x)
  | _ => True
  end /\
  (* which process ends *)
  match o with OOver p => m_ml m = Some p /\ m_over m = false | OMade p => (m_bound m <= p)%nat | _ => True end /\
  (* running task *)
  match o with
  | ORunningIs r => match m_in m with
                    | Some (n, k, _) => m_dead m = false -> k <> KSkip ->
                        exists p, r = Some (Some n, p) /\ m_ml m = Some p /\ m_over m = false
                    | None => m_dead m = false -> r = None
                    end
  | _ => True
  end /\
  (* decisions *)
  match m_in m with
  | Some (n, k, t0) =>
      (decision k -> m_dead m = false -> t == t0 /\ match o with OBegin _ _ => m_dec m = 1%nat | ODecided => m_dec m = 0%nat
                                      | OWait _ | OSame _ | OAgain | OAnswer _ | OOwn _ => False | _ => True end) /\
      (~ decision k -> o <> ODecided)
  | None => o <> ODecided
  end /\
  (* the dead do nothing *)
  (m_dead m = true -> match o with OBegin _ _ | OMade _ | OOver _ | OWait _ | OSame _ | OAgain | ODecided | OAnswer _ | OOwn _ | ODead _ => False | _ => True end).
(** Terminal tasks, as long as no event is given the planning factor. *)
Definition okterm (m : sm) (y : Q * lout) : Prop :=
  match m_in m with
  | Some (_, KTerm, _) => match snd y with OBegin _ _ | OOver _ | OSame _ | OAgain | OAnswer _ | OOwn _ | ODecided => False
                          | ODead x => x = DSim | _ => True end
  | _ => True
  end.

Definition quiet (o : option lout) : Prop :=
  match o with Some (OAnswer _) | Some (OOwn _) | Some (OOver _) => False | _ => True end.
Definition bounded (s : lst) (m : sm) : Prop :=
  (m_bound m <= s_made s)%nat /\ forall p, m_ml m = Some p -> (p < m_bound m)%nat.
Definition Inv (s : lst) (m : sm) : Prop :=
  quiet (m_last m) /\ s_proc s = m_ml m /\ bounded s m /\
  match s_inst s with
  | Some i => exists n t0, m_in m = Some (n, i_kind i, t0) /\ (i_mark i, i_time i, i_act i) = mark_of (m_st m) /\
      (m_dead m = false -> s_name s = Some n /\ (decision (i_kind i) -> s_now s == t0) /\
         (i_kind i <> KSkip -> exists p, m_ml m = Some p /\ m_over m = false))
  | None => m_in m = None /\ m_st m = None /\ s_proc s = None /\ m_over m = false
  end /\
  match s_phase s with
  | LIdle => s_inst s = None /\ m_dead m = false
  | LDead _ => m_dead m = true
  | LCode => m_dead m = false /\ exists i, s_inst s = Some i /\ i_kind i = KPlain
  | LWaiting e => m_dead m = false /\ m_aw m = Some e /\ exists i, s_inst s = Some i /\ ~ decision (i_kind i)
  | LDeciding => m_dead m = false /\ m_dec m = 0%nat /\ exists i, s_inst s = Some i /\ decision (i_kind i)
  | LHolding due => m_dead m = false /\ m_dec m = 1%nat /\ due == s_now s /\ exists i, s_inst s = Some i /\ i_kind i = KHold
  end.

Fixpoint goods (ok : sm -> Q * lout -> Prop) (m : sm) (ys : happened) : Prop :=
  match ys with [] => True | y :: ys' => ok m y /\ goods ok (upd m y) ys' end.
Definition stamp (s : lst) (o : list lout) : happened := map (fun y => (s_now s, y)) o.

Definition Mid (s : lst) (m : sm) : Prop :=
  m_dead m = false /\ s_proc s = m_ml m /\ bounded s m /\
  match m_last m with Some (OAnswer _) | Some (OOwn _) => False | _ => True end /\
  match s_inst s with
  | Some i => exists n t0, m_in m = Some (n, i_kind i, t0) /\ (i_mark i, i_time i, i_act i) = mark_of (m_st m) /\
      (decision (i_kind i) -> s_now s == t0 /\ m_dec m = 1%nat)
  | None => m_in m = None /\ m_st m = None /\ s_proc s = None /\ m_over m = false
  end.

Ltac dec_all :=
  repeat match goal with
  | H : exists _, _ |- _ => destruct H
  | H : _ /\ _ |- _ => destruct H
  end.
Ltac nd := let H := fresh in intro H; destruct H as [H|H]; discriminate H.

Section P.
Variable d : lnet.

Lemma lrun_app s xs ys : lrun d s (xs ++ ys) =
  let '(s1, l1) := lrun d s xs in let '(s2, l2) := lrun d s1 ys in (s2, l1 ++ l2).
Proof.
  revert s. induction xs as [|x xs IH]; intro s; cbn [lrun app].
  - destruct (lrun d s ys); reflexivity.
  - destruct (lstep d s x) as [s1 o]. rewrite IH.
    destruct (lrun d s1 xs) as [s2 l2]. destruct (lrun d s2 ys) as [s3 l3].
    now rewrite app_assoc.
Qed.

Definition fine (s : lst) (m : sm) (r : lst * list lout) : Prop :=
  goods okm m (stamp (fst r) (snd r)) /\ Inv (fst r) (fold_left upd (stamp (fst r) (snd r)) m).

Lemma die_ok s m x : Mid s m -> fine s m (die s x).
Proof.
  intros (D & P & B & L & I). unfold fine, die, stamp; cbn [fst snd map fold_left goods].
  destruct (s_inst s) as [i|] eqn:Ei.
  - destruct I as (n & t0 & I1 & I2 & I3). repeat split.
    + destruct (m_last m) as [[]|]; auto; try (right; exists x; reflexivity); destruct L.
    + rewrite I1. split; [intros Hd _; split; [apply I3; exact Hd|exact I]|discriminate].
    + congruence.
    + exact P.
    + apply B.
    + apply B.
    + simpl. rewrite Ei. exists n, t0. simpl. repeat split; auto; discriminate.
  - destruct I as (I1 & I2 & I3 & I4). repeat split.
    + destruct (m_last m) as [[]|]; auto; try (right; exists x; reflexivity); destruct L.
    + rewrite I1. discriminate.
    + congruence.
    + exact P.
    + apply B.
    + apply B.
    + simpl. rewrite Ei. repeat split; auto.
Qed.

Lemma begin_ok s m t : Mid s m -> fine s m (begin_task d s t).
Proof.
  intro HM. pose proof HM as (D & P & [B B2] & L & I).
  unfold begin_task. cbv zeta.
  set (s0 := mkL _ _ _ _ _ _ _).
  assert (Mid s0 m) as M0 by exact HM.
  destruct (lbegin_queue (s_queue s) t) as [q|]; [|apply (die_ok s0); exact M0].
  destruct (sget t (ln_classes d)) as [k|].
  2:{ apply (die_ok (with_q s0 q)). exact M0. }
  assert (forall tt, tt == s_now s -> okm m (tt, OBegin t k)) as OB.
  { intros tt Et. repeat split.
    - destruct (m_last m) as [[]|]; auto; try (left; eauto; fail); destruct L.
    - destruct (s_inst s) as [i|].
      + destruct I as (n & t0 & I1 & I2 & I3). rewrite I1. split; [|discriminate].
        intros Hd _. destruct (I3 Hd) as (E & E2). split; [rewrite Et; exact E|exact E2].
      + destruct I as (I1 & _). rewrite I1. discriminate.
    - congruence. }
  unfold fine.
  destruct k; cbn [stamp fst snd map fold_left goods s_now]; unfold okm, Inv, bounded, decision;
  (split; [split; [apply OB; reflexivity|]|]); simpl; repeat split; intros; auto; try lia; try congruence; try discriminate;
    try (match goal with H : Some _ = Some _ |- _ => injection H as <-; lia end);
    try (match goal with H : _ \/ _ |- _ => destruct H; discriminate end);
    try (eexists; split; [reflexivity|]; simpl; auto; nd);
    try (exists t, (s_now s); repeat split; intros; simpl; auto; try congruence; eauto; fail);
    try (exists t, (s_now s); repeat split; eauto; nd); try (eexists; eauto; fail).
Qed.

Lemma go_on_ok s m : Mid s m -> fine s m (go_on d s).
Proof.
  intros HM. unfold go_on. destruct (s_name s) as [t|]; [|apply die_ok; exact HM].
  destruct (sget t (ln_links d)) as [lk|]; [|apply die_ok; exact HM].
  destruct (s_queue s) as [|t' q].
  - destruct (l_default lk); [apply begin_ok|apply die_ok]; exact HM.
  - apply begin_ok. exact HM.
Qed.
Lemma begin_now s t : s_now (fst (begin_task d s t)) = s_now s.
Proof.
  unfold begin_task. destruct (lbegin_queue _ _); [|reflexivity].
  destruct (sget _ _) as [[]|]; reflexivity.
Qed.
Lemma go_on_now s : s_now (fst (go_on d s)) = s_now s.
Proof.
  unfold go_on. destruct (s_name s); [|reflexivity]. destruct (sget _ _); [|reflexivity].
  destruct (s_queue s); [destruct (l_default _)|]; try apply begin_now. reflexivity.
Qed.

Definition Over (s : lst) (m : sm) : Prop :=
  m_dead m = false /\ s_proc s = m_ml m /\ bounded s m /\ (exists p, m_ml m = Some p) /\ m_over m = false /\
  match m_last m with Some (OOver _) => False | Some (OAnswer a) | Some (OOwn a) => a = IEnd | _ => True end /\
  exists i n t0, s_inst s = Some i /\ m_in m = Some (n, i_kind i, t0) /\ (i_mark i, i_time i, i_act i) = mark_of (m_st m) /\
      (decision (i_kind i) -> s_now s == t0 /\ m_dec m = 1%nat).

Lemma over_ok s m : Over s m -> fine s m (over d s).
Proof.
  intros (D & P & [B E4] & (p & Ep) & O & L & i & n & t0 & Ei & E1 & E2 & E3).
  unfold over. rewrite P, Ep. specialize (E4 p Ep).
  assert (Mid s (upd m (s_now s, OOver p))) as HM.
  { repeat split; simpl; auto; try lia; try (intros q Eq; assert (q = p) by congruence; lia).
    rewrite Ei. exists n, t0. auto. }
  pose proof (go_on_ok _ _ HM) as F. pose proof (go_on_now s) as N.
  destruct (go_on d s) as [s1 o]. cbn [fst] in N. unfold fine in *. cbn [fst snd] in *.
  unfold stamp in *. rewrite N in *. cbn [app map fold_left goods]. destruct F as [F1 F2]. split; [split; [|exact F1]|exact F2].
  unfold okm. rewrite E1, Ep, O. repeat split; auto; try congruence.
  - destruct (m_last m) as [[]|]; auto; try (destruct L; fail); rewrite L; exists p; auto.
  - apply E3; assumption.
Qed.

(** In every state the clock is where a decision was begun. *)
Lemma inv_time s m : Inv s m -> match m_in m with
  | Some (n, k, t0) => decision k -> m_dead m = false -> s_now s == t0 | None => True end.
Proof.
  intros (_ & _ & _ & I & _). destruct (s_inst s) as [i|].
  - destruct I as (n & t0 & -> & _ & I). intros Hd D. apply I; assumption.
  - destruct I as (-> & _). exact Logic.I.
Qed.
(** Happenings that change nothing. *)
Definition neutral (o : lout) : Prop :=
  match o with OBad | OOk | OSimErr | OMarkerIs _ _ | ORunningIs _ | OMark _ _ | OUnmark => True | _ => False end.
Lemma neutral_ok s m o : Inv s m -> neutral o ->
  match o with OMarkerIs k tm => (k, tm) = fst (mark_of (m_st m)) | _ => True end ->
  match o with
  | ORunningIs r => match m_in m with
                    | Some (n, k, _) => m_dead m = false -> k <> KSkip ->
                        exists p, r = Some (Some n, p) /\ m_ml m = Some p /\ m_over m = false
                    | None => m_dead m = false -> r = None
                    end
  | _ => True
  end -> okm m (s_now s, o).
Proof.
  intros HI N H1 H2. pose proof (inv_time _ _ HI) as T. destruct HI as (Q & _). unfold okm.
  split; [destruct o; auto; destruct N|].
  split; [destruct (m_last m) as [[]|]; auto; destruct Q|].
  split; [destruct o; auto; destruct N|].
  split; [destruct o; auto; destruct N|].
  split; [|destruct o; auto; destruct N].
  destruct (m_in m) as [[[n k] t0]|]; [|destruct o; try discriminate; destruct N].
  split; [|intros _; destruct o; try discriminate; destruct N].
  intros Hd D. split; [apply T; assumption|]. destruct o; auto; destruct N.
Qed.
(** The state is the same but for the queue; nothing or something neutral happened. *)
Lemma same_inv s s' m o : Inv s m -> s_now s' = s_now s -> s_name s' = s_name s -> s_inst s' = s_inst s ->
  s_proc s' = s_proc s -> s_made s' = s_made s -> s_phase s' = s_phase s ->
  match o with OBad | OOk | OSimErr | OMarkerIs _ _ | ORunningIs _ => True | _ => False end ->
  Inv s' (upd m (s_now s, o)).
Proof.
  intros HI E1 E2 E3 E4 E5 E6 N. unfold Inv, bounded in *. rewrite E1, E2, E3, E4, E5, E6.
  destruct HI as (Q & R). split; [destruct o; try exact Logic.I; destruct N|].
  destruct o; try (destruct N; fail); exact R.
Qed.
Lemma plain_ok s s' m o : Inv s m -> s_now s' = s_now s -> s_name s' = s_name s -> s_inst s' = s_inst s ->
  s_proc s' = s_proc s -> s_made s' = s_made s -> s_phase s' = s_phase s ->
  match o with OBad | OOk | OSimErr => True | _ => False end -> fine s m (s', [o]).
Proof.
  intros HI E1 E2 E3 E4 E5 E6 N. unfold fine, stamp; cbn [fst snd map goods fold_left]. rewrite E1. split.
  - split; [|exact Logic.I]. apply neutral_ok; try exact HI; destruct o; try exact Logic.I; destruct N.
  - apply (same_inv s); try assumption. destruct o; try exact Logic.I; destruct N.
Qed.
Lemma bad_ok s m : Inv s m -> fine s m (s, [OBad]).
Proof. intro H. apply plain_ok; auto; exact Logic.I. Qed.

Lemma op_ok s m o : Inv s m -> fine s m (do_op s o).
Proof.
  intro HI. pose proof HI as (Q & P & B & I & Ph).
  destruct o; unfold do_op.
  - (* mark *)
    destruct (s_inst s) as [i|] eqn:Ei; [|apply bad_ok; exact HI].
    unfold fine, stamp; cbn [fst snd map goods fold_left with_inst s_now]. split.
    + split; [|exact Logic.I]. apply neutral_ok; try exact HI; exact Logic.I.
    + unfold Inv, bounded. simpl. repeat split; try apply B; try exact P.
      * destruct I as (n & t0 & I1 & I2 & I3). exists n, t0. auto.
      * destruct (s_phase s); dec_all; repeat split; auto; try congruence;
          try (eexists; split; [reflexivity|]; simpl; congruence).
  - destruct (s_inst s) as [i|] eqn:Ei; [|apply bad_ok; exact HI].
    unfold fine, stamp; cbn [fst snd map goods fold_left with_inst s_now]. split.
    + split; [|exact Logic.I]. apply neutral_ok; try exact HI; exact Logic.I.
    + unfold Inv, bounded. simpl. repeat split; try apply B; try exact P.
      * destruct I as (n & t0 & I1 & I2 & I3). exists n, t0. auto.
      * destruct (s_phase s); dec_all; repeat split; auto; try congruence;
          try (eexists; split; [reflexivity|]; simpl; congruence).
  - destruct (s_queue s); apply plain_ok; auto; exact Logic.I.
  - apply plain_ok; auto; exact Logic.I.
  - destruct (s_inst s) as [i|] eqn:Ei; [|apply bad_ok; exact HI].
    unfold fine, stamp; cbn [fst snd map goods fold_left]. split.
    + split; [|exact Logic.I]. apply neutral_ok; try exact HI; try exact Logic.I.
      destruct I as (n & t0 & I1 & I2 & I3). rewrite <- I2. reflexivity.
    + apply (same_inv s); auto.
  - unfold fine, stamp; cbn [fst snd map goods fold_left]. split.
    + split; [|exact Logic.I]. apply neutral_ok; try exact HI; try exact Logic.I.
      destruct (s_inst s) as [i|] eqn:Ei.
      * destruct I as (n & t0 & -> & I2 & I3). intros D K. destruct (I3 D) as (J1 & J2 & J3).
        destruct (J3 K) as (p & J4 & J5). exists p. rewrite P, J4, J1. auto.
      * destruct I as (-> & I2 & -> & I4). reflexivity.
    + apply (same_inv s); auto.
Qed.

Lemma inv_mid s m : Inv s m -> m_dead m = false ->
  (forall i, s_inst s = Some i -> decision (i_kind i) -> m_dec m = 1%nat) -> Mid s m.
Proof.
  intros (Q & P & B & I & Ph) D H. repeat split; auto; try apply B.
  - destruct (m_last m) as [[]|]; auto.
  - destruct (s_inst s) as [i|]; [|exact I]. destruct I as (n & t0 & I1 & I2 & I3). exists n, t0.
    repeat split; auto; [apply I3; auto|]. eapply H; eauto.
Qed.

(** A failure is fine wherever the loop lives. *)
Lemma die_inv s m x : Inv s m -> m_dead m = false -> fine s m (die s x).
Proof.
  intros HI D. pose proof (inv_time _ _ HI) as T. destruct HI as (Q & P & B & I & Ph).
  unfold fine, die, stamp; cbn [fst snd map fold_left goods with_phase s_now]. split.
  - split; [|exact Logic.I]. unfold okm. repeat split; try exact Logic.I; try congruence.
    + destruct (m_last m) as [[]|]; auto; destruct Q.
    + destruct (m_in m) as [[[n k] t0]|]; [|discriminate]. split; [|discriminate]. intros Hd _. split; auto.
  - unfold Inv, bounded. simpl. repeat split; try apply B; try exact P.
    destruct (s_inst s) as [i|]; [|exact I]. destruct I as (n & t0 & I1 & I2 & I3). exists n, t0.
    repeat split; auto; discriminate.
Qed.

Lemma inv_over s m : Inv s m -> m_dead m = false -> (exists i, s_inst s = Some i /\ i_kind i <> KSkip /\
  (decision (i_kind i) -> m_dec m = 1%nat)) -> Over s m.
Proof.
  intros (Q & P & B & I & Ph) D (i & Ei & K & H). rewrite Ei in I. destruct I as (n & t0 & I1 & I2 & I3).
  destruct (I3 D) as (J1 & J2 & J3). destruct (J3 K) as (p & J4 & J5).
  unfold Over. split; [exact D|]. split; [exact P|]. split; [exact B|]. split; [exists p; exact J4|].
  split; [exact J5|]. split; [destruct (m_last m) as [[]|]; auto; destruct Q|].
  exists i, n, t0. repeat split; auto.
Qed.

Lemma interrupted_ok s m e i own : Inv s m -> s_phase s = LWaiting e -> s_inst s = Some i ->
  fine s m (interrupted d s e i own).
Proof.
  intros HI Hp Ei. pose proof HI as (Q & P & B & I & Ph). rewrite Hp in Ph. destruct Ph as (D & Aw & i0 & Ei0 & Nd).
  assert (i0 = i) by congruence. subst i0. unfold interrupted.
  destruct (i_kind i) eqn:K; try (exfalso; apply Nd; unfold decision; auto; fail); [|apply die_inv; assumption].
  rewrite Ei in I. destruct I as (n & t0 & I1 & I2 & I3). destruct (I3 D) as (J1 & J2 & J3).
  rewrite K in *. destruct J3 as (p & J4 & J5); [discriminate|].
  set (a := match own with Some a => a | None => i_act i end).
  set (o := match own with Some a => OOwn a | None => OAnswer a end).
  assert (okm m (s_now s, o)) as OKo.
  { unfold okm. rewrite I1. unfold o, a. repeat split; try (intro X; congruence).
    - destruct own; [exact Logic.I|]. revert I2. destruct (m_st m) as [[[? ?] ?]|]; simpl; congruence.
    - destruct (m_last m) as [[]|]; auto; destruct Q.
    - destruct own; exact Logic.I.
    - destruct own; exact Logic.I.
    - apply Nd in H. destruct H.
    - apply Nd in H. destruct H.
    - destruct own; discriminate. }
  assert (let m1 := upd m (s_now s, o) in m_st m1 = m_st m /\ m_aw m1 = m_aw m /\ m_in m1 = m_in m /\ m_ml m1 = m_ml m /\
          m_over m1 = m_over m /\ m_dead m1 = m_dead m /\ m_dec m1 = m_dec m /\ m_bound m1 = m_bound m /\
          (m_last m1 = Some (OOwn a) \/ m_last m1 = Some (OAnswer a))) as (U1 & U2 & U3 & U4 & U5 & U6 & U7 & U8 & U9).
  { unfold o, a. destruct own; simpl; repeat split; auto. }
  set (m1 := upd m (s_now s, o)) in *.
  assert (forall s1 l, s_now s1 = s_now s -> goods okm m1 (stamp s1 l) /\ Inv s1 (fold_left upd (stamp s1 l) m1) ->
    fine s m (s1, o :: l)) as C.
  { intros s1 l N [G1 G2]. unfold fine. cbn [fst snd]. unfold stamp in *. rewrite N in *. cbn [map goods fold_left].
    split; [split; [exact OKo|exact G1]|exact G2]. }
  assert (forall x, okm m1 (s_now s, x) <->
    match m_last m1 with
    | Some (OAnswer a) | Some (OOwn a) =>
        match a with IEnd => exists p, x = OOver p /\ m_ml m = Some p | IIgnore => exists e, x = OSame e /\ m_aw m = Some e
                   | IRestart => x = OAgain | _ => x = ODead DSim end
    | _ => okm m1 (s_now s, x) end) as OK.
  { intro x. destruct U9 as [E|E]; rewrite E; unfold okm; rewrite E, U1, U2, U3, U4, U5, U6, U7, U8, I1, D; split; intro H;
      try (apply H); (split; [destruct a; dec_all; subst x; exact Logic.I|]);
      (split; [exact H|]); (split; [destruct a; dec_all; subst x; auto|]);
      (split; [destruct a; dec_all; subst x; exact Logic.I|]);
      (split; [split; [intros Hd; destruct (Nd Hd)|intros _; destruct a; dec_all; subst x; discriminate]|discriminate]). }
  assert (forall x, (match a with IEnd => exists p, x = OOver p /\ m_ml m = Some p | IIgnore => exists e, x = OSame e /\ m_aw m = Some e
                   | IRestart => x = OAgain | _ => x = ODead DSim end) -> okm m1 (s_now s, x)) as OK2.
  { intros x Hx. apply OK. destruct U9 as [-> | ->]; exact Hx. }
  clear OK. destruct B as [B1 B2]. clearbody m1.
  destruct a eqn:Ea.
  - pose proof (go_on_now s) as N. unfold over.
    assert (Over s m1) as HO.
    { unfold Over, bounded. rewrite U1, U3, U4, U5, U6, U7, U8.
      split; [exact D|]. split; [exact P|]. split; [split; assumption|]. split; [exists p; exact J4|].
      split; [exact J5|]. split; [destruct U9 as [-> | ->]; reflexivity|].
      exists i, n, t0. rewrite K. split; [exact Ei|]. split; [exact I1|]. split; [exact I2|]. intro Hd; destruct (Nd Hd). }
    pose proof (over_ok _ _ HO) as F. unfold over in F. destruct (go_on d s) as [s1 l]. apply C; [exact N|exact F].
  - apply C; [reflexivity|]. unfold stamp; cbn [map goods fold_left]. split; [split; [apply OK2; eauto|exact Logic.I]|].
    unfold Inv, bounded. simpl. rewrite U1, U2, U3, U4, U5, U6, U7, U8, Hp, Ei.
    split; [exact Logic.I|]. split; [exact P|]. split; [split; assumption|]. split.
    + exists n, t0. rewrite K. auto.
    + split; [exact D|]. split; [exact Aw|]. exists i. rewrite K. auto.
  - apply C; [reflexivity|]. unfold stamp; cbn [map goods fold_left with_phase s_now]. split; [split; [apply OK2; eauto|exact Logic.I]|].
    unfold Inv, bounded. simpl. rewrite U1, U3, U4, U5, U6, U8, Ei.
    split; [exact Logic.I|]. split; [exact P|]. split; [split; assumption|]. split.
    + exists n, t0. rewrite K. auto.
    + split; [exact D|]. exists i. auto.
  - apply C; [reflexivity|]. unfold stamp, die; cbn [map goods fold_left with_phase s_now]. split; [split; [apply OK2; eauto|exact Logic.I]|].
    unfold Inv, bounded. simpl. rewrite U1, U3, U4, U5, U8, Ei.
    split; [exact Logic.I|]. split; [exact P|]. split; [split; assumption|]. split; [|reflexivity].
    exists n, t0. rewrite K. repeat split; auto; discriminate.
  - apply C; [reflexivity|]. unfold stamp, die; cbn [map goods fold_left with_phase s_now]. split; [split; [apply OK2; eauto|exact Logic.I]|].
    unfold Inv, bounded. simpl. rewrite U1, U3, U4, U5, U8, Ei.
    split; [exact Logic.I|]. split; [exact P|]. split; [split; assumption|]. split; [|reflexivity].
    exists n, t0. rewrite K. repeat split; auto; discriminate.
Qed.
Lemma step_ok s m x : Inv s m -> fine s m (lstep d s x).
Proof.
  intro HI. pose proof HI as (Q & P & B & I & Ph). pose proof (inv_time _ _ HI) as T.
  destruct x; unfold lstep.
  - (* start *)
    destruct (s_phase s) eqn:Hp; try (apply bad_ok; exact HI). destruct Ph as (Ei & D).
    assert (Mid s m) as HM by (apply inv_mid; auto; intros j Ej; congruence).
    destruct (s_queue s); [destruct init|]; try (apply begin_ok; exact HM). apply die_inv; auto.
  - apply op_ok. exact HI.
  - (* yield *)
    destruct (s_phase s) eqn:Hp; try (apply bad_ok; exact HI). destruct Ph as (D & i & Ei & K).
    rewrite Ei in I. destruct I as (n & t0 & I1 & I2 & I3). destruct (I3 D) as (J1 & J2 & J3).
    assert (~ decision (i_kind i)) as Nd by (rewrite K; nd).
    unfold fine, stamp; cbn [fst snd map fold_left goods with_phase s_now]. split.
    + split; [|exact Logic.I]. unfold okm. rewrite I1, D.
      split; [exact Logic.I|]. split; [destruct (m_last m) as [[]|]; auto; destruct Q|].
      split; [exact Logic.I|]. split; [exact Logic.I|]. split; [|discriminate].
      split; [intro Hd; destruct (Nd Hd)|discriminate].
    + unfold Inv, bounded. simpl. rewrite Ei. split; [exact Logic.I|]. split; [exact P|]. split; [exact B|].
      split; [exists n, t0; auto|]. split; [exact D|]. split; [reflexivity|]. exists i. auto.
  - (* return *)
    destruct (s_phase s) eqn:Hp; try (apply bad_ok; exact HI).
    + destruct Ph as (D & i & Ei & K). apply over_ok. apply inv_over; auto. exists i. rewrite K.
      repeat split; auto; [discriminate|]. intros [H|H]; discriminate.
    + destruct Ph as (D & Hd0 & i & Ei & K). rewrite Ei. rewrite Ei in I. destruct I as (n & t0 & I1 & I2 & I3).
      destruct (I3 D) as (J1 & J2 & J3). rewrite I1 in T.
      assert (okm m (s_now s, ODecided)) as OKo.
      { unfold okm. rewrite I1, D. split; [exact Logic.I|]. split; [destruct (m_last m) as [[]|]; auto; destruct Q|].
        split; [exact Logic.I|]. split; [exact Logic.I|]. split; [|discriminate].
        split; [intros _ _; split; [apply T; auto|exact Hd0]|contradiction]. }
      destruct (i_kind i) eqn:Ki.
      * destruct K; discriminate.
      * unfold fine, stamp; cbn [fst snd map fold_left goods with_phase s_now]. split; [split; [exact OKo|exact Logic.I]|].
        unfold Inv, bounded. simpl. rewrite Ei, Ki. split; [exact Logic.I|]. split; [exact P|]. split; [exact B|].
        split; [exists n, t0; auto|]. split; [exact D|]. split; [rewrite Hd0; reflexivity|]. split; [ring|]. exists i. auto.
      * assert (Mid s (upd m (s_now s, ODecided))) as HM.
        { unfold Mid, bounded. simpl. rewrite Ei, Ki. split; [exact D|]. split; [exact P|]. split; [exact B|]. split; [exact Logic.I|].
          exists n, t0. split; [exact I1|]. split; [exact I2|]. intros _. split; [apply T; auto|]. rewrite Hd0. reflexivity. }
        pose proof (go_on_ok _ _ HM) as F. pose proof (go_on_now s) as N. destruct (go_on d s) as [s1 o].
        unfold fine in *. cbn [fst snd] in *. unfold stamp in *. rewrite N in *. cbn [map goods fold_left].
        destruct F as [F1 F2]. split; [split; [exact OKo|exact F1]|exact F2].
      * destruct K; discriminate.
  - (* raise *)
    destruct (s_phase s) eqn:Hp; try (apply bad_ok; exact HI); apply die_inv; auto; apply Ph.
  - destruct (s_phase s) eqn:Hp; try (apply bad_ok; exact HI); apply die_inv; auto; apply Ph.
  - (* done *)
    destruct (s_phase s) eqn:Hp; try (apply bad_ok; exact HI).
    + destruct Ph as (D & Aw & i & Ei & Nd). rewrite Ei. rewrite Ei in I. destruct I as (n & t0 & I1 & I2 & I3).
      assert (i_kind i = KPlain -> fine s m (with_phase s LCode, [])) as Pl.
      { intro K. unfold fine, stamp; cbn [fst snd map fold_left goods]. split; [exact Logic.I|].
        unfold Inv, bounded. simpl. rewrite Ei. split; [exact Q|]. split; [exact P|]. split; [exact B|].
        split; [exists n, t0; auto|]. split; [exact D|]. exists i. auto. }
      destruct (i_kind i) eqn:K; try (exfalso; apply Nd; unfold decision; auto; fail); [apply Pl; reflexivity|].
      destruct planning; [|apply die_inv; auto].
      apply over_ok. apply inv_over; auto. exists i. rewrite K. repeat split; auto; [discriminate|]. intros [H|H]; discriminate.
    + destruct Ph as (D & Dc & Due & i & Ei & K). destruct (Qleb due (s_now s)).
      * assert (fine s m (over d s)) as F.
        { apply over_ok. apply inv_over; auto. exists i. rewrite K. repeat split; auto. discriminate. }
        destruct (s_inst s); exact F.
      * destruct (s_inst s); apply bad_ok; exact HI.
  - (* fail *)
    destruct (s_phase s) eqn:Hp; try (apply bad_ok; exact HI).
    destruct Ph as (D & Aw & i & Ei & Nd). rewrite Ei. destruct (i_kind i); try (apply bad_ok; exact HI); apply die_inv; auto.
  - (* interrupt *)
    destruct (s_phase s) eqn:Hp; try (apply bad_ok; exact HI).
    + destruct Ph as (D & Aw & i & Ei & Nd). rewrite Ei. apply interrupted_ok; auto.
    + destruct Ph as (D & Dc & Due & i & Ei & K). apply die_inv; auto.
  - (* advance *)
    destruct (Qltb t (s_now s)) eqn:Lt; [apply bad_ok; exact HI|]. apply Qltb_ge in Lt.
    assert ((m_dead m = false -> match s_inst s with Some i => decision (i_kind i) -> t == s_now s | None => True end) ->
      match s_phase s with LHolding due => due == t | _ => True end ->
      fine s m (mkL t (s_queue s) (s_name s) (s_inst s) (s_proc s) (s_made s) (s_phase s), [])) as G.
    { intros H1 H2. unfold fine, stamp; cbn [fst snd map fold_left goods]. split; [exact Logic.I|].
      unfold Inv, bounded. simpl. split; [exact Q|]. split; [exact P|]. split; [exact B|]. split.
      - destruct (s_inst s) as [i|]; [|exact I]. destruct I as (n & t0 & I1 & I2 & I3). exists n, t0.
        split; [exact I1|]. split; [exact I2|]. intro D. destruct (I3 D) as (J1 & J2 & J3).
        split; [exact J1|]. split; [|exact J3]. intro Hd. rewrite (H1 D Hd). auto.
      - destruct (s_phase s); auto. destruct Ph as (D & Dc & Due & X). auto. }
    destruct (s_phase s) eqn:Hp; try (apply bad_ok; exact HI).
    + apply G; [|exact Logic.I]. destruct Ph as (-> & _). auto.
    + apply G; [|exact Logic.I]. destruct Ph as (D & Aw & i & -> & Nd). intros _ Hd. destruct (Nd Hd).
    + destruct Ph as (D & Dc & Due & i & Ei & K). destruct (Qltb due t) eqn:Lt2; [apply bad_ok; exact HI|].
      apply Qltb_ge in Lt2. assert (t == s_now s) as Et by (apply Qle_antisym; [rewrite <- Due; exact Lt2|exact Lt]).
      apply G; [rewrite Ei; auto|]. rewrite Et. exact Due.
    + apply G; [|exact Logic.I]. intro D. congruence.
Qed.

(** ** Terminal tasks *)
Definition Term (s : lst) (m : sm) : Prop :=
  match m_in m with Some (_, KTerm, _) => match s_phase s with LWaiting _ | LDead _ => True | _ => False end | _ => True end.
Lemma term_kind s m : Inv s m -> forall n t0, m_in m = Some (n, KTerm, t0) -> exists i, s_inst s = Some i /\ i_kind i = KTerm.
Proof.
  intros (_ & _ & _ & I & _) n t0 E. destruct (s_inst s) as [i|].
  - destruct I as (n' & t1 & E1 & _). exists i. split; congruence.
  - destruct I as (E1 & _). congruence.
Qed.

Lemma trace_inv xs : forall s m, Inv s m -> goods okm m (snd (lrun d s xs)) /\
  Inv (fst (lrun d s xs)) (fold_left upd (snd (lrun d s xs)) m).
Proof.
  induction xs as [|x xs IH]; intros s m HI; cbn [lrun]; [split; [exact Logic.I|exact HI]|].
  destruct (step_ok s m x HI) as [F1 F2]. destruct (lstep d s x) as [s1 o]. cbn [fst snd] in F1, F2.
  specialize (IH _ _ F2). destruct (lrun d s1 xs) as [s2 l]. cbn [fst snd] in *. destruct IH as [G1 G2].
  fold (stamp s1 o). split.
  - clear G2 F2. revert m HI F1 G1. induction (stamp s1 o) as [|y ys IHy]; intros m HI F1 G1; [exact G1|].
    destruct F1 as [F1 F3]. split; [exact F1|]. cbn [fold_left] in G1. revert F3 G1. clear. revert y. generalize (upd m). intros f y.
    generalize (f y). clear. intros m F G. revert m F G. induction ys as [|z zs IH]; intros m F G; [exact G|].
    destruct F as [F1 F2]. split; [exact F1|]. apply IH; assumption.
  - rewrite fold_left_app. exact G2.
Qed.
Lemma init_inv q : Inv (linit q) sm0.
Proof. unfold Inv, bounded, linit, sm0; simpl. repeat split; auto; try lia. discriminate. Qed.

Lemma goods_at ok ys : forall m pre y post, goods ok m ys -> ys = pre ++ y :: post -> ok (fold_left upd pre m) y.
Proof.
  induction ys as [|z zs IH]; intros m pre y post G E; [destruct pre; discriminate|].
  destruct G as [G1 G2]. destruct pre as [|a pre]; injection E as -> E.
  - exact G1.
  - cbn [fold_left]. eapply IH; eauto.
Qed.
Theorem trace_ok q xs pre y post : ltrace d q xs = pre ++ y :: post -> okm (summary pre) y.
Proof.
  intro E. destruct (trace_inv xs (linit q) sm0 (init_inv q)) as [G _]. eapply goods_at; eauto.
Qed.
Theorem state_ok q xs : Inv (fst (lrun d (linit q) xs)) (summary (ltrace d q xs)).
Proof. apply (trace_inv xs (linit q) sm0 (init_inv q)). Qed.

Definition nonterm (m : sm) : Prop := match m_in m with Some (_, KTerm, _) => False | _ => True end.
Definition tfine (m : sm) (r : lst * list lout) : Prop :=
  goods okterm m (stamp (fst r) (snd r)) /\ Term (fst r) (fold_left upd (stamp (fst r) (snd r)) m).
Lemma die_term s m x : nonterm m -> tfine m (die s x).
Proof.
  unfold nonterm, tfine, die, stamp, Term, okterm; simpl. intro H.
  destruct (m_in m) as [[[n []] t]|]; auto; destruct H.
Qed.
Lemma begin_term s m t : nonterm m -> tfine m (begin_task d s t).
Proof.
  intro H. unfold begin_task. destruct (lbegin_queue _ _); [|apply die_term; exact H].
  destruct (sget _ _) as [k|]; [|apply die_term; exact H].
  unfold nonterm in H. destruct k; unfold tfine, stamp, Term, okterm; simpl; destruct (m_in m) as [[[n []] tt]|]; auto; destruct H.
Qed.
Lemma go_on_term s m : nonterm m -> tfine m (go_on d s).
Proof.
  intro H. unfold go_on. destruct (s_name s); [|apply die_term; exact H].
  destruct (sget _ _); [|apply die_term; exact H].
  destruct (s_queue s); [destruct (l_default _)|]; try (apply begin_term; exact H). apply die_term; exact H.
Qed.
Lemma cons_term m o s l : okterm m (s_now s, o) -> (forall t, nonterm (upd m (t, o))) ->
  (nonterm (upd m (s_now s, o)) -> tfine (upd m (s_now s, o)) (s, l)) -> tfine m (s, o :: l).
Proof. intros H1 H2 H3. destruct (H3 (H2 _)) as [G1 G2]. split; [split; [exact H1|exact G1]|exact G2]. Qed.
Lemma over_term s m : nonterm m -> tfine m (over d s).
Proof.
  intro H. unfold over. pose proof (fun m => go_on_term s m) as G. destruct (go_on d s) as [s1 o].
  destruct (s_proc s); cbn [app]; [|apply G; exact H].
  apply cons_term; unfold okterm, nonterm in *; simpl.
  - destruct (m_in m) as [[[n' []] tt]|]; auto.
  - intros _. exact H.
  - intro H'. apply G. exact H'.
Qed.

Lemma step_term s m x : Inv s m -> Term s m -> x <> LDone true -> tfine m (lstep d s x).
Proof.
  intros HI HT Hx.
  assert (forall s' o, s_phase s' = s_phase s -> neutral o -> tfine m (s', [o])) as Ne.
  { intros s' o E N. unfold tfine, stamp, Term, okterm in *; simpl. rewrite E.
    assert (match o with OBegin n k => Some (n, k, s_now s') | _ => m_in m end = m_in m) as -> by (destruct o; auto; destruct N).
    split; [split; [|exact Logic.I]|exact HT]. destruct (m_in m) as [[[n' []] tt]|]; auto. destruct o; auto; destruct N. }
  assert (nonterm m \/ (exists n t0 i, m_in m = Some (n, KTerm, t0) /\ s_inst s = Some i /\ i_kind i = KTerm)) as [N|(n & t0 & i & Em & Ei & K)].
  { unfold nonterm. destruct (m_in m) as [[[n []] tt]|] eqn:E; auto. right.
    destruct (term_kind s m HI n tt E) as (i & E1 & E2). exists n, tt, i. auto. }
  - assert (forall s' o, match o with OBegin _ _ => False | _ => True end -> tfine m (s', [o])) as One.
    { intros s' o H. unfold tfine, stamp, Term, okterm, nonterm in *; simpl.
      destruct o; try (destruct H; fail); destruct (m_in m) as [[[n []] tt]|]; auto; destruct N. }
    assert (forall s', tfine m (s', [])) as Nil.
    { intros s'. unfold tfine, stamp, Term, nonterm in *; simpl.
      destruct (m_in m) as [[[n []] tt]|]; auto; destruct N. }
    destruct x; unfold lstep.
    + destruct (s_phase s); try (apply One; exact Logic.I).
      destruct (s_queue s); [destruct init|]; try (apply begin_term; exact N). apply die_term; exact N.
    + destruct o; unfold do_op; try destruct (s_inst s); try destruct (s_queue s); apply One; exact Logic.I.
    + destruct (s_phase s); apply One; exact Logic.I.
    + destruct (s_phase s); try (apply One; exact Logic.I); [apply over_term; exact N|].
      destruct (s_inst s) as [i|]; [|apply One; exact Logic.I]. destruct (i_kind i); try (apply One; exact Logic.I).
      pose proof (fun m => go_on_term s m) as G. destruct (go_on d s) as [s1 o].
      apply cons_term; unfold okterm, nonterm in *; simpl.
      * destruct (m_in m) as [[[n' []] tt]|]; auto.
      * intros _. exact N.
      * intro H'. apply G. exact H'.
    + destruct (s_phase s); try (apply One; exact Logic.I); apply die_term; exact N.
    + destruct (s_phase s); try (apply One; exact Logic.I); apply die_term; exact N.
    + destruct (s_phase s); try (apply One; exact Logic.I).
      * destruct (s_inst s) as [i|]; [|apply One; exact Logic.I].
        destruct (i_kind i); try (apply Nil). destruct planning; [congruence|apply die_term; exact N].
      * destruct (s_inst s); destruct (Qleb _ _); try (apply over_term; exact N); apply One; exact Logic.I.
    + destruct (s_phase s); try (destruct (s_inst s); apply One; exact Logic.I).
      destruct (s_inst s) as [i|]; [|apply One; exact Logic.I].
      destruct (i_kind i); try (apply One; exact Logic.I); apply die_term; exact N.
    + destruct (s_phase s); try (destruct (s_inst s); apply One; exact Logic.I); try (apply die_term; exact N).
      destruct (s_inst s) as [i|]; [|apply One; exact Logic.I].
      unfold interrupted. cbv zeta. assert (forall a o, match o with OAnswer _ | OOwn _ => True | _ => False end ->
        tfine m (let '(s1, l) := match a with IEnd => over d s | IIgnore => (s, [OSame e]) | IRestart => (with_phase s LCode, [OAgain])
                                  | _ => die s DSim end in (s1, o :: l))) as G.
      { intros a o Ho. assert (forall t, nonterm (upd m (t, o))) as N2 by (intro t; unfold nonterm in *; destruct o; try (destruct Ho; fail); simpl; exact N).
        assert (forall t, okterm m (t, o)) as Ok2 by (intro t; unfold okterm, nonterm in *; destruct (m_in m) as [[[n' []] tt]|]; auto; destruct N).
        assert (forall r, (forall m', nonterm m' -> tfine m' r) -> tfine m (let '(s1, l) := r in (s1, o :: l))) as G.
        { intros [s1 l] Hr. apply cons_term; auto. }
        apply G. intros m' N'. destruct a; [apply over_term; exact N'| | |apply die_term; exact N'|apply die_term; exact N'];
          unfold tfine, stamp, Term, okterm, nonterm in *; simpl; destruct (m_in m') as [[[n' []] tt]|]; auto; destruct N'. }
      destruct (i_kind i); try (apply die_term; exact N); destruct own; apply G; exact Logic.I.
    + destruct (Qltb _ _); [apply One; exact Logic.I|]. destruct (s_phase s); try (apply One; exact Logic.I); try (apply Nil).
      destruct (Qltb _ _); [apply One; exact Logic.I|apply Nil].
  - unfold Term in HT. rewrite Em in HT.
    assert (tfine m (die s DSim)) as Di.
    { unfold tfine, die, stamp, Term, okterm; simpl. rewrite Em. auto. }
    destruct x; unfold lstep.
    + destruct (s_phase s) eqn:Hp; try (destruct HT; fail); apply Ne; auto; exact Logic.I.
    + destruct o; unfold do_op; rewrite ?Ei; try destruct (s_queue s); apply Ne; auto; exact Logic.I.
    + destruct (s_phase s) eqn:Hp; try (destruct HT; fail); apply Ne; auto; exact Logic.I.
    + destruct (s_phase s) eqn:Hp; try (destruct HT; fail); apply Ne; auto; exact Logic.I.
    + destruct (s_phase s) eqn:Hp; try (destruct HT; fail); apply Ne; auto; exact Logic.I.
    + destruct (s_phase s) eqn:Hp; try (destruct HT; fail); apply Ne; auto; exact Logic.I.
    + destruct (s_phase s) eqn:Hp; try (destruct HT; fail); try (apply Ne; auto; exact Logic.I).
      rewrite Ei, K. destruct planning; [congruence|exact Di].
    + destruct (s_phase s) eqn:Hp; try (destruct HT; fail); try (apply Ne; auto; exact Logic.I).
      rewrite Ei, K. apply Ne; auto; exact Logic.I.
    + destruct (s_phase s) eqn:Hp; try (destruct HT; fail); try (apply Ne; auto; exact Logic.I).
      rewrite Ei. unfold interrupted. rewrite K. exact Di.
    + destruct (Qltb _ _); [apply Ne; auto; exact Logic.I|]. destruct (s_phase s) eqn:Hp; try (destruct HT; fail);
      unfold tfine, stamp, Term; simpl; rewrite Em; auto.
Qed.

Lemma goods_app ok ys zs : forall m, goods ok m ys -> goods ok (fold_left upd ys m) zs -> goods ok m (ys ++ zs).
Proof.
  induction ys as [|y ys IH]; intros m F G; [exact G|]. destruct F as [F1 F2]. split; [exact F1|]. apply IH; assumption.
Qed.
Lemma trace_term xs : ~ In (LDone true) xs -> forall s m, Inv s m -> Term s m -> goods okterm m (snd (lrun d s xs)).
Proof.
  induction xs as [|x xs IH]; intros Hx s m HI HT; cbn [lrun]; [exact Logic.I|].
  destruct (step_ok s m x HI) as [F1 F2]. destruct (step_term s m x HI HT) as [T1 T2].
  { intros ->. apply Hx. left. reflexivity. }
  destruct (lstep d s x) as [s1 o]. cbn [fst snd] in *.
  assert (~ In (LDone true) xs) as Hx' by (intro H; apply Hx; right; exact H).
  specialize (IH Hx' _ _ F2 T2). destruct (lrun d s1 xs) as [s2 l]. cbn [snd] in *.
  apply goods_app; assumption.
Qed.
Theorem terminal_ok q xs pre y post : ~ In (LDone true) xs -> ltrace d q xs = pre ++ y :: post -> okterm (summary pre) y.
Proof.
  intros Hx E. pose proof (trace_term xs Hx (linit q) sm0 (init_inv q) Logic.I) as G. eapply goods_at; eauto.
Qed.
Lemma fold_term xs : ~ In (LDone true) xs -> forall s m, Inv s m -> Term s m ->
  Term (fst (lrun d s xs)) (fold_left upd (snd (lrun d s xs)) m).
Proof.
  induction xs as [|x xs IH]; intros Hx s m HI HT; cbn [lrun]; [exact HT|].
  destruct (step_ok s m x HI) as [F1 F2]. destruct (step_term s m x HI HT) as [T1 T2].
  { intros ->. apply Hx. left. reflexivity. }
  destruct (lstep d s x) as [s1 o]. cbn [fst snd] in *.
  assert (~ In (LDone true) xs) as Hx' by (intro H; apply Hx; right; exact H).
  specialize (IH Hx' _ _ F2 T2). destruct (lrun d s1 xs) as [s2 l]. cbn [fst snd] in *.
  rewrite fold_left_app. exact IH.
Qed.
End P.
