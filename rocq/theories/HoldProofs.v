(** Proofs about resource holds. *)
From Coq Require Import Sorted.
From Verif Require Import Common ActiveModel EvProofs HoldModel HoldSpec.

Definition st (s : hst) (r : nat) : option rstat := nth_error (hs_reqs s) r.
Definition ag_reqs (l : list hevent) : list nat := flat_map (fun e => match e with ARequest r => [r] | ARelease => [] end) l.
Definition n_rel (l : list hevent) : nat := length (filter (fun e => match e with ARelease => true | _ => false end) l).

Record RI (s : hst) : Prop := mkRI {
  ri_users : NoDup (hs_users s);
  ri_queue : NoDup (hs_queue s);
  ri_held : forall r, In r (hs_users s) -> st s r = Some QGranted \/ st s r = Some QProcessed;
  ri_wait : forall r, In r (hs_queue s) <-> st s r = Some QWaiting;
  ri_cap : (length (hs_users s) <= hs_cap s)%nat;
  ri_own : length (hs_own s) = length (hs_reqs s);
  ri_go : hs_queue s <> [] -> (hs_cap s <= length (hs_users s) + n_rel (hs_agenda s))%nat;
  ri_ag : forall r, st s r = Some QGranted <-> In r (ag_reqs (hs_agenda s));
  ri_nd : NoDup (ag_reqs (hs_agenda s)) }.

Lemma remove1_in r l x : NoDup l -> In x (remove1 r l) <-> In x l /\ x <> r.
Proof.
  induction l as [|y l IH]; intro N; cbn [remove1]; [simpl; tauto|]. inversion N; subst.
  destruct (Nat.eqb y r) eqn:E.
  - apply Nat.eqb_eq in E. subst. simpl. split; [intro H; split; [auto|congruence]|]. intros [[H|H] Hn]; congruence.
  - apply Nat.eqb_neq in E. simpl. rewrite IH by assumption. split; [intros [->|[]]; auto|]. intros [[H|H] Hn]; auto.
Qed.
Lemma remove1_nodup r l : NoDup l -> NoDup (remove1 r l).
Proof.
  induction l as [|y l IH]; intro N; cbn [remove1]; [constructor|]. inversion N; subst.
  destruct (Nat.eqb y r); [assumption|]. constructor; [|auto]. rewrite remove1_in by assumption. tauto.
Qed.
Lemma remove1_len r l : (length (remove1 r l) <= length l)%nat /\ (length l <= S (length (remove1 r l)))%nat.
Proof. induction l as [|y l IH]; cbn [remove1]; [simpl; lia|]. destruct (Nat.eqb y r); simpl; lia. Qed.
Lemma remove1_in_len r l : In r l -> length l = S (length (remove1 r l)).
Proof.
  induction l as [|y l IH]; [intros []|]. cbn [remove1]. destruct (Nat.eqb y r) eqn:E; [reflexivity|].
  intros [->|H]; [rewrite Nat.eqb_refl in E; discriminate|]. simpl. f_equal. apply IH. exact H.
Qed.
Lemma ag_app a b : ag_reqs (a ++ b) = ag_reqs a ++ ag_reqs b.
Proof. apply flat_map_app. Qed.
Lemma nrel_app a b : n_rel (a ++ b) = (n_rel a + n_rel b)%nat.
Proof. unfold n_rel. rewrite filter_app, app_length. reflexivity. Qed.
Lemma nodup_snoc {X} (l : list X) x : NoDup l -> ~ In x l -> NoDup (l ++ [x]).
Proof.
  induction l as [|y l IH]; intros N H; cbn; [constructor; [intros []|constructor]|]. inversion N; subst. constructor.
  - rewrite in_app_iff. intros [A|[A|[]]]; [contradiction|]. apply H. left. congruence.
  - apply IH; [assumption|]. intro A. apply H. right. exact A.
Qed.

Lemma grant_cases s : (hs_queue s = [] /\ grant s = s) \/
  (exists r q, hs_queue s = r :: q /\ (hs_cap s <= length (hs_users s))%nat /\ grant s = s) \/
  (exists r q, hs_queue s = r :: q /\ (length (hs_users s) < hs_cap s)%nat /\
     grant s = mkHS (hs_cap s) (hs_users s ++ [r]) q (upd r QGranted (hs_reqs s)) (hs_agenda s ++ [ARequest r]) (hs_holds s) (hs_own s)).
Proof.
  unfold grant. destruct (hs_queue s) as [|r q] eqn:E; [auto|]. right.
  destruct (Nat.ltb (length (hs_users s)) (hs_cap s)) eqn:El.
  - apply Nat.ltb_lt in El. right. exists r, q. auto.
  - apply Nat.ltb_ge in El. left. exists r, q. auto.
Qed.

(** The invariant without the part about waiting in vain, and with a slack of
    one grant. *)
Record RJ (s : hst) : Prop := mkRJ {
  rj_users : NoDup (hs_users s);
  rj_queue : NoDup (hs_queue s);
  rj_held : forall r, In r (hs_users s) -> st s r = Some QGranted \/ st s r = Some QProcessed;
  rj_wait : forall r, In r (hs_queue s) <-> st s r = Some QWaiting;
  rj_cap : (length (hs_users s) <= hs_cap s)%nat;
  rj_own : length (hs_own s) = length (hs_reqs s);
  rj_go : forall r r' q, hs_queue s = r :: r' :: q -> (hs_cap s <= S (length (hs_users s) + n_rel (hs_agenda s)))%nat;
  rj_ag : forall r, st s r = Some QGranted <-> In r (ag_reqs (hs_agenda s));
  rj_nd : NoDup (ag_reqs (hs_agenda s)) }.
Lemma grant_RI s : RJ s -> (forall r, hs_queue s = [r] -> (hs_cap s <= length (hs_users s))%nat \/ (length (hs_users s) < hs_cap s)%nat) -> RI (grant s).
Proof.
  intros J _. destruct J as [J1 J2 J3 J4 J5 J6 J7 J8 J9].
  destruct (grant_cases s) as [[Q ->]|[(r & q & Q & C & ->)|(r & q & Q & C & ->)]].
  - constructor; auto. congruence.
  - constructor; auto. intros _. lia.
  - assert (W : st s r = Some QWaiting) by (apply J4; rewrite Q; left; reflexivity).
    assert (ST : forall x, st (mkHS (hs_cap s) (hs_users s ++ [r]) q (upd r QGranted (hs_reqs s)) (hs_agenda s ++ [ARequest r]) (hs_holds s) (hs_own s)) x
                 = if Nat.eqb r x then Some QGranted else st s x).
    { intro x. unfold st. cbn [hs_reqs]. rewrite nth_upd. destruct (Nat.eqb r x) eqn:E; [|reflexivity].
      apply Nat.eqb_eq in E. subst. unfold st in W. rewrite W. reflexivity. }
    rewrite Q in J2. inversion J2 as [|? ? NI N2]; subst.
    assert (NU : ~ In r (hs_users s)) by (intro H; destruct (J3 r H); congruence).
    constructor; cbn [hs_users hs_queue hs_agenda hs_cap hs_own hs_reqs].
    + apply nodup_snoc; assumption.
    + assumption.
    + intros x Hx. rewrite ST. destruct (Nat.eqb r x) eqn:E; [auto|]. apply Nat.eqb_neq in E.
      apply in_app_or in Hx. destruct Hx as [Hx|[Hx|[]]]; [apply J3; exact Hx|congruence].
    + intro x. rewrite ST. destruct (Nat.eqb r x) eqn:E.
      * apply Nat.eqb_eq in E. subst x. split; [intro; contradiction|discriminate].
      * apply Nat.eqb_neq in E. rewrite <- J4, Q. simpl. intuition congruence.
    + rewrite app_length. simpl. lia.
    + rewrite upd_length. exact J6.
    + intro NE. rewrite app_length, nrel_app. simpl. destruct q as [|r' q]; [congruence|]. specialize (J7 r r' q Q). cbn. lia.
    + intro x. rewrite ST, ag_app, in_app_iff. cbn [ag_reqs flat_map app In]. destruct (Nat.eqb r x) eqn:E.
      * apply Nat.eqb_eq in E. subst x. split; [auto|reflexivity].
      * apply Nat.eqb_neq in E. rewrite J8. intuition congruence.
    + rewrite ag_app. cbn. apply nodup_snoc; [assumption|]. intro H. apply J8 in H. congruence.
Qed.

Lemma RI_RJ s : RI s -> RJ s.
Proof.
  intros [J1 J2 J3 J4 J5 J6 J7 J8 J9]. constructor; auto. intros r r' q E.
  assert (hs_queue s <> []) by congruence. specialize (J7 H). lia.
Qed.
Lemma request_RI s own : RI s -> RI (fst (request s own)).
Proof.
  intros [J1 J2 J3 J4 J5 J6 J7 J8 J9]. unfold request. cbn [fst]. apply grant_RI; [|intros; lia].
  set (n := length (hs_reqs s)).
  assert (SN : st s n = None) by (apply nth_error_None; unfold n; lia).
  assert (ST : forall x, nth_error (hs_reqs s ++ [QWaiting]) x = if Nat.eqb n x then Some QWaiting else st s x).
  { intro x. unfold st. destruct (Nat.eqb n x) eqn:E.
    - apply Nat.eqb_eq in E. subst x. unfold n. rewrite nth_error_app2, Nat.sub_diag by lia. reflexivity.
    - apply Nat.eqb_neq in E. destruct (Nat.lt_ge_cases x n) as [L|L].
      + apply nth_error_app1. exact L.
      + assert (x > n)%nat by lia. rewrite (proj2 (nth_error_None _ _)); [|rewrite app_length; simpl; unfold n in *; lia].
        symmetry. apply nth_error_None. exact L. }
  constructor; cbn [hs_users hs_queue hs_agenda hs_cap hs_own hs_reqs]; auto.
  - apply nodup_snoc; [assumption|]. intro H. apply J4 in H. congruence.
  - intros r Hr. unfold st. cbn [hs_reqs]. rewrite ST. destruct (Nat.eqb n r) eqn:E; [|apply J3; exact Hr].
    apply Nat.eqb_eq in E. subst r. destruct (J3 n Hr); congruence.
  - intro r. unfold st. cbn [hs_reqs]. rewrite ST, in_app_iff. cbn [In]. destruct (Nat.eqb n r) eqn:E.
    + apply Nat.eqb_eq in E. subst. split; auto.
    + apply Nat.eqb_neq in E. rewrite J4. intuition congruence.
  - rewrite !app_length. simpl. lia.
  - intros r r' q E. destruct (hs_queue s) as [|a l] eqn:EQ; [discriminate|]. specialize (J7 ltac:(discriminate)). lia.
  - intro r. unfold st. cbn [hs_reqs]. rewrite ST. destruct (Nat.eqb n r) eqn:E; [|apply J8].
    apply Nat.eqb_eq in E. subst r. split; [discriminate|]. intro H. apply J8 in H. congruence.
Qed.
Lemma release_RI s r : RI s -> RI (release s r).
Proof.
  intros [J1 J2 J3 J4 J5 J6 J7 J8 J9]. unfold release.
  constructor; cbn [hs_users hs_queue hs_agenda hs_cap hs_own hs_reqs]; auto.
  - apply remove1_nodup. exact J1.
  - intros x Hx. apply remove1_in in Hx; [|exact J1]. apply J3. tauto.
  - pose proof (remove1_len r (hs_users s)). lia.
  - intro NE. specialize (J7 NE). rewrite nrel_app. pose proof (remove1_len r (hs_users s)). cbn. lia.
  - intro x. rewrite ag_app. cbn. rewrite app_nil_r. apply J8.
  - rewrite ag_app. cbn. rewrite app_nil_r. exact J9.
Qed.
Lemma withdraw_RI s r : RI s -> RI (withdraw s r).
Proof.
  intros RIs. unfold withdraw. destruct (nth_error (hs_reqs s) r) as [[]|] eqn:E; try exact RIs.
  destruct RIs as [J1 J2 J3 J4 J5 J6 J7 J8 J9].
  assert (ST : forall x, nth_error (upd r QWithdrawn (hs_reqs s)) x = if Nat.eqb r x then Some QWithdrawn else st s x).
  { intro x. rewrite nth_upd. destruct (Nat.eqb r x) eqn:Ex; [|reflexivity]. apply Nat.eqb_eq in Ex. subst. rewrite E. reflexivity. }
  constructor; cbn [hs_users hs_queue hs_agenda hs_cap hs_own hs_reqs]; auto.
  - apply remove1_nodup. exact J2.
  - intros x Hx. unfold st. cbn [hs_reqs]. rewrite ST. destruct (Nat.eqb r x) eqn:Ex; [|apply J3; exact Hx].
    apply Nat.eqb_eq in Ex. subst. destruct (J3 x Hx) as [H|H]; unfold st in H; congruence.
  - intro x. unfold st. cbn [hs_reqs]. rewrite ST, remove1_in by exact J2. destruct (Nat.eqb r x) eqn:Ex.
    + apply Nat.eqb_eq in Ex. subst. split; [intros [_ H]; congruence|discriminate].
    + apply Nat.eqb_neq in Ex. rewrite J4. intuition congruence.
  - rewrite upd_length. exact J6.
  - intro NE. apply J7. intro H. rewrite H in NE. apply NE. reflexivity.
  - intro x. unfold st. cbn [hs_reqs]. rewrite ST. destruct (Nat.eqb r x) eqn:Ex; [|apply J8].
    apply Nat.eqb_eq in Ex. subst. split; [discriminate|]. intro H. apply J8 in H. unfold st in H. congruence.
Qed.
Lemma tick_RI s : RI s -> RI (fst (hstep s HTick)).
Proof.
  intros RIs. cbn [hstep]. destruct (hs_agenda s) as [|e ag] eqn:E; [exact RIs|].
  destruct RIs as [J1 J2 J3 J4 J5 J6 J7 J8 J9]. rewrite E in *. destruct e as [r|]; cbn [fst hs_cap hs_users hs_queue hs_reqs hs_agenda hs_holds hs_own].
  - assert (SR : st s r = Some QGranted) by (apply J8; left; reflexivity).
    assert (ST : forall x, nth_error (upd r QProcessed (hs_reqs s)) x = if Nat.eqb r x then Some QProcessed else st s x).
    { intro x. rewrite nth_upd. destruct (Nat.eqb r x) eqn:Ex; [|reflexivity]. apply Nat.eqb_eq in Ex. subst. unfold st in SR. rewrite SR. reflexivity. }
    cbn [ag_reqs flat_map app] in J8, J9. inversion J9 as [|? ? NI N9]; subst.
    constructor; cbn [hs_users hs_queue hs_agenda hs_cap hs_own hs_reqs]; auto.
    + intros x Hx. unfold st. cbn [hs_reqs]. rewrite ST. destruct (Nat.eqb r x); [auto|apply J3; exact Hx].
    + intro x. unfold st. cbn [hs_reqs]. rewrite ST. destruct (Nat.eqb r x) eqn:Ex; [|apply J4].
      apply Nat.eqb_eq in Ex. subst. split; [|discriminate]. intro H. apply J4 in H. congruence.
    + rewrite upd_length. exact J6.
    + intro x. unfold st. cbn [hs_reqs]. rewrite ST. destruct (Nat.eqb r x) eqn:Ex.
      * apply Nat.eqb_eq in Ex. subst. split; [discriminate|]. intro. contradiction.
      * apply Nat.eqb_neq in Ex. rewrite J8. split; [intros [H|H]; [congruence|exact H]|intro H; right; exact H].
  - apply grant_RI; [|intros; lia]. constructor; cbn [hs_users hs_queue hs_agenda hs_cap hs_own hs_reqs]; auto.
    intros r r' q Eq. assert (hs_queue s <> []) by congruence. specialize (J7 H). cbn in J7. unfold n_rel in *. lia.
Qed.

(** ** Holds *)
Definition own (s : hst) (r : nat) : option (option nat) := nth_error (hs_own s) r.
Definition good_hold (s : hst) (i : nat) (h : hold) : Prop :=
  match h_stage h with
  | SRequest => h_req h = None /\ h_rel h = false /\ forall r, own s r <> Some (Some i)
  | SRelease => h_rel h = false /\ exists r, h_req h = Some r /\ own s r = Some (Some i) /\
      (forall r', own s r' = Some (Some i) -> r' = r) /\
      (st s r = Some QGranted \/ st s r = Some QProcessed -> In r (hs_users s))
  | SCompleted => h_rel h = true /\ exists r, h_req h = Some r /\ own s r = Some (Some i) /\
      (forall r', own s r' = Some (Some i) -> r' = r) /\ ~ In r (hs_users s) /\ st s r = Some QProcessed
  end.
Definition HI (s : hst) : Prop :=
  (forall i h, nth_error (hs_holds s) i = Some h -> good_hold s i h) /\
  (forall r i, own s r = Some (Some i) -> (i < length (hs_holds s))%nat).

Lemma grant_same s : hs_holds (grant s) = hs_holds s /\ hs_own (grant s) = hs_own s /\ hs_cap (grant s) = hs_cap s /\ length (hs_reqs (grant s)) = length (hs_reqs s).
Proof.
  destruct (grant_cases s) as [[Q ->]|[(r & q & Q & C & ->)|(r & q & Q & C & ->)]]; auto. cbn. rewrite upd_length. auto.
Qed.
(** Granting: the head of the queue, a waiting request, becomes a user. *)
Lemma grant_users s r : In r (hs_users (grant s)) <-> In r (hs_users s) \/
  (exists q, hs_queue s = r :: q /\ (length (hs_users s) < hs_cap s)%nat).
Proof.
  destruct (grant_cases s) as [[Q ->]|[(x & q & Q & C & ->)|(x & q & Q & C & ->)]].
  - split; [auto|]. intros [H|(q & H & _)]; [exact H|congruence].
  - split; [auto|]. intros [H|(q' & H & L)]; [exact H|lia].
  - cbn [hs_users]. rewrite in_app_iff. simpl. split.
    + intros [H|[->|[]]]; [auto|]. right. exists q. auto.
    + intros [H|(q' & H & L)]; [auto|]. right. left. congruence.
Qed.
Lemma grant_st s : (forall r, In r (hs_queue s) -> st s r = Some QWaiting) -> forall r,
  st (grant s) r = st s r \/ (st s r = Some QWaiting /\ st (grant s) r = Some QGranted /\ In r (hs_users (grant s))).
Proof.
  intros W r. destruct (grant_cases s) as [[Q ->]|[(x & q & Q & C & ->)|(x & q & Q & C & ->)]]; auto.
  unfold st. cbn [hs_reqs hs_users]. rewrite nth_upd. destruct (Nat.eqb x r) eqn:E; [|auto]. apply Nat.eqb_eq in E. subst x.
  right. assert (S := W r). unfold st in S. rewrite Q in S. rewrite S by (left; reflexivity). split; [reflexivity|]. split; [reflexivity|].
  apply in_or_app. right. left. reflexivity.
Qed.
Lemma grant_HI s : (forall r, In r (hs_queue s) -> st s r = Some QWaiting) -> HI s -> HI (grant s).
Proof.
  intros W [H1 H2]. destruct (grant_same s) as (E1 & E2 & _). split.
  - intros i h. rewrite E1. intro Hi. specialize (H1 i h Hi). unfold good_hold, own in *. rewrite E2. destruct (h_stage h).
    + exact H1.
    + destruct H1 as (A & r & B & C & D & E). split; [exact A|]. exists r. split; [exact B|]. split; [exact C|]. split; [exact D|].
      intro S. apply grant_users. destruct (grant_st s W r) as [G|(G1 & G2 & G3)].
      * rewrite G in S. left. auto.
      * apply grant_users in G3. exact G3.
    + destruct H1 as (A & r & B & C & D & E & F). split; [exact A|]. exists r. split; [exact B|]. split; [exact C|]. split; [exact D|]. split.
      * rewrite grant_users. intros [G|(q & G & _)]; [contradiction|]. rewrite (W r) in F; [discriminate|]. rewrite G. left. reflexivity.
      * destruct (grant_st s W r) as [G|(G1 & G2 & G3)]; congruence.
  - intros r i. unfold own. rewrite E1, E2. apply H2.
Qed.
(** Changes outside the holds. *)
Lemma move_HI s s' : hs_holds s' = hs_holds s -> hs_own s' = hs_own s ->
  (forall r i, own s r = Some (Some i) -> (st s' r = st s r \/ (st s r = Some QWaiting /\ st s' r = Some QWithdrawn) \/ (st s r = Some QGranted /\ st s' r = Some QProcessed)) /\
     (In r (hs_users s') <-> In r (hs_users s))) -> HI s -> HI s'.
Proof.
  intros E1 E2 H [H1 H2]. split.
  - intros i h. rewrite E1. intro Hi. specialize (H1 i h Hi). unfold good_hold, own in *. rewrite E2. destruct (h_stage h).
    + exact H1.
    + destruct H1 as (A & r & B & C & D & E). split; [exact A|]. exists r. split; [exact B|]. split; [exact C|]. split; [exact D|].
      destruct (H r i C) as [S U]. intro G. apply U. apply E. destruct S as [S|[[S S']|[S S']]].
      * rewrite <- S. exact G.
      * rewrite S' in G. destruct G; discriminate.
      * auto.
    + destruct H1 as (A & r & B & C & D & E & F). split; [exact A|]. exists r. split; [exact B|]. split; [exact C|]. split; [exact D|].
      destruct (H r i C) as [S U]. split; [rewrite U; exact E|]. destruct S as [S|[[S S']|[S S']]]; congruence.
  - intros r i. unfold own. rewrite E1, E2. apply H2.
Qed.
Lemma withdraw_HI s r : HI s -> HI (withdraw s r).
Proof.
  intro H. unfold withdraw. destruct (nth_error (hs_reqs s) r) as [[]|] eqn:E; try exact H.
  apply (move_HI s); auto. intros x i Hx. split; [|tauto]. unfold st. cbn [hs_reqs]. rewrite nth_upd.
  destruct (Nat.eqb r x) eqn:Ex; [|auto]. apply Nat.eqb_eq in Ex. subst. rewrite E. auto.
Qed.
Lemma new_nth {X} (l : list X) x i : nth_error (l ++ [x]) i = if Nat.eqb (length l) i then Some x else nth_error l i.
Proof.
  destruct (Nat.eqb (length l) i) eqn:E.
  - apply Nat.eqb_eq in E. subst. rewrite nth_error_app2, Nat.sub_diag by lia. reflexivity.
  - apply Nat.eqb_neq in E. destruct (Nat.lt_ge_cases i (length l)) as [L|L]; [apply nth_error_app1; exact L|].
    rewrite (proj2 (nth_error_None _ _)); [|rewrite app_length; simpl; lia]. symmetry. apply nth_error_None. exact L.
Qed.

Definition before_grant (s : hst) (o : option nat) : hst :=
  mkHS (hs_cap s) (hs_users s) (hs_queue s ++ [length (hs_reqs s)]) (hs_reqs s ++ [QWaiting]) (hs_agenda s) (hs_holds s) (hs_own s ++ [o]).
Lemma before_wait s o : RI s -> forall r, In r (hs_queue (before_grant s o)) -> st (before_grant s o) r = Some QWaiting.
Proof.
  intros R r. unfold before_grant, st. cbn [hs_queue hs_reqs]. rewrite new_nth, in_app_iff. cbn [In].
  intros [H|[H|[]]].
  - destruct (Nat.eqb (length (hs_reqs s)) r); [reflexivity|]. apply (ri_wait s R). exact H.
  - rewrite H, Nat.eqb_refl. reflexivity.
Qed.

(** What a step does, for holds. *)
Theorem step_inv s o : RI s -> HI s -> RI (fst (hstep s o)) /\ HI (fst (hstep s o)).
Proof.
  intros R H. destruct o as [|i|i| | |r|r].
  - split; [destruct R; constructor; auto|]. destruct H as [H1 H2]. cbn [hstep fst]. split.
    + intros i h. cbn [hs_holds]. rewrite new_nth. destruct (Nat.eqb (length (hs_holds s)) i) eqn:E; [|apply H1].
      intro Hh. inversion Hh; subst. apply Nat.eqb_eq in E. subst i. cbn. split; [reflexivity|]. split; [reflexivity|].
      intros r Hr. apply H2 in Hr. lia.
    + intros r i Hr. cbn [hs_holds]. rewrite app_length. simpl. apply H2 in Hr. lia.
  - cbn [hstep]. destruct (nth_error (hs_holds s) i) as [h|] eqn:Eh; [|auto].
    pose proof (proj1 H i h Eh) as G. unfold good_hold in G. destruct (h_stage h) eqn:Es.
    + (* request *)
      destruct G as (G1 & G2 & G3). cbn [request fst].
      pose proof (request_RI s (Some i) R) as R1. unfold request in R1. cbn [fst] in R1. fold (before_grant s (Some i)) in R1.
      fold (before_grant s (Some i)).
      set (n := length (hs_reqs s)). set (s1 := grant (before_grant s (Some i))) in *.
      assert (W := before_wait s (Some i) R).
      destruct (grant_same (before_grant s (Some i))) as (E1 & E2 & _). fold s1 in E1, E2.
      assert (ON : own s1 n = Some (Some i)).
      { unfold own. rewrite E2. cbn [before_grant hs_own]. rewrite new_nth, (ri_own s R). fold n. rewrite Nat.eqb_refl. reflexivity. }
      assert (OO : forall x, x <> n -> own s1 x = own s x).
      { intros x Hx. unfold own. rewrite E2. cbn [before_grant hs_own]. rewrite new_nth, (ri_own s R). fold n.
        destruct (Nat.eqb n x) eqn:Ex; [apply Nat.eqb_eq in Ex; congruence|reflexivity]. }
      assert (LN : own s n = None) by (apply nth_error_None; rewrite (ri_own s R); unfold n; lia).
      split; [destruct R1; constructor; auto|]. split.
      * intros j hj. cbn [put_hold hs_holds]. rewrite nth_upd, E1. cbn [before_grant hs_holds]. destruct (Nat.eqb i j) eqn:Ej.
        -- apply Nat.eqb_eq in Ej. subst j. rewrite Eh. intro X. inversion X; subst. unfold good_hold. cbn [h_stage h_rel h_req].
           split; [reflexivity|]. exists n. split; [reflexivity|]. split; [exact ON|]. split.
           ++ intros r' Hr'. destruct (Nat.eq_dec r' n) as [|Hn]; [assumption|]. change (own s1 r' = Some (Some i)) in Hr'.
              rewrite OO in Hr' by exact Hn. exfalso. eapply G3; eauto.
           ++ change (st (put_hold s1 i (mkH SRelease (Some n) false)) n) with (st s1 n). intro S. cbn [put_hold hs_users].
              destruct (grant_st (before_grant s (Some i)) W n) as [G|(_ & _ & G)]; [|exact G].
              fold s1 in G. rewrite G in S. unfold st in S. cbn [before_grant hs_reqs] in S. rewrite new_nth in S. fold n in S.
              rewrite Nat.eqb_refl in S. destruct S; discriminate.
        -- intro Hj. assert (GJ : good_hold s1 j hj).
           { assert (GB : good_hold (before_grant s (Some i)) j hj).
             { pose proof (proj1 H j hj Hj) as GJ. apply Nat.eqb_neq in Ej. unfold good_hold in *.
               assert (OB : forall x, own (before_grant s (Some i)) x = if Nat.eqb n x then Some (Some i) else own s x).
               { intro x. unfold own. cbn [before_grant hs_own]. rewrite new_nth, (ri_own s R). reflexivity. }
               assert (SB : forall x, st (before_grant s (Some i)) x = if Nat.eqb n x then Some QWaiting else st s x).
               { intro x. unfold st. cbn [before_grant hs_reqs]. rewrite new_nth. reflexivity. }
               destruct (h_stage hj).
               - destruct GJ as (A & B & C). split; [exact A|]. split; [exact B|]. intro r. rewrite OB.
                 destruct (Nat.eqb n r); [congruence|apply C].
               - destruct GJ as (A & r & B & C & D & E). split; [exact A|]. exists r. split; [exact B|].
                 assert (NR : Nat.eqb n r = false) by (apply Nat.eqb_neq; intro; subst r; congruence).
                 rewrite OB, SB, NR. split; [exact C|]. split; [|exact E]. intro r'. rewrite OB. destruct (Nat.eqb n r'); [congruence|apply D].
               - destruct GJ as (A & r & B & C & D & E & F). split; [exact A|]. exists r. split; [exact B|].
                 assert (NR : Nat.eqb n r = false) by (apply Nat.eqb_neq; intro; subst r; congruence).
                 rewrite OB, SB, NR. split; [exact C|]. split; [|split; [exact E|exact F]]. intro r'. rewrite OB. destruct (Nat.eqb n r'); [congruence|apply D]. }
             (* granting *)
             unfold good_hold in *. assert (OE : forall x, own s1 x = own (before_grant s (Some i)) x) by (intro x; unfold own; rewrite E2; reflexivity).
             destruct (h_stage hj).
             - destruct GB as (A & B & C). split; [exact A|]. split; [exact B|]. intro r. rewrite OE. apply C.
             - destruct GB as (A & r & B & C & D & E). split; [exact A|]. exists r. split; [exact B|]. rewrite OE. split; [exact C|].
               split; [intro r'; rewrite OE; apply D|]. intro S. unfold s1. apply grant_users.
               destruct (grant_st (before_grant s (Some i)) W r) as [G|(_ & _ & G)]; [|apply grant_users in G; exact G].
               fold s1 in G. rewrite G in S. left. auto.
             - destruct GB as (A & r & B & C & D & E & F). split; [exact A|]. exists r. split; [exact B|]. rewrite OE. split; [exact C|].
               split; [intro r'; rewrite OE; apply D|]. split.
               + unfold s1. rewrite grant_users. intros [G|(q & G & _)]; [contradiction|]. rewrite (W r) in F; [discriminate|]. rewrite G. left. reflexivity.
               + destruct (grant_st (before_grant s (Some i)) W r) as [G|(G & _)]; [unfold s1; congruence|congruence]. }
           unfold good_hold in *. exact GJ.
      * intros r j Hr. cbn [put_hold hs_holds]. rewrite upd_length, E1. cbn [before_grant hs_holds].
        change (own s1 r = Some (Some j)) in Hr. destruct (Nat.eq_dec r n) as [->|Hn].
        -- assert (j = i) by congruence. subst j. apply nth_error_Some. rewrite Eh. discriminate.
        -- rewrite OO in Hr by exact Hn. eapply (proj2 H); eauto.
    + (* release *)
      destruct G as (G1 & r & G2 & G3 & G4 & G5). rewrite G2.
      destruct (nth_error (hs_reqs s) r) as [[]|] eqn:Er; try (split; assumption).
      pose proof (release_RI s r R) as R1. cbn [fst]. split; [destruct R1; constructor; auto|]. split.
      * intros j hj. cbn [put_hold hs_holds release]. rewrite nth_upd. destruct (Nat.eqb i j) eqn:Ej.
        -- apply Nat.eqb_eq in Ej. subst j. rewrite Eh. intro X. inversion X; subst. unfold good_hold. cbn [h_stage h_rel h_req].
           split; [reflexivity|]. exists r. split; [reflexivity|]. split; [exact G3|]. split; [exact G4|]. split; [|exact Er].
           cbn [put_hold release hs_users]. rewrite remove1_in by apply R. tauto.
        -- apply Nat.eqb_neq in Ej. intro Hj. pose proof (proj1 H j hj Hj) as GJ. unfold good_hold in *.
           change (own (put_hold (release s r) i (mkH SCompleted (Some r) true))) with (own s).
           change (st (put_hold (release s r) i (mkH SCompleted (Some r) true))) with (st s). cbn [put_hold release hs_users].
           destruct (h_stage hj); [exact GJ| |].
           ++ destruct GJ as (A & x & B & C & D & E). split; [exact A|]. exists x. split; [exact B|]. split; [exact C|]. split; [exact D|].
              intro S. rewrite remove1_in by apply R. split; [auto|]. intros ->. congruence.
           ++ destruct GJ as (A & x & B & C & D & E & F). split; [exact A|]. exists x. split; [exact B|]. split; [exact C|]. split; [exact D|].
              split; [|exact F]. rewrite remove1_in by apply R. tauto.
      * intros x j Hx. cbn [put_hold hs_holds release]. rewrite upd_length. eapply (proj2 H); eauto.
    + split; assumption.
  - cbn [hstep]. destruct (nth_error (hs_holds s) i) as [h|]; [|auto]. destruct (h_rel h); [auto|].
    destruct (h_req h) as [r|]; [|auto]. cbn [fst]. split; [apply withdraw_RI; exact R|apply withdraw_HI; exact H].
  - split; [apply tick_RI; exact R|]. cbn [hstep]. destruct (hs_agenda s) as [|e ag] eqn:Ea; [exact H|]. destruct e as [r|]; cbn [fst].
    + assert (SR : st s r = Some QGranted) by (apply (ri_ag s R); rewrite Ea; left; reflexivity).
      apply (move_HI s); auto. intros x i Hx. split; [|tauto]. unfold st. cbn [hs_reqs]. rewrite nth_upd.
      destruct (Nat.eqb r x) eqn:Ex; [|auto]. apply Nat.eqb_eq in Ex. subst. unfold st in SR. rewrite SR. auto.
    + apply grant_HI.
      * intros x Hx. cbn [hs_queue] in Hx. apply (ri_wait s R) in Hx. exact Hx.
      * apply (move_HI s); auto. intros x i Hx. split; [auto|tauto].
  - cbn [hstep request fst]. split; [apply (request_RI s None R)|]. fold (before_grant s None).
    apply grant_HI; [apply before_wait; exact R|]. destruct H as [H1 H2].
    set (n := length (hs_reqs s)).
    assert (OB : forall x, own (before_grant s None) x = if Nat.eqb n x then Some None else own s x).
    { intro x. unfold own. cbn [before_grant hs_own]. rewrite new_nth, (ri_own s R). reflexivity. }
    assert (SB : forall x, st (before_grant s None) x = if Nat.eqb n x then Some QWaiting else st s x).
    { intro x. unfold st. cbn [before_grant hs_reqs]. rewrite new_nth. reflexivity. }
    assert (LN : own s n = None) by (apply nth_error_None; rewrite (ri_own s R); unfold n; lia).
    split.
    + intros j hj Hj. pose proof (H1 j hj Hj) as GJ. unfold good_hold in *. destruct (h_stage hj).
      * destruct GJ as (A & B & C). split; [exact A|]. split; [exact B|]. intro r. rewrite OB. destruct (Nat.eqb n r); [congruence|apply C].
      * destruct GJ as (A & r & B & C & D & E). split; [exact A|]. exists r. split; [exact B|].
        assert (NR : Nat.eqb n r = false) by (apply Nat.eqb_neq; intro; subst r; congruence).
        rewrite OB, SB, NR. split; [exact C|]. split; [|exact E]. intro r'. rewrite OB. destruct (Nat.eqb n r'); [congruence|apply D].
      * destruct GJ as (A & r & B & C & D & E & F). split; [exact A|]. exists r. split; [exact B|].
        assert (NR : Nat.eqb n r = false) by (apply Nat.eqb_neq; intro; subst r; congruence).
        rewrite OB, SB, NR. split; [exact C|]. split; [|split; [exact E|exact F]]. intro r'. rewrite OB. destruct (Nat.eqb n r'); [congruence|apply D].
    + intros r i. rewrite OB. destruct (Nat.eqb n r); [discriminate|apply H2].
  - cbn [hstep]. unfold foreign. destruct (nth_error (hs_own s) r) as [[|]|] eqn:Eo; try (split; assumption). cbn [fst].
    split; [apply release_RI; exact R|]. apply (move_HI s); auto. intros x i Hx. split; [auto|]. cbn [release hs_users].
    rewrite remove1_in by apply R. split; [tauto|]. intro Hu. split; [exact Hu|]. intros ->. unfold own in Hx. congruence.
  - cbn [hstep]. destruct (foreign s r); [|split; assumption]. cbn [fst]. split; [apply withdraw_RI; exact R|apply withdraw_HI; exact H].
Qed.

Lemma init_inv cap : RI (hinit cap) /\ HI (hinit cap).
Proof.
  assert (S : forall r, st (hinit cap) r = None) by (intro r; unfold st; cbn; destruct r; reflexivity).
  split.
  - constructor.
    + constructor.
    + constructor.
    + intros r [].
    + intro r. rewrite S. split; [intros []|discriminate].
    + cbn. lia.
    + reflexivity.
    + intro H. exfalso; apply H; reflexivity.
    + intro r. rewrite S. split; [discriminate|intros []].
    + constructor.
  - split.
    + intros i h Hi. cbn in Hi. destruct i; discriminate.
    + intros r i Hr. unfold own in Hr. cbn in Hr. destruct r; discriminate.
Qed.
Lemma run_app s a b : hrun s (a ++ b) = let '(s1, l1) := hrun s a in let '(s2, l2) := hrun s1 b in (s2, l1 ++ l2).
Proof.
  revert s. induction a as [|o a IH]; intro s; cbn [app hrun].
  - destruct (hrun s b). reflexivity.
  - destruct (hstep s o) as [s1 x]. rewrite IH. destruct (hrun s1 a) as [s2 l1]. destruct (hrun s2 b). reflexivity.
Qed.
Lemma run_inv os s : RI s -> HI s -> RI (fst (hrun s os)) /\ HI (fst (hrun s os)).
Proof.
  revert s. induction os as [|o os IH]; intros s R H; [auto|]. cbn [hrun].
  pose proof (step_inv s o R H) as [R1 H1]. destruct (hstep s o) as [s1 a]. cbn [fst] in *.
  pose proof (IH s1 R1 H1) as I. destruct (hrun s1 os). exact I.
Qed.
Lemma reach_inv cap os : RI (fst (hrun (hinit cap) os)) /\ HI (fst (hrun (hinit cap) os)).
Proof. destruct (init_inv cap). apply run_inv; assumption. Qed.

(** ** The stages of a hold *)
Definition so_far (s : hst) (i : nat) : list move :=
  match nth_error (hs_holds s) i with
  | None => []
  | Some h => match h_stage h, h_req h with
              | SRelease, Some r => [MAcquire r]
              | SCompleted, Some r => [MAcquire r; MGiveBack r]
              | _, _ => []
              end
  end.
Lemma withdraw_holds s r : hs_holds (withdraw s r) = hs_holds s.
Proof. unfold withdraw. destruct (nth_error (hs_reqs s) r) as [[]|]; reflexivity. Qed.
Lemma so_far_same s s' i : hs_holds s' = hs_holds s -> so_far s' i = so_far s i.
Proof. intro E. unfold so_far. rewrite E. reflexivity. Qed.
Lemma step_moves s o i : RI s -> HI s ->
  so_far (fst (hstep s o)) i = so_far s i ++ moves i [(o, snd (hstep s o))].
Proof.
  intros R H. destruct o as [|j|j| | |r|r].
  - cbn [hstep fst snd moves flat_map app]. rewrite app_nil_r. unfold so_far. cbn [hs_holds]. rewrite new_nth.
    destruct (Nat.eqb (length (hs_holds s)) i) eqn:E; [|reflexivity]. apply Nat.eqb_eq in E. subst i.
    rewrite (proj2 (nth_error_None _ _)) by lia. reflexivity.
  - cbn [hstep]. destruct (nth_error (hs_holds s) j) as [h|] eqn:Eh; [|cbn; rewrite app_nil_r; reflexivity].
    pose proof (proj1 H j h Eh) as G. unfold good_hold in G. destruct (h_stage h) eqn:Es.
    + cbn [request]. fold (before_grant s (Some j)).
      destruct (grant_same (before_grant s (Some j))) as (E1 & _). cbn [fst snd].
      unfold so_far. cbn [put_hold hs_holds]. rewrite nth_upd, E1. cbn [before_grant hs_holds].
      cbn [moves flat_map]. destruct (Nat.eqb j i) eqn:E; cbn [app]; [|rewrite app_nil_r; reflexivity].
      apply Nat.eqb_eq in E. subst j. rewrite Eh. cbn [h_stage h_req]. rewrite Es. reflexivity.
    + destruct G as (G1 & r & G2 & _). rewrite G2.
      destruct (nth_error (hs_reqs s) r) as [[]|]; try (cbn; rewrite app_nil_r; reflexivity).
      cbn [fst snd]. unfold so_far. cbn [put_hold release hs_holds]. rewrite nth_upd. cbn [moves flat_map].
      destruct (Nat.eqb j i) eqn:E; cbn [app]; [|rewrite app_nil_r; reflexivity].
      apply Nat.eqb_eq in E. subst j. rewrite Eh. cbn [h_stage h_req]. rewrite Es, G2. reflexivity.
    + cbn. rewrite app_nil_r. reflexivity.
  - cbn [hstep]. destruct (nth_error (hs_holds s) j) as [h|]; [|cbn; rewrite app_nil_r; reflexivity].
    destruct (h_rel h); [cbn; rewrite app_nil_r; reflexivity|]. destruct (h_req h); cbn; rewrite app_nil_r; [|reflexivity].
    apply so_far_same, withdraw_holds.
  - cbn [hstep]. destruct (hs_agenda s) as [|[r|] ag]; cbn [fst snd moves flat_map app]; rewrite app_nil_r; try reflexivity.
    apply so_far_same. cbn [hs_cap hs_users hs_queue hs_reqs hs_holds hs_own]. rewrite (proj1 (grant_same _)). reflexivity.
  - cbn [hstep request fst snd moves flat_map app]. rewrite app_nil_r. apply so_far_same. rewrite (proj1 (grant_same _)). reflexivity.
  - cbn [hstep]. destruct (foreign s r); cbn; rewrite app_nil_r; reflexivity.
  - cbn [hstep]. destruct (foreign s r); cbn; rewrite app_nil_r; [|reflexivity]. apply so_far_same, withdraw_holds.
Qed.
Lemma run_moves os : forall s i, RI s -> HI s -> so_far (fst (hrun s os)) i = so_far s i ++ moves i (snd (hrun s os)).
Proof.
  induction os as [|o os IH]; intros s i R H; [cbn; rewrite app_nil_r; reflexivity|]. cbn [hrun].
  pose proof (step_inv s o R H) as [R1 H1]. pose proof (step_moves s o i R H) as M.
  destruct (hstep s o) as [s1 a]. cbn [fst snd] in *. specialize (IH s1 i R1 H1).
  destruct (hrun s1 os) as [s2 l]. cbn [fst snd] in *. rewrite IH, M, <- app_assoc.
  change ((o, a) :: l) with ([(o, a)] ++ l). unfold moves at 3. rewrite flat_map_app. reflexivity.
Qed.
Lemma reach_moves cap os i : so_far (fst (hrun (hinit cap) os)) i = moves i (snd (hrun (hinit cap) os)).
Proof.
  destruct (init_inv cap). rewrite (run_moves os (hinit cap) i) by assumption. unfold so_far. cbn. destruct i; reflexivity.
Qed.

(** ** The holder can give back *)
Lemma owner_hold s i r : RI s -> HI s -> own s r = Some (Some i) -> exists h, nth_error (hs_holds s) i = Some h /\ h_req h = Some r /\
  (h_stage h = SRelease \/ (h_stage h = SCompleted /\ ~ In r (hs_users s))).
Proof.
  intros R [H1 H2] O. pose proof (H2 r i O) as L. destruct (nth_error (hs_holds s) i) as [h|] eqn:Eh; [|apply nth_error_None in Eh; lia].
  exists h. split; [reflexivity|]. specialize (H1 i h Eh). unfold good_hold in H1. destruct (h_stage h).
  - destruct H1 as (_ & _ & H1). exfalso. eapply H1; eauto.
  - destruct H1 as (_ & x & A & B & C & D). rewrite (C r O). auto.
  - destruct H1 as (_ & x & A & B & C & D & E). rewrite (C r O). auto.
Qed.
Lemma holds_on_hold s i r : RI s -> HI s -> holds_on s i r -> exists h, nth_error (hs_holds s) i = Some h /\ h_req h = Some r /\ h_stage h = SRelease.
Proof. intros R H [U O]. destruct (owner_hold s i r R H O) as (h & A & B & [C|[C D]]); [exists h; auto|contradiction]. Qed.
Lemma tick_keeps s i r : holds_on s i r -> holds_on (fst (hstep s HTick)) i r.
Proof.
  intros [U O]. cbn [hstep]. destruct (hs_agenda s) as [|[x|] ag]; cbn [fst]; [split; assumption|split; assumption|].
  split.
  - apply grant_users. left. exact U.
  - rewrite (proj1 (proj2 (grant_same _))). exact O.
Qed.
Lemma tick_processed s r : st s r = Some QProcessed -> RI s -> st (fst (hstep s HTick)) r = Some QProcessed.
Proof.
  intros S R. cbn [hstep]. destruct (hs_agenda s) as [|[x|] ag] eqn:E; cbn [fst]; [exact S| |].
  - unfold st. cbn [hs_reqs]. rewrite nth_upd. unfold st in S. rewrite S. destruct (Nat.eqb x r); reflexivity.
  - cbn [hs_cap hs_users hs_queue hs_reqs hs_holds hs_own].
    set (s1 := mkHS (hs_cap s) (hs_users s) (hs_queue s) (hs_reqs s) ag (hs_holds s) (hs_own s)).
    destruct (grant_st s1) with (r := r) as [G|(G & _)].
    + intros x Hx. apply (ri_wait s R). exact Hx.
    + rewrite G. exact S.
    + change (st s r = Some QWaiting) in G. congruence.
Qed.
Lemma tick_agenda s e ag : hs_agenda s = e :: ag -> exists more, hs_agenda (fst (hstep s HTick)) = ag ++ more.
Proof.
  intro E. cbn [hstep]. rewrite E. destruct e as [r|]; cbn [fst hs_agenda]; [exists []; rewrite app_nil_r; reflexivity|].
  cbn [hs_cap hs_users hs_queue hs_reqs hs_holds hs_own].
  set (s1 := mkHS (hs_cap s) (hs_users s) (hs_queue s) (hs_reqs s) ag (hs_holds s) (hs_own s)).
  destruct (grant_cases s1) as [[Q ->]|[(x & q & Q & C & ->)|(x & q & Q & C & ->)]]; try (exists []; rewrite app_nil_r; reflexivity).
  exists [ARequest x]. reflexivity.
Qed.
Lemma ag_split l r : In r (ag_reqs l) -> exists a b, l = a ++ ARequest r :: b.
Proof.
  induction l as [|e l IH]; [intros []|]. destruct e as [x|]; cbn [ag_reqs flat_map app].
  - intros [->|H]; [exists [], l; reflexivity|]. destruct (IH H) as (a & b & ->). exists (ARequest x :: a), b. reflexivity.
  - intro H. destruct (IH H) as (a & b & ->). exists (ARelease :: a), b. reflexivity.
Qed.
Lemma ticks_process : forall pre s r post i, RI s -> HI s -> hs_agenda s = pre ++ ARequest r :: post -> holds_on s i r ->
  let s' := fst (hrun s (ticks (S (length pre)))) in RI s' /\ HI s' /\ holds_on s' i r /\ st s' r = Some QProcessed.
Proof.
  induction pre as [|e pre IH]; intros s r post i R H E O.
  - cbn [length ticks hrun]. pose proof (step_inv s HTick R H) as [R1 H1]. pose proof (tick_keeps s i r O) as O1.
    destruct (hstep s HTick) as [s1 a] eqn:Es. cbn [fst] in *. split; [exact R1|]. split; [exact H1|]. split; [exact O1|].
    cbn [hstep] in Es. cbn [app] in E.
    assert (SR : st s r = Some QGranted) by (apply (ri_ag s R); rewrite E; left; reflexivity).
    rewrite E in Es. inversion Es; subst. unfold st. cbn [hs_reqs].
    rewrite nth_upd, Nat.eqb_refl. unfold st in SR. rewrite SR. reflexivity.
  - cbn [length]. change (ticks (S (S (length pre)))) with (HTick :: ticks (S (length pre))). cbn [hrun].
    pose proof (step_inv s HTick R H) as [R1 H1]. pose proof (tick_keeps s i r O) as O1.
    destruct (tick_agenda s e _ E) as [more M]. rewrite <- app_assoc in M. cbn [app] in M.
    destruct (hstep s HTick) as [s1 a]. cbn [fst] in *. specialize (IH s1 r _ i R1 H1 M O1). cbn zeta in IH.
    destruct (hrun s1 (ticks (S (length pre)))) as [s2 l]. exact IH.
Qed.
Lemma yield_releases s i r : RI s -> HI s -> holds_on s i r -> st s r = Some QProcessed ->
  snd (hstep s (HYield i)) = HReleased r /\ ~ In r (hs_users (fst (hstep s (HYield i)))) /\
  (forall x, x <> r -> In x (hs_users (fst (hstep s (HYield i)))) <-> In x (hs_users s)) /\
  length (hs_users s) = S (length (hs_users (fst (hstep s (HYield i))))).
Proof.
  intros R H O S. destruct (holds_on_hold s i r R H O) as (h & A & B & C). cbn [hstep]. rewrite A, C, B.
  unfold st in S. rewrite S. cbn [fst snd put_hold release hs_users]. split; [reflexivity|]. split; [|split].
  - rewrite remove1_in by apply R. tauto.
  - intros x Hx. rewrite remove1_in by apply R. tauto.
  - apply remove1_in_len. apply O.
Qed.

(** ** Withdrawn requests *)
Lemma grant_withdrawn s r : (forall x, In x (hs_queue s) -> st s x = Some QWaiting) -> st s r = Some QWithdrawn -> st (grant s) r = Some QWithdrawn.
Proof. intros W S. destruct (grant_st s W r) as [G|(G & _)]; congruence. Qed.
Lemma withdrawn_stays s o r : RI s -> st s r = Some QWithdrawn -> st (fst (hstep s o)) r = Some QWithdrawn.
Proof.
  intros R S.
  assert (L : (r < length (hs_reqs s))%nat) by (apply nth_error_Some; unfold st in S; rewrite S; discriminate).
  assert (WD : forall x, st (withdraw s x) r = Some QWithdrawn).
  { intro x. unfold withdraw. destruct (nth_error (hs_reqs s) x) as [[]|] eqn:E; try exact S. unfold st. cbn [hs_reqs].
    rewrite nth_upd. destruct (Nat.eqb x r); [|exact S]. unfold st in S. rewrite S. reflexivity. }
  assert (RQ : forall ow, st (grant (before_grant s ow)) r = Some QWithdrawn).
  { intro ow. apply grant_withdrawn; [apply before_wait; exact R|]. unfold st. cbn [before_grant hs_reqs]. rewrite new_nth.
    destruct (Nat.eqb (length (hs_reqs s)) r) eqn:E; [apply Nat.eqb_eq in E; lia|exact S]. }
  destruct o as [|i|i| | |x|x]; cbn [hstep].
  - exact S.
  - destruct (nth_error (hs_holds s) i) as [h|]; [|exact S]. destruct (h_stage h); [exact (RQ (Some i))| |exact S].
    destruct (h_req h) as [y|]; [|exact S]. destruct (nth_error (hs_reqs s) y) as [[]|]; exact S.
  - destruct (nth_error (hs_holds s) i) as [h|]; [|exact S]. destruct (h_rel h); [exact S|]. destruct (h_req h); [apply WD|exact S].
  - destruct (hs_agenda s) as [|[x|] ag] eqn:E; cbn [fst]; [exact S| |].
    + unfold st. cbn [hs_reqs]. rewrite nth_upd. destruct (Nat.eqb x r) eqn:Ex; [|exact S]. apply Nat.eqb_eq in Ex. subst x.
      assert (st s r = Some QGranted) by (apply (ri_ag s R); rewrite E; left; reflexivity). congruence.
    + apply grant_withdrawn; [|exact S]. intros y Hy. apply (ri_wait s R) in Hy. exact Hy.
  - exact (RQ None).
  - destruct (foreign s x); exact S.
  - destruct (foreign s x); [apply WD|exact S].
Qed.
Lemma run_withdrawn os : forall s r, RI s -> HI s -> st s r = Some QWithdrawn -> st (fst (hrun s os)) r = Some QWithdrawn.
Proof.
  induction os as [|o os IH]; intros s r R H S; [exact S|]. cbn [hrun].
  pose proof (step_inv s o R H) as [R1 H1]. pose proof (withdrawn_stays s o r R S) as S1.
  destruct (hstep s o) as [s1 a]. cbn [fst] in *. specialize (IH s1 r R1 H1 S1). destruct (hrun s1 os). exact IH.
Qed.
(** A hold whose request was withdrawn stays in its second stage. *)
Lemma stuck_step s i r h : RI s -> HI s -> nth_error (hs_holds s) i = Some h -> h_stage h = SRelease -> h_req h = Some r ->
  st s r = Some QWithdrawn -> forall o, nth_error (hs_holds (fst (hstep s o))) i = Some h /\
  (o = HYield i -> snd (hstep s o) = HSimErr).
Proof.
  intros R H A B C S o. assert (L : (i < length (hs_holds s))%nat) by (apply nth_error_Some; rewrite A; discriminate).
  destruct o as [|j|j| | |x|x]; cbn [hstep].
  - split; [|discriminate]. cbn [fst hs_holds]. rewrite nth_error_app1 by exact L. exact A.
  - destruct (Nat.eq_dec j i) as [->|N].
    + rewrite A, B, C. unfold st in S. rewrite S. auto.
    + split; [|intro E; inversion E; congruence]. assert (NE : Nat.eqb j i = false) by (apply Nat.eqb_neq; exact N).
      destruct (nth_error (hs_holds s) j) as [h'|]; [|exact A]. destruct (h_stage h').
      * cbn [request fst put_hold hs_holds]. rewrite nth_upd, NE, (proj1 (grant_same _)). exact A.
      * destruct (h_req h') as [y|]; [|exact A]. destruct (nth_error (hs_reqs s) y) as [[]|]; try exact A.
        cbn [fst put_hold release hs_holds]. rewrite nth_upd, NE. exact A.
      * exact A.
  - split; [|discriminate]. destruct (nth_error (hs_holds s) j) as [h'|]; [|exact A]. destruct (h_rel h'); [exact A|].
    destruct (h_req h'); [|exact A]. cbn [fst]. rewrite withdraw_holds. exact A.
  - split; [|discriminate]. destruct (hs_agenda s) as [|[x|] ag]; cbn [fst]; [exact A|exact A|]. rewrite (proj1 (grant_same _)). exact A.
  - split; [|discriminate]. cbn [request fst]. rewrite (proj1 (grant_same _)). exact A.
  - split; [|discriminate]. destruct (foreign s x); exact A.
  - split; [|discriminate]. destruct (foreign s x); [|exact A]. cbn [fst]. rewrite withdraw_holds. exact A.
Qed.
Lemma stuck_run os : forall s i r h, RI s -> HI s -> nth_error (hs_holds s) i = Some h -> h_stage h = SRelease -> h_req h = Some r ->
  st s r = Some QWithdrawn -> snd (hstep (fst (hrun s os)) (HYield i)) = HSimErr.
Proof.
  induction os as [|o os IH]; intros s i r h R H A B C S.
  - apply (stuck_step s i r h R H A B C S (HYield i)). reflexivity.
  - cbn [hrun]. pose proof (step_inv s o R H) as [R1 H1]. pose proof (withdrawn_stays s o r R S) as S1.
    destruct (stuck_step s i r h R H A B C S o) as [A1 _].
    destruct (hstep s o) as [s1 a]. cbn [fst] in *. specialize (IH s1 i r h R1 H1 A1 B C S1). destruct (hrun s1 os). exact IH.
Qed.

(** ** Requests are served in the order they were made *)
Record FI (s : hst) : Prop := mkFI {
  fi_sorted : StronglySorted lt (hs_queue s);
  fi_before : forall g q, st s g = Some QGranted \/ st s g = Some QProcessed -> In q (hs_queue s) -> (g < q)%nat }.
Lemma grant_FI s : (forall r, In r (hs_queue s) <-> st s r = Some QWaiting) -> FI s -> FI (grant s).
Proof.
  intros W [F1 F2]. destruct (grant_cases s) as [[Q ->]|[(r & q & Q & C & ->)|(r & q & Q & C & ->)]]; [constructor; auto|constructor; auto|].
  rewrite Q in F1. inversion F1 as [|? ? F3 F4]; subst. constructor; cbn [hs_queue]; [exact F3|].
  intros g x G Hx. unfold st in G. cbn [hs_reqs] in G. rewrite nth_upd in G. destruct (Nat.eqb r g) eqn:E.
  - apply Nat.eqb_eq in E. subst g. rewrite Forall_forall in F4. apply F4. exact Hx.
  - apply F2; [exact G|]. rewrite Q. right. exact Hx.
Qed.
Lemma sorted_snoc l n : StronglySorted lt l -> Forall (fun x => (x < n)%nat) l -> StronglySorted lt (l ++ [n]).
Proof.
  induction 1 as [|x l H IH Fx]; intro Fn; cbn [app]; [constructor; constructor|]. inversion Fn; subst. constructor; [auto|].
  apply Forall_app. split; [exact Fx|]. constructor; [assumption|constructor].
Qed.
Lemma sorted_remove r l : StronglySorted lt l -> StronglySorted lt (remove1 r l).
Proof.
  induction 1 as [|x l H IH Fx]; cbn [remove1]; [constructor|]. destruct (Nat.eqb x r); [exact H|]. constructor; [exact IH|].
  clear - Fx. induction l as [|y l IH]; cbn [remove1]; [constructor|]. inversion Fx; subst. destruct (Nat.eqb y r); [assumption|]. constructor; auto.
Qed.
Lemma request_FI s o : RI s -> FI s -> FI (grant (before_grant s o)).
Proof.
  intros R [F1 F2]. apply grant_FI.
  - intro r. unfold st. cbn [before_grant hs_queue hs_reqs]. rewrite new_nth, in_app_iff. cbn [In].
    destruct (Nat.eqb (length (hs_reqs s)) r) eqn:E.
    + apply Nat.eqb_eq in E. subst. split; auto.
    + apply Nat.eqb_neq in E. rewrite (ri_wait s R). unfold st. intuition congruence.
  - assert (LT : forall x y, st s x = Some y -> (x < length (hs_reqs s))%nat) by (intros x y Hx; apply nth_error_Some; unfold st in Hx; congruence).
    constructor; cbn [before_grant hs_queue].
    + apply sorted_snoc; [exact F1|]. rewrite Forall_forall. intros x Hx. apply (ri_wait s R) in Hx. eapply LT; eauto.
    + intros g q G Hq. unfold st in G. cbn [before_grant hs_reqs] in G. rewrite new_nth in G.
      destruct (Nat.eqb (length (hs_reqs s)) g); [destruct G; discriminate|]. apply in_app_or in Hq. destruct Hq as [Hq|[<-|[]]]; [auto|].
      destruct G as [G|G]; eapply LT; exact G.
Qed.
Lemma withdraw_FI s r : RI s -> FI s -> FI (withdraw s r).
Proof.
  intros R F. unfold withdraw. destruct (nth_error (hs_reqs s) r) as [[]|] eqn:E; try exact F. destruct F as [F1 F2].
  constructor; cbn [hs_queue]; [apply sorted_remove; exact F1|]. intros g q G Hq. apply remove1_in in Hq; [|apply R].
  unfold st in G. cbn [hs_reqs] in G. rewrite nth_upd in G. destruct (Nat.eqb r g) eqn:Eg.
  - apply Nat.eqb_eq in Eg. subst g. rewrite E in G. destruct G; discriminate.
  - apply F2; [exact G|]. tauto.
Qed.
Lemma step_FI s o : RI s -> FI s -> FI (fst (hstep s o)).
Proof.
  intros R F. destruct o as [|i|i| | |r|r]; cbn [hstep].
  - destruct F; constructor; auto.
  - destruct (nth_error (hs_holds s) i) as [h|]; [|exact F]. destruct (h_stage h); [| |exact F].
    + cbn [request fst]. fold (before_grant s (Some i)). destruct (request_FI s (Some i) R F). constructor; auto.
    + destruct (h_req h) as [r|]; [|exact F]. destruct (nth_error (hs_reqs s) r) as [[]|]; try exact F. destruct F; constructor; auto.
  - destruct (nth_error (hs_holds s) i) as [h|]; [|exact F]. destruct (h_rel h); [exact F|]. destruct (h_req h); [|exact F]. apply withdraw_FI; assumption.
  - destruct (hs_agenda s) as [|[r|] ag] eqn:E; cbn [fst]; [exact F| |].
    + assert (SR : st s r = Some QGranted) by (apply (ri_ag s R); rewrite E; left; reflexivity).
      destruct F as [F1 F2]. constructor; cbn [hs_queue]; [exact F1|]. intros g q G Hq. unfold st in G. cbn [hs_reqs] in G. rewrite nth_upd in G.
      destruct (Nat.eqb r g) eqn:Eg; [apply Nat.eqb_eq in Eg; subst g; auto|auto].
    + apply grant_FI; [apply R|]. destruct F; constructor; auto.
  - apply (request_FI s None R F).
  - destruct (foreign s r); [|exact F]. destruct F; constructor; auto.
  - destruct (foreign s r); [|exact F]. apply withdraw_FI; assumption.
Qed.
Lemma run_FI os : forall s, RI s -> HI s -> FI s -> FI (fst (hrun s os)).
Proof.
  induction os as [|o os IH]; intros s R H F; [exact F|]. cbn [hrun]. pose proof (step_inv s o R H) as [R1 H1].
  pose proof (step_FI s o R F) as F1. destruct (hstep s o) as [s1 a]. cbn [fst] in *. specialize (IH s1 R1 H1 F1). destruct (hrun s1 os). exact IH.
Qed.
Lemma reach_FI cap os : FI (fst (hrun (hinit cap) os)).
Proof.
  destruct (init_inv cap). apply run_FI; [assumption|assumption|]. constructor; [constructor|intros g q _ []].
Qed.
