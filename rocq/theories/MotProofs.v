(** Proofs about the sensor motion manager. *)
From Coq Require Import FinFun.
From Verif Require Import Common MotModel MotSpec.

(** ** Lists *)
Lemma increasing_app : forall a b, increasing (a ++ b) <->
  increasing a /\ increasing b /\ (forall x y, In x a -> In y b -> fst x < fst y).
Proof.
  induction a as [|x a IH]; intro b.
  - cbn [app increasing]. split; [intro H; repeat split; auto; intros ? ? []|tauto].
  - change ((x :: a) ++ b) with (x :: (a ++ b)). cbn [increasing]. rewrite IH. split.
    + intros [H1 [H2 [H3 H4]]]. repeat split; auto.
      * intros y Hy. apply H1, in_app_iff. left. exact Hy.
      * intros u y [Hu|Hu] Hy; [subst; apply H1, in_app_iff; right; exact Hy|apply H4; auto].
    + intros [[H1 H2] [H3 H4]]. repeat split; auto.
      * intros y Hy. apply in_app_iff in Hy. destruct Hy as [Hy|Hy]; [apply H1; exact Hy|apply H4; [left; reflexivity|exact Hy]].
      * intros u y Hu Hy. apply H4; [right; exact Hu|exact Hy].
Qed.
Lemma put_at_same : forall {X} i (y : X) l x, nth_error l i = Some x -> nth_error (put_at i y l) i = Some y.
Proof.
  intros X. induction i as [|i IH]; intros y [|z l] x H; try discriminate; [reflexivity|].
  cbn [put_at nth_error] in *. eapply IH. exact H.
Qed.
Lemma put_at_other : forall {X} i j (y : X) l, i <> j -> nth_error (put_at i y l) j = nth_error l j.
Proof.
  intros X. induction i as [|i IH]; intros j y [|z l] H; try reflexivity.
  - destruct j; [congruence|reflexivity].
  - destruct j; [reflexivity|]. cbn [put_at nth_error]. apply IH. congruence.
Qed.
Lemma put_at_length : forall {X} i (y : X) l, List.length (put_at i y l) = List.length l.
Proof. intros X. induction i as [|i IH]; intros y [|z l]; try reflexivity. cbn [put_at List.length]. rewrite IH. reflexivity. Qed.
Lemma put_at_in : forall {X} i (y : X) l z, In z (put_at i y l) -> z = y \/ In z l.
Proof.
  intros X. induction i as [|i IH]; intros y [|w l] z H; cbn [put_at] in H; auto.
  - destruct H as [H|H]; [left; auto|right; right; exact H].
  - destruct H as [H|H]; [right; left; exact H|]. destruct (IH _ _ _ H) as [E|E]; [left; exact E|right; right; exact E].
Qed.
Lemma mget_mset : forall {X} n m (x : X) d, mget m (mset n x d) = if Nat.eqb n m then Some x else mget m d.
Proof.
  intros X n m x. induction d as [|[k y] d IH]; cbn [mset mget].
  - destruct (Nat.eqb n m); reflexivity.
  - destruct (Nat.eqb k n) eqn:E; cbn [mget].
    + apply Nat.eqb_eq in E. subst k. destruct (Nat.eqb n m); reflexivity.
    + rewrite IH. destruct (Nat.eqb k m) eqn:F; [|reflexivity].
      destruct (Nat.eqb n m) eqn:G; [|reflexivity]. apply Nat.eqb_eq in F, G. subst. rewrite Nat.eqb_refl in E. discriminate.
Qed.
Lemma mget_mdel : forall {X} n m (d : list (nat * X)), mget m (mdel n d) = if Nat.eqb n m then None else mget m d.
Proof.
  intros X n m. induction d as [|[k y] d IH]; cbn [mdel filter mget fst].
  - destruct (Nat.eqb n m); reflexivity.
  - fold (mdel n d). destruct (Nat.eqb k n) eqn:E; cbn [negb mget].
    + rewrite IH. apply Nat.eqb_eq in E. subst k. destruct (Nat.eqb n m); reflexivity.
    + rewrite IH. destruct (Nat.eqb k m) eqn:F; [|reflexivity].
      destruct (Nat.eqb n m) eqn:G; [|reflexivity]. apply Nat.eqb_eq in F, G. subst. rewrite Nat.eqb_refl in E. discriminate.
Qed.
Lemma mget_none : forall {X} m (d : list (nat * X)), mget m d = None <-> ~ In m (map fst d).
Proof.
  intros X m. induction d as [|[k y] d IH]; cbn [mget map fst In]; [tauto|].
  destruct (Nat.eqb k m) eqn:E.
  - apply Nat.eqb_eq in E. split; [discriminate|]. intro H. exfalso. apply H. left. exact E.
  - apply Nat.eqb_neq in E. rewrite IH. tauto.
Qed.
Lemma mset_keys : forall {X} n (x : X) d, map fst (mset n x d) = if existsb (fun k => Nat.eqb k n) (map fst d) then map fst d else map fst d ++ [n].
Proof.
  intros X n x. induction d as [|[k y] d IH]; [reflexivity|]. cbn [mset map fst existsb].
  destruct (Nat.eqb k n) eqn:E; cbn [map fst orb].
  - reflexivity.
  - rewrite IH. destruct (existsb _ _); reflexivity.
Qed.
Lemma nodup_snoc' : forall {X} (l : list X) a, NoDup l -> ~ In a l -> NoDup (l ++ [a]).
Proof.
  intros X. induction l as [|b l IH]; intros a N H; [constructor; [intros []|constructor]|].
  inversion N as [|? ? Hb Nl]; subst. cbn [app]. constructor.
  - intro X0. apply in_app_iff in X0. destruct X0 as [X0|[X0|[]]]; [auto|]. subst. apply H. left. reflexivity.
  - apply IH; auto. intro X0. apply H. right. exact X0.
Qed.
Lemma mset_nodup : forall {X} n (x : X) d, NoDup (map fst d) -> NoDup (map fst (mset n x d)).
Proof.
  intros X n x d N. rewrite mset_keys. destruct (existsb _ _) eqn:E; [exact N|].
  apply nodup_snoc'; [exact N|]. intro H. assert (existsb (fun k => Nat.eqb k n) (map fst d) = true).
  { apply existsb_exists. exists n. split; [exact H|apply Nat.eqb_refl]. } congruence.
Qed.
Lemma mdel_nodup : forall {X} n (d : list (nat * X)), NoDup (map fst d) -> NoDup (map fst (mdel n d)).
Proof.
  intros X n. induction d as [|[k y] d IH]; intro N; [constructor|]. inversion N as [|? ? Hk Nd]; subst.
  unfold mdel. cbn [filter fst]. fold (mdel n d). destruct (Nat.eqb k n); cbn [negb]; [auto|].
  cbn [map fst]. constructor; [|auto]. intro H. apply Hk. apply in_map_iff in H. destruct H as [z [Ez Hz]].
  apply filter_In in Hz. apply in_map_iff. exists z. split; [exact Ez|apply Hz].
Qed.
Lemma mget_in : forall {X} m (x : X) d, mget m d = Some x -> In (m, x) d.
Proof.
  intros X m x. induction d as [|[k y] d IH]; [discriminate|]. cbn [mget]. destruct (Nat.eqb k m) eqn:E.
  - intro H. inversion H; subst. apply Nat.eqb_eq in E. subst. left. reflexivity.
  - intro H. right. auto.
Qed.
Lemma memn_in : forall k l, memn k l = true <-> In k l.
Proof.
  intros k l. unfold memn. rewrite existsb_exists. split.
  - intros [x [Hx E]]. apply Nat.eqb_eq in E. subst. exact Hx.
  - intro H. exists k. split; [exact H|apply Nat.eqb_refl].
Qed.
Lemma pair_eqb_eq : forall a b, pair_eqb a b = true <-> a = b.
Proof.
  intros [a1 a2] [b1 b2]. unfold pair_eqb. cbn [fst snd].
  rewrite andb_true_iff, !Nat.eqb_eq. split; [intros [-> ->]; reflexivity|intro H; inversion H; auto].
Qed.
Lemma viewed_in : forall v m s, viewed v m s = true <-> In (m, s) v.
Proof.
  intros v s d. unfold viewed. rewrite existsb_exists. split.
  - intros [x [Hx E]]. apply pair_eqb_eq in E. subst. exact Hx.
  - intro H. exists (s, d). split; [exact H|]. apply pair_eqb_eq. reflexivity.
Qed.
Lemma viewed_filter : forall f v s d, viewed (filter f v) s d = viewed v s d && f (s, d).
Proof.
  intros f v s d. destruct (viewed (filter f v) s d) eqn:E.
  - apply viewed_in, filter_In in E. destruct E as [E F]. apply viewed_in in E. rewrite E, F. reflexivity.
  - destruct (viewed v s d) eqn:F; [|reflexivity]. cbn [andb].
    destruct (f (s, d)) eqn:G; [|reflexivity]. assert (viewed (filter f v) s d = true); [|congruence].
    apply viewed_in, filter_In. split; [apply viewed_in; exact F|exact G].
Qed.
Lemma viewed_add : forall v m s m' s', viewed (add_to_view v m s) m' s' = pair_eqb (m, s) (m', s') || viewed v m' s'.
Proof.
  intros. unfold add_to_view. destruct (viewed v m s) eqn:E.
  - destruct (pair_eqb (m, s) (m', s')) eqn:F; [|reflexivity]. apply pair_eqb_eq in F. inversion F; subst. exact E.
  - unfold viewed. rewrite existsb_app. cbn [existsb]. rewrite orb_false_r.
    replace (pair_eqb (m', s') (m, s)) with (pair_eqb (m, s) (m', s')); [apply orb_comm|].
    unfold pair_eqb. cbn [fst snd]. rewrite (Nat.eqb_sym m), (Nat.eqb_sym s). reflexivity.
Qed.
Lemma viewed_unview : forall v m s m' s', viewed (unview v m s) m' s' = viewed v m' s' && negb (pair_eqb (m, s) (m', s')).
Proof. intros. unfold unview. apply viewed_filter. Qed.
Lemma add_nodup : forall v m s, NoDup v -> NoDup (add_to_view v m s).
Proof.
  intros v m s N. unfold add_to_view. destruct (viewed v m s) eqn:E; [exact N|].
  apply nodup_snoc'; [exact N|]. intro H. apply viewed_in in H. congruence.
Qed.
Lemma told_app : forall s d l1 l2, told s d (l1 ++ l2) = told s d l1 ++ told s d l2.
Proof.
  intros s d. induction l1 as [|[t o] l1 IH]; intro l2; [reflexivity|].
  destruct o; cbn [app told]; try (destruct (_ && _)); cbn [app]; rewrite IH; reflexivity.
Qed.
Lemma same_refl : forall l, same l l.
Proof. induction l; constructor; auto. split; [apply Qeq_refl|reflexivity]. Qed.
Lemma same_app : forall a b c d, same a b -> same c d -> same (a ++ c) (b ++ d).
Proof. intros. apply Forall2_app; assumption. Qed.
Lemma same_sym : forall a b, same a b -> same b a.
Proof. intros a b H. induction H as [|x y a b [H1 H2] H IH]; constructor; auto. split; [symmetry; exact H1|auto]. Qed.
Lemma same_trans : forall a b c, same a b -> same b c -> same a c.
Proof.
  intros a b c H. revert c. induction H as [|x y a b [H1 H2] H IH]; intros c K; inversion K as [|? z ? c' [K1 K2] K']; subst; constructor.
  - split; [rewrite H1; exact K1|congruence].
  - apply IH. exact K'.
Qed.
Lemma same_alternates : forall a b n, same a b -> alternates n a -> alternates n b.
Proof.
  intros a b n H. revert n. induction H as [|x y a b [H1 H2] H IH]; intros n K; [exact I|].
  destruct K as [K1 K2]. split; [congruence|apply IH; exact K2].
Qed.

(** ** What is still to be told *)
Section P.
Variable L : Type.
Variable intersection : L -> L -> Q -> L -> Q -> res (list (Q * kind) * Q).
Notation st := (st L).
Notation step := (step L intersection).
Notation run := (run L intersection).

Definition doomed (x : st) (i : nat) : bool :=
  existsb (fun u => match u with UInterrupt j => Nat.eqb i j | _ => false end) (urgent L x).
Definition exit_of (p : proc) : list (Q * bool) := if kind_eqb (p_k2 p) EXIT then [(p_t2 p, false)] else [].
Definition at_once (now : Q) (p : proc) : bool := kind_eqb (p_k1 p) START_INSIDE || Qleb (p_t1 p) now.
Definition pevs (now : Q) (v : bool) (p : proc) : list (Q * bool) :=
  match p_at p with
  | PInit => (if at_once now p then if v then [] else [(now, true)] else [(p_t1 p, true)]) ++ exit_of p
  | PEnter _ => (p_t1 p, true) :: exit_of p
  | PExit _ => [(p_t2 p, false)]
  | PDead => []
  end.
Definition evs (x : st) (m s i : nat) : list (Q * bool) :=
  match nth_error (procs L x) i with
  | None => []
  | Some p => if Nat.eqb (p_m p) m && Nat.eqb (p_s p) s && negb (doomed x i)
              then pevs (now L x) (viewed (in_view L x) m s) p else []
  end.
Definition rem (x : st) (m s : nat) : list (Q * bool) := flat_map (evs x m s) (seq 0 (List.length (procs L x))).

Lemma doomed_in : forall x i, doomed x i = true <-> In (UInterrupt i) (urgent L x).
Proof.
  intros x i. unfold doomed. rewrite existsb_exists. split.
  - intros [u [Hu E]]. destruct u; [discriminate|]. apply Nat.eqb_eq in E. subst. exact Hu.
  - intro H. exists (UInterrupt i). split; [exact H|apply Nat.eqb_refl].
Qed.
Lemma doomed_not : forall x i, doomed x i = false <-> ~ In (UInterrupt i) (urgent L x).
Proof. intros. rewrite <- doomed_in. destruct (doomed x i); split; congruence. Qed.
Lemma flat_split : forall {X} (f : nat -> list X) i n, (i < n)%nat ->
  flat_map f (seq 0 n) = flat_map f (seq 0 i) ++ f i ++ flat_map f (seq (S i) (n - S i)).
Proof.
  intros X f i n H. replace n with (i + S (n - S i))%nat at 1 by lia. rewrite seq_app, flat_map_app. cbn [seq flat_map].
  rewrite Nat.add_0_l. reflexivity.
Qed.
Lemma flat_ext : forall {X Y} (f g : X -> list Y) l, (forall a, In a l -> f a = g a) -> flat_map f l = flat_map g l.
Proof. intros X Y f g. induction l as [|a l IH]; intro H; [reflexivity|]. cbn [flat_map]. rewrite H, IH; auto; [intros; apply H; right; assumption|left; reflexivity]. Qed.
Lemma nth_lt : forall {X} (l : list X) i x, nth_error l i = Some x -> (i < List.length l)%nat.
Proof. intros X l i x H. apply nth_error_Some. congruence. Qed.

(** One process changes. *)
Lemma rem_change : forall x x' m s i,
  List.length (procs L x') = List.length (procs L x) -> (i < List.length (procs L x))%nat ->
  (forall j, j <> i -> evs x' m s j = evs x m s j) ->
  exists A B, rem x m s = A ++ evs x m s i ++ B /\ rem x' m s = A ++ evs x' m s i ++ B.
Proof.
  intros x x' m s i E Hi H. exists (flat_map (evs x m s) (seq 0 i)), (flat_map (evs x m s) (seq (S i) (List.length (procs L x) - S i))).
  unfold rem. rewrite E. rewrite (flat_split (evs x m s) i), (flat_split (evs x' m s) i) by exact Hi. split; [reflexivity|].
  rewrite (flat_ext (evs x' m s) (evs x m s) (seq 0 i)); [|intros a Ha; apply in_seq in Ha; apply H; lia].
  rewrite (flat_ext (evs x' m s) (evs x m s) (seq (S i) _)); [|intros a Ha; apply in_seq in Ha; apply H; lia]. reflexivity.
Qed.
Lemma rem_same : forall x x' m s,
  List.length (procs L x') = List.length (procs L x) -> (forall j, evs x' m s j = evs x m s j) -> rem x' m s = rem x m s.
Proof. intros x x' m s E H. unfold rem. rewrite E. apply flat_ext. intros; apply H. Qed.
Lemma in_rem : forall x m s i e, In e (evs x m s i) -> In e (rem x m s).
Proof.
  intros x m s i e H. unfold rem. apply in_flat_map. exists i. split; [|exact H].
  apply in_seq. unfold evs in H. destruct (nth_error (procs L x) i) eqn:E; [|destruct H]. apply nth_lt in E. lia.
Qed.
(** In increasing order nothing of the same time is said by two processes. *)
Lemma increasing_split : forall {X : Type} (f : nat -> list (Q * bool)) i j n a b,
  (i < j)%nat -> (j < n)%nat -> increasing (flat_map f (seq 0 n)) -> In a (f i) -> In b (f j) -> fst a < fst b.
Proof.
  intros _ f i j n a b H1 H2 S Ha Hb. rewrite (flat_split f i) in S by lia.
  apply increasing_app in S. destruct S as [_ [S _]]. apply increasing_app in S. destruct S as [_ [_ S]].
  apply S; [exact Ha|]. apply in_flat_map. exists j. split; [apply in_seq; lia|exact Hb].
Qed.
Lemma rem_once : forall x m s i j a b, i <> j -> increasing (rem x m s) ->
  In a (evs x m s i) -> In b (evs x m s j) -> ~ fst a == fst b.
Proof.
  intros x m s i j a b N S Ha Hb E.
  assert (Hi : (i < List.length (procs L x))%nat). { unfold evs in Ha. destruct (nth_error (procs L x) i) eqn:X; [apply nth_lt in X; lia|destruct Ha]. }
  assert (Hj : (j < List.length (procs L x))%nat). { unfold evs in Hb. destruct (nth_error (procs L x) j) eqn:X; [apply nth_lt in X; lia|destruct Hb]. }
  destruct (Nat.lt_trichotomy i j) as [C|[C|C]]; [|congruence|].
  - pose proof (increasing_split (X := nat) (evs x m s) i j _ a b C Hj S Ha Hb). lra.
  - pose proof (increasing_split (X := nat) (evs x m s) j i _ b a C Hi S Hb Ha). lra.
Qed.
(** What is due now comes first. *)
Lemma first_now : forall now A e B, increasing (A ++ e :: B) -> (forall y, In y (A ++ e :: B) -> now <= fst y) -> fst e == now -> A = [].
Proof.
  intros now A e B S H E. destruct A as [|a A]; [reflexivity|exfalso].
  apply increasing_app in S. destruct S as [_ [_ S]].
  specialize (S a e (or_introl eq_refl) (or_introl eq_refl)). specialize (H a (or_introl eq_refl)). lra.
Qed.

Record Inv (x : st) : Prop := mkInv {
  I_init : forall i, In (UInit i) (urgent L x) <-> exists p, nth_error (procs L x) i = Some p /\ p_at p = PInit;
  I_urg : NoDup (urgent L x);
  I_doom : forall i, In (UInterrupt i) (urgent L x) -> exists p, nth_error (procs L x) i = Some p /\ p_at p <> PInit;
  I_live : forall i p, nth_error (procs L x) i = Some p -> p_at p <> PDead -> ~ In (UInterrupt i) (urgent L x) ->
             exists l, mget (p_m p) (events L x) = Some l /\ In i l;
  I_ev : forall m l i, mget m (events L x) = Some l -> In i l ->
           exists p, nth_error (procs L x) i = Some p /\ p_m p = m /\ ~ In (UInterrupt i) (urgent L x);
  I_evnd : forall m l, mget m (events L x) = Some l -> NoDup l;
  I_evm : forall m l, mget m (events L x) = Some l -> mget m (movers L x) <> None;
  I_sens : forall i p, nth_error (procs L x) i = Some p -> In (p_s p) (sensors L x);
  I_snd : NoDup (sensors L x);
  I_mnd : NoDup (map fst (movers L x));
  I_vnd : NoDup (in_view L x);
  I_due : forall i p, nth_error (procs L x) i = Some p ->
            match p_at p with PEnter d => d == p_t1 p | PExit d => d == p_t2 p | _ => True end;
  I_exit : forall i p, nth_error (procs L x) i = Some p -> p_at p = PInit -> p_k2 p = EXIT -> now L x < p_t2 p;
  I_rem : forall m s, increasing (rem x m s) /\ alternates (negb (viewed (in_view L x) m s)) (rem x m s) /\
            (forall e, In e (rem x m s) -> now L x <= fst e) }.

(** What a step says about one pair, and what is left. *)
Definition after (v : bool) (l : list (Q * bool)) : bool := last (map snd l) v.
Definition said (x : st) (o : list out) (m s : nat) : list (Q * bool) := told s m (map (pair (now L x)) o).
Definition conserves (x x' : st) (o : list out) (m s : nat) : Prop :=
  exists d, same (said x o m s) d /\ rem x m s = d ++ rem x' m s /\
            viewed (in_view L x') m s = after (viewed (in_view L x) m s) d.

Lemma evs_proc : forall x m s i p, nth_error (procs L x) i = Some p -> doomed x i = false ->
  evs x m s i = if Nat.eqb (p_m p) m && Nat.eqb (p_s p) s then pevs (now L x) (viewed (in_view L x) m s) p else [].
Proof. intros x m s i p H D. unfold evs. rewrite H, D, andb_true_r. reflexivity. Qed.

(** *** A process takes a step: from status a to status b, the view from v to v'. *)
Definition moved (x x' : st) (i : nat) (p : proc) (b : status) : Prop :=
  now L x' = now L x /\
  procs L x' = put_at i (mkP (p_m p) (p_s p) (p_k1 p) (p_t1 p) (p_k2 p) (p_t2 p) b) (procs L x) /\
  (forall j, j <> i -> doomed x' j = doomed x j).
Lemma moved_evs_other : forall x x' i p b m s j, moved x x' i p b -> j <> i ->
  (viewed (in_view L x') m s = viewed (in_view L x) m s \/
   (forall q, nth_error (procs L x) j = Some q -> doomed x j = false -> p_m q = m -> p_s q = s -> p_at q = PInit -> at_once (now L x) q = false)) ->
  evs x' m s j = evs x m s j.
Proof.
  intros x x' i p b m s j [N [P D]] H V. unfold evs. rewrite P, put_at_other by auto. rewrite (D j H), N.
  destruct (nth_error (procs L x) j) as [q|] eqn:E; [|reflexivity].
  destruct (Nat.eqb (p_m q) m && Nat.eqb (p_s q) s && negb (doomed x j)) eqn:G; [|reflexivity].
  destruct V as [V|V]; [rewrite V; reflexivity|].
  apply andb_true_iff in G. destruct G as [G G3]. apply andb_true_iff in G. destruct G as [G1 G2].
  apply Nat.eqb_eq in G1, G2. apply negb_true_iff in G3. specialize (V q eq_refl G3 G1 G2).
  unfold pevs. destruct (p_at q); try reflexivity. rewrite (V eq_refl). reflexivity.
Qed.
Lemma moved_conserves : forall x x' i p b o d, Inv x ->
  nth_error (procs L x) i = Some p -> doomed x i = false -> doomed x' i = false -> moved x x' i p b ->
  (forall m s, (m, s) <> (p_m p, p_s p) -> viewed (in_view L x') m s = viewed (in_view L x) m s) ->
  (forall m s, (m, s) <> (p_m p, p_s p) -> said x o m s = []) ->
  (viewed (in_view L x') (p_m p) (p_s p) = viewed (in_view L x) (p_m p) (p_s p) \/
   (forall j q, j <> i -> nth_error (procs L x) j = Some q -> doomed x j = false -> p_m q = p_m p -> p_s q = p_s p -> p_at q = PInit -> at_once (now L x) q = false)) ->
  same (said x o (p_m p) (p_s p)) d ->
  evs x (p_m p) (p_s p) i = d ++ evs x' (p_m p) (p_s p) i ->
  (d = [] \/ exists e d', d = e :: d' /\ fst e == now L x) ->
  viewed (in_view L x') (p_m p) (p_s p) = after (viewed (in_view L x) (p_m p) (p_s p)) d ->
  forall m s, conserves x x' o m s.
Proof.
  intros x x' i p b o d I E D D' M V O VI S EV F A m s.
  assert (LE : List.length (procs L x') = List.length (procs L x)).
  { destruct M as [_ [M _]]. rewrite M. apply put_at_length. }
  destruct (pair_eqb (m, s) (p_m p, p_s p)) eqn:Q.
  - apply pair_eqb_eq in Q. inversion Q; subst m s. clear Q.
    destruct (rem_change x x' (p_m p) (p_s p) i LE (nth_lt _ _ _ E)) as [X [Y [R1 R2]]].
    { intros j Hj. apply (moved_evs_other x x' i p b _ _ j M Hj). destruct VI as [VI|VI]; [left; exact VI|right].
      intros q Hq Hd Hm Hs. apply (VI j q Hj Hq Hd Hm Hs). }
    exists d. split; [exact S|]. split; [|exact A].
    destruct (I_rem x I (p_m p) (p_s p)) as [R3 [_ R4]].
    rewrite R1 in R3, R4 |- *. rewrite R2. rewrite EV in R3, R4 |- *.
    destruct F as [F|[e [d' [F1 F2]]]]; [subst d; reflexivity|].
    rewrite F1 in R3, R4. cbn [app] in R3, R4. rewrite (first_now _ _ _ _ R3 R4 F2). cbn [app]. rewrite app_assoc. reflexivity.
  - assert (NE : (m, s) <> (p_m p, p_s p)). { intro X. apply pair_eqb_eq in X. congruence. }
    exists []. rewrite (O m s NE). split; [constructor|]. split; [|cbn [after map last]; unfold after; cbn [map last]; apply V; exact NE].
    cbn [app]. symmetry. apply rem_same; [exact LE|]. intro j. destruct (Nat.eq_dec j i) as [->|Hj].
    + unfold evs. destruct M as [_ [M _]]. rewrite M, E. erewrite put_at_same by exact E. cbn [p_m p_s].
      replace (Nat.eqb (p_m p) m && Nat.eqb (p_s p) s) with false; [reflexivity|].
      symmetry. apply not_true_iff_false. intro X. apply andb_true_iff in X. destruct X as [X1 X2]. apply Nat.eqb_eq in X1, X2. apply NE. congruence.
    + apply (moved_evs_other x x' i p b m s j M Hj). left. apply V. exact NE.
Qed.

Lemma alternates_app : forall d r v, alternates (negb v) (d ++ r) -> alternates (negb v) d /\ alternates (negb (after v d)) r.
Proof.
  induction d as [|e d IH]; intros r v H; [split; [exact I|exact H]|].
  destruct H as [H1 H2]. rewrite <- H1 in H2. destruct (IH r (snd e) H2) as [A B].
  split; [split; [exact H1|rewrite <- H1; exact A]|].
  unfold after in *. cbn [map]. destruct (map snd d) as [|b l]; [exact B|].
  replace (last (snd e :: b :: l) v) with (last (b :: l) (snd e)); [exact B|].
  change (last (b :: l) (snd e) = last (b :: l) v). clear. revert b. induction l as [|c l IH]; intro b; [reflexivity|apply (IH c)].
Qed.
Lemma conserves_rem : forall x x' o m s, now L x' = now L x -> conserves x x' o m s ->
  increasing (rem x m s) /\ alternates (negb (viewed (in_view L x) m s)) (rem x m s) /\ (forall e, In e (rem x m s) -> now L x <= fst e) ->
  increasing (rem x' m s) /\ alternates (negb (viewed (in_view L x') m s)) (rem x' m s) /\ (forall e, In e (rem x' m s) -> now L x' <= fst e).
Proof.
  intros x x' o m s N [d [_ [R V]]] [H1 [H2 H3]]. rewrite R in *. rewrite N, V. repeat split.
  - apply increasing_app in H1. apply H1.
  - apply alternates_app in H2. apply H2.
  - intros e He. apply H3, in_app_iff. right. exact He.
Qed.
Definition popped (x x' : st) (i : nat) (p : proc) (b : status) : Prop :=
  urgent L x = UInit i :: urgent L x' \/ (urgent L x = UInterrupt i :: urgent L x' /\ b = PDead) \/
  (urgent L x' = urgent L x /\ p_at p <> PInit).
Lemma popped_sub : forall x x' i p b u, popped x x' i p b -> In u (urgent L x') -> In u (urgent L x).
Proof. intros x x' i p b u [H|[[H _]|[H _]]] K; rewrite H in *; auto; try (right; exact K). Qed.
Lemma moved_inv : forall x x' i p b, Inv x -> nth_error (procs L x) i = Some p ->
  moved x x' i p b -> popped x x' i p b -> b <> PInit -> (p_at p <> PDead \/ b = PDead) ->
  events L x' = events L x -> movers L x' = movers L x -> sensors L x' = sensors L x -> NoDup (in_view L x') ->
  match b with PEnter d => d == p_t1 p | PExit d => d == p_t2 p | _ => True end ->
  (forall m s, increasing (rem x' m s) /\ alternates (negb (viewed (in_view L x') m s)) (rem x' m s) /\ (forall e, In e (rem x' m s) -> now L x' <= fst e)) ->
  Inv x'.
Proof.
  intros x x' i p b I E M P B1 B2 Ev Mv Se Vn Du R. pose proof M as [N [Pr _]].
  assert (SUB : forall u, In u (urgent L x') -> In u (urgent L x)) by (intros u; apply (popped_sub x x' i p b u P)).
  assert (GET : forall j q, nth_error (procs L x') j = Some q ->
     (j = i /\ q = mkP (p_m p) (p_s p) (p_k1 p) (p_t1 p) (p_k2 p) (p_t2 p) b) \/ (j <> i /\ nth_error (procs L x) j = Some q)).
  { intros j q H. rewrite Pr in H. destruct (Nat.eq_dec j i) as [->|Hj].
    - erewrite put_at_same in H by exact E. inversion H. left. auto.
    - rewrite put_at_other in H by auto. right. auto. }
  assert (GETi : nth_error (procs L x') i = Some (mkP (p_m p) (p_s p) (p_k1 p) (p_t1 p) (p_k2 p) (p_t2 p) b)).
  { rewrite Pr. eapply put_at_same. exact E. }
  assert (GETo : forall j q, j <> i -> nth_error (procs L x) j = Some q -> nth_error (procs L x') j = Some q).
  { intros j q Hj H. rewrite Pr, put_at_other by auto. exact H. }
  assert (OTHER : forall j, j <> i -> (In (UInit j) (urgent L x') <-> In (UInit j) (urgent L x)) /\ (In (UInterrupt j) (urgent L x') <-> In (UInterrupt j) (urgent L x))).
  { intros j Hj. destruct P as [H|[[H _]|[H _]]]; rewrite H; cbn [In]; split; split; auto; intros [K|K]; auto; inversion K; congruence. }
  split.
  - intro j. destruct (Nat.eq_dec j i) as [->|Hj].
    + split.
      * intro H. exfalso. destruct P as [H1|[[H1 _]|[H1 H2]]].
        -- pose proof (I_urg x I) as ND. rewrite H1 in ND. inversion ND; auto.
        -- apply SUB in H. apply (I_init x I) in H. destruct H as [q [Hq Eq]].
           destruct (I_doom x I i) as [q' [Hq' Eq']]; [rewrite H1; left; reflexivity|]. congruence.
        -- apply SUB in H. apply (I_init x I) in H. destruct H as [q [Hq Eq]]. congruence.
      * intros [q [Hq Eq]]. rewrite GETi in Hq. inversion Hq; subst. cbn [p_at] in Eq. congruence.
    + rewrite (proj1 (OTHER j Hj)). rewrite (I_init x I). split; intros [q [Hq Eq]]; exists q; split; auto.
      destruct (GET j q Hq) as [[? _]|[_ ?]]; [congruence|assumption].
  - destruct P as [H|[[H _]|[H _]]]; pose proof (I_urg x I) as ND; rewrite H in *; try (inversion ND; assumption); exact ND.
  - intros j H. destruct (Nat.eq_dec j i) as [->|Hj].
    + eexists. split; [exact GETi|exact B1].
    + apply SUB in H. destruct (I_doom x I j H) as [q [Hq Eq]]. exists q. split; auto.
  - intros j q Hq Al ND. rewrite Ev. destruct (GET j q Hq) as [[-> ->]|[Hj Hq']].
    + cbn [p_m p_at] in *. apply (I_live x I i p E).
      * destruct B2 as [B2|B2]; [exact B2|congruence].
      * destruct P as [H|[[H H']|[H _]]]; [rewrite H; intros [K|K]; [discriminate|auto]|congruence|rewrite H in ND; exact ND].
    + apply (I_live x I j q Hq' Al). rewrite <- (proj2 (OTHER j Hj)). exact ND.
  - intros m l j. rewrite Ev. intros Hl Hj. destruct (I_ev x I m l j Hl Hj) as [q [Hq [Em En]]].
    destruct (Nat.eq_dec j i) as [->|Hne].
    + eexists. split; [exact GETi|]. cbn [p_m]. split; [congruence|intro K; apply En, SUB, K].
    + exists q. split; [auto|]. split; [exact Em|intro K; apply En, SUB, K].
  - intros m l. rewrite Ev. apply (I_evnd x I).
  - intros m l. rewrite Ev, Mv. apply (I_evm x I).
  - intros j q Hq. rewrite Se. destruct (GET j q Hq) as [[-> ->]|[Hj Hq']]; [apply (I_sens x I i p E)|apply (I_sens x I j q Hq')].
  - rewrite Se. apply (I_snd x I).
  - rewrite Mv. apply (I_mnd x I).
  - exact Vn.
  - intros j q Hq. destruct (GET j q Hq) as [[-> ->]|[Hj Hq']]; [exact Du|apply (I_due x I j q Hq')].
  - intros j q Hq Eq. rewrite N. destruct (GET j q Hq) as [[-> ->]|[Hj Hq']]; [cbn [p_at] in Eq; congruence|apply (I_exit x I j q Hq' Eq)].
  - exact R.
Qed.
Lemma with_proc_moved : forall x i p b v u, (forall j, j <> i -> In (UInterrupt j) u <-> In (UInterrupt j) (urgent L x)) ->
  moved x (with_proc L x i p b v u) i p b.
Proof.
  intros x i p b v u H. split; [reflexivity|]. split; [reflexivity|]. intros j Hj. specialize (H j Hj).
  destruct (doomed x j) eqn:D.
  - apply doomed_in in D. apply doomed_in. apply H. exact D.
  - apply doomed_not in D. apply doomed_not. cbn [urgent with_proc]. tauto.
Qed.
Lemma pair_ne : forall m s m' s', (m, s) <> (m', s') -> Nat.eqb s s' && Nat.eqb m m' = false.
Proof.
  intros m s m' s' H. apply not_true_iff_false. intro K. apply andb_true_iff in K. destruct K as [K1 K2].
  apply Nat.eqb_eq in K1, K2. congruence.
Qed.
Lemma pair_ne' : forall m s m' s', (m, s) <> (m', s') -> pair_eqb (m', s') (m, s) = false.
Proof. intros m s m' s' H. apply not_true_iff_false. intro K. apply pair_eqb_eq in K. congruence. Qed.

(** *** A process begins *)
Definition no_crash (o : list out) : Prop := forall e, ~ In (Crashed e) o.
Lemma begin_ok : forall x i p u, Inv x -> urgent L x = UInit i :: u -> nth_error (procs L x) i = Some p ->
  let r := begin_notify L x i p u in
  Inv (fst r) /\ (forall m s, conserves x (fst r) (snd r) m s) /\ no_crash (snd r).
Proof.
  intros x i p u I U E. cbv zeta.
  assert (AT : p_at p = PInit).
  { destruct (proj1 (I_init x I i)) as [q [Hq Eq]]; [rewrite U; left; reflexivity|congruence]. }
  assert (D : doomed x i = false).
  { apply doomed_not. intro K. destruct (I_doom x I i K) as [q [Hq Eq]]. congruence. }
  assert (Du : forall y, urgent L y = u -> doomed y i = false).
  { intros y Hy. apply doomed_not. rewrite Hy. intro K. apply doomed_not in D. apply D. rewrite U. right. exact K. }
  assert (UJ : forall j, j <> i -> In (UInterrupt j) u <-> In (UInterrupt j) (urgent L x)).
  { intros j Hj. rewrite U. cbn [In]. split; [auto|intros [K|K]; [discriminate|exact K]]. }
  unfold begin_notify.
  assert (AO : kind_eqb (p_k1 p) START_INSIDE || Qleb (p_t1 p - now L x) 0 = at_once (now L x) p).
  { unfold at_once. f_equal. destruct (Qleb (p_t1 p) (now L x)) eqn:A; destruct (Qleb (p_t1 p - now L x) 0) eqn:B; try reflexivity; qbool; lra. }
  rewrite AO. destruct (at_once (now L x) p) eqn:AE.
  - (* told now *)
    assert (AF : exists b, after_entry L x p = (b, []) /\ b <> PInit /\
        match b with PEnter d => d == p_t1 p | PExit d => d == p_t2 p | _ => True end /\
        (forall now v, pevs now v (mkP (p_m p) (p_s p) (p_k1 p) (p_t1 p) (p_k2 p) (p_t2 p) b) = exit_of p)).
    { unfold after_entry, exit_of. destruct (kind_eqb (p_k2 p) EXIT) eqn:K.
      - assert (K' : p_k2 p = EXIT) by (destruct (p_k2 p); try discriminate; reflexivity).
        pose proof (I_exit x I i p E AT K') as X.
        destruct (Qleb (p_t2 p - now L x) 0) eqn:Q; [qbool; lra|].
        eexists. split; [reflexivity|]. split; [discriminate|]. split; [lra|]. intros. reflexivity.
      - exists PDead. split; [reflexivity|]. split; [discriminate|]. split; [exact Logic.I|]. intros. reflexivity. }
    destruct AF as [b [AF [B1 [B2 B3]]]]. rewrite AF. cbn [fst snd]. rewrite app_nil_r.
    set (x' := with_proc L x i p b (add_to_view (in_view L x) (p_m p) (p_s p)) u).
    assert (M : moved x x' i p b) by (apply with_proc_moved; exact UJ).
    assert (C : forall m s, conserves x x' (if viewed (in_view L x) (p_m p) (p_s p) then [] else [Entered (p_s p) (p_m p)]) m s).
    { apply (moved_conserves x x' i p b _ (if viewed (in_view L x) (p_m p) (p_s p) then [] else [(now L x, true)]) I E D (Du x' eq_refl) M).
      - intros m s H. cbn [in_view x' with_proc]. rewrite viewed_add, (pair_ne' _ _ _ _ H). reflexivity.
      - intros m s H. unfold said. destruct (viewed _ _ _); [reflexivity|]. cbn [map told]. rewrite (pair_ne _ _ _ _ H). reflexivity.
      - destruct (viewed (in_view L x) (p_m p) (p_s p)) eqn:V.
        + left. cbn [in_view x' with_proc]. rewrite viewed_add, V. apply orb_true_r.
        + right. intros j q Hj Hq Dq Mq Sq Aq. apply not_true_iff_false. intro AQ.
          assert (Ei : In (now L x, true) (evs x (p_m p) (p_s p) i)).
          { rewrite (evs_proc x _ _ i p E D), !Nat.eqb_refl. unfold pevs. rewrite AT, AE, V. left. reflexivity. }
          assert (Ej : In (now L x, true) (evs x (p_m p) (p_s p) j)).
          { rewrite (evs_proc x _ _ j q Hq Dq), Mq, Sq, !Nat.eqb_refl. unfold pevs. rewrite Aq, AQ, V. left. reflexivity. }
          apply (rem_once x _ _ i j _ _ (fun e => Hj (eq_sym e)) (proj1 (I_rem x I _ _)) Ei Ej). apply Qeq_refl.
      - unfold said. destruct (viewed _ _ _); [constructor|]. cbn [map told]. rewrite !Nat.eqb_refl. apply same_refl.
      - rewrite (evs_proc x _ _ i p E D). rewrite (evs_proc x' _ _ i (mkP (p_m p) (p_s p) (p_k1 p) (p_t1 p) (p_k2 p) (p_t2 p) b)).
        + cbn [p_m p_s]. rewrite !Nat.eqb_refl. cbn [andb]. rewrite B3. unfold pevs. rewrite AT, AE. reflexivity.
        + cbn [procs x' with_proc]. eapply put_at_same. exact E.
        + apply Du. reflexivity.
      - destruct (viewed _ _ _); [left; reflexivity|right]. eexists. eexists. split; [reflexivity|apply Qeq_refl].
      - cbn [in_view x' with_proc]. rewrite viewed_add, (proj2 (pair_eqb_eq _ _) eq_refl). cbn [orb].
        destruct (viewed (in_view L x) (p_m p) (p_s p)) eqn:V; reflexivity. }
    split; [|split; [exact C|]].
    + apply (moved_inv x x' i p b I E M); try reflexivity; auto.
      * left. exact U.
      * left. congruence.
      * apply add_nodup. apply (I_vnd x I).
      * intros m s. apply (conserves_rem x x' _ m s eq_refl (C m s)). apply (I_rem x I).
    + intros e K. destruct (viewed _ _ _); [destruct K|destruct K as [K|[]]; discriminate].
  - (* waits *)
    cbn [fst snd]. set (b := PEnter (now L x + (p_t1 p - now L x))). set (x' := with_proc L x i p b (in_view L x) u).
    assert (M : moved x x' i p b) by (apply with_proc_moved; exact UJ).
    assert (C : forall m s, conserves x x' [] m s).
    { apply (moved_conserves x x' i p b [] [] I E D (Du x' eq_refl) M); try reflexivity.
      - left. reflexivity.
      - constructor.
      - rewrite (evs_proc x _ _ i p E D). rewrite (evs_proc x' _ _ i (mkP (p_m p) (p_s p) (p_k1 p) (p_t1 p) (p_k2 p) (p_t2 p) b)).
        + cbn [p_m p_s]. rewrite !Nat.eqb_refl. cbn [andb]. unfold pevs. rewrite AT, AE. reflexivity.
        + cbn [procs x' with_proc]. eapply put_at_same. exact E.
        + apply Du. reflexivity.
      - left. reflexivity. }
    split; [|split; [exact C|intros e []]].
    apply (moved_inv x x' i p b I E M); try reflexivity.
    + left. exact U.
    + discriminate.
    + left. congruence.
    + apply (I_vnd x I).
    + unfold b. lra.
    + intros m s. apply (conserves_rem x x' [] m s eq_refl (C m s)). apply (I_rem x I).
Qed.

(** *** An interrupt *)
Lemma interrupt_ok : forall x i p u, Inv x -> urgent L x = UInterrupt i :: u -> nth_error (procs L x) i = Some p ->
  let x' := with_proc L x i p PDead (in_view L x) u in
  Inv x' /\ (forall m s, conserves x x' [] m s).
Proof.
  intros x i p u I U E x'.
  assert (UJ : forall j, j <> i -> In (UInterrupt j) u <-> In (UInterrupt j) (urgent L x)).
  { intros j Hj. rewrite U. cbn [In]. split; [auto|intros [K|K]; [inversion K; congruence|exact K]]. }
  assert (M : moved x x' i p PDead) by (apply with_proc_moved; exact UJ).
  assert (C : forall m s, conserves x x' [] m s).
  { intros m s. exists []. split; [constructor|]. split; [|reflexivity]. cbn [app]. symmetry. apply rem_same.
    - cbn [procs x' with_proc]. apply put_at_length.
    - intro j. destruct (Nat.eq_dec j i) as [->|Hj].
      + unfold evs. rewrite E. cbn [procs x' with_proc]. erewrite put_at_same by exact E.
        replace (doomed x i) with true; [cbn [negb]; rewrite andb_false_r|symmetry; apply doomed_in; rewrite U; left; reflexivity].
        unfold pevs. cbn [p_at]. destruct (_ && _); reflexivity.
      + apply (moved_evs_other x x' i p PDead m s j M Hj). left. reflexivity. }
  split; [|exact C]. apply (moved_inv x x' i p PDead I E M); try reflexivity.
  - right. left. split; [exact U|reflexivity].
  - discriminate.
  - right. reflexivity.
  - apply (I_vnd x I).
  - intros m s. apply (conserves_rem x x' [] m s eq_refl (C m s)). apply (I_rem x I).
Qed.

(** *** Timeouts *)
Lemma alternates_head : forall v b t A, alternates (negb v) ((t, b) :: A) -> v = negb b.
Proof. intros v b t A [H _]. cbn [snd] in H. rewrite H, negb_involutive. reflexivity. Qed.
Lemma fire_ok : forall x i p d, Inv x -> urgent L x = [] -> nth_error (procs L x) i = Some p ->
  (p_at p = PEnter d -> d == now L x -> let r := notify_entry L x i p in
     Inv (fst r) /\ (forall m s, conserves x (fst r) (snd r) m s) /\ no_crash (snd r)) /\
  (p_at p = PExit d -> d == now L x -> let r := notify_exit L x i p in
     Inv (fst r) /\ (forall m s, conserves x (fst r) (snd r) m s) /\ no_crash (snd r)).
Proof.
  intros x i p d I U E.
  assert (NI : forall j q, nth_error (procs L x) j = Some q -> p_at q <> PInit).
  { intros j q Hq Eq. assert (K : In (UInit j) (urgent L x)) by (apply (I_init x I); eauto). rewrite U in K. destruct K. }
  assert (D : forall y j, urgent L y = [] -> doomed y j = false).
  { intros y j Hy. apply doomed_not. rewrite Hy. intros []. }
  assert (HEAD : forall b l, evs x (p_m p) (p_s p) i = (b :: l) -> fst b == now L x ->
     viewed (in_view L x) (p_m p) (p_s p) = negb (snd b) /\ increasing (b :: l)).
  { intros b l X Y. destruct (I_rem x I (p_m p) (p_s p)) as [R1 [R2 R3]]. unfold rem in *.
    rewrite (flat_split _ i _ (nth_lt _ _ _ E)), X in R1, R2, R3. cbn [app] in R1, R2, R3.
    pose proof (first_now _ _ _ _ R1 R3 Y) as FN. rewrite FN in R2, R1. cbn [app] in R2, R1. destruct b as [t b]. split; [eapply alternates_head; exact R2|].
    change ((t, b) :: (l ++ flat_map (evs x (p_m p) (p_s p)) (seq (S i) (List.length (procs L x) - S i)))) with (((t, b) :: l) ++ flat_map (evs x (p_m p) (p_s p)) (seq (S i) (List.length (procs L x) - S i))) in R1.
    apply increasing_app in R1. apply R1. }
  pose proof (I_due x I i p E) as DUE. pose proof (evs_proc x (p_m p) (p_s p) i p E (D x i U)) as EV.
  rewrite !Nat.eqb_refl in EV. cbn [andb] in EV. unfold pevs in EV.
  split; intros AT T; rewrite AT in DUE, EV; cbv zeta.
  - unfold notify_entry.
    assert (TN : p_t1 p == now L x) by (rewrite <- DUE; exact T).
    destruct (HEAD _ _ EV TN) as [V S]. cbn [snd negb] in V.
    assert (AF : exists b, after_entry L x p = (b, []) /\ b <> PInit /\
        match b with PEnter d => d == p_t1 p | PExit d => d == p_t2 p | _ => True end /\
        (forall now v, pevs now v (mkP (p_m p) (p_s p) (p_k1 p) (p_t1 p) (p_k2 p) (p_t2 p) b) = exit_of p)).
    { unfold after_entry, exit_of in *. destruct (kind_eqb (p_k2 p) EXIT) eqn:K.
      - destruct S as [S _]. specialize (S _ (or_introl eq_refl)). cbn [fst] in S.
        destruct (Qleb (p_t2 p - now L x) 0) eqn:Q; [qbool; lra|].
        eexists. split; [reflexivity|]. split; [discriminate|]. split; [lra|]. intros. reflexivity.
      - exists PDead. split; [reflexivity|]. split; [discriminate|]. split; [exact Logic.I|]. intros. reflexivity. }
    destruct AF as [b [AF [B1 [B2 B3]]]]. rewrite AF. cbn [fst snd].
    set (x' := with_proc L x i p b (add_to_view (in_view L x) (p_m p) (p_s p)) (urgent L x)).
    assert (M : moved x x' i p b) by (apply with_proc_moved; tauto).
    assert (C : forall m s, conserves x x' [Entered (p_s p) (p_m p)] m s).
    { apply (moved_conserves x x' i p b _ [(p_t1 p, true)] I E (D x i U) (D x' i U) M).
      - intros m s H. cbn [in_view x' with_proc]. rewrite viewed_add, (pair_ne' _ _ _ _ H). reflexivity.
      - intros m s H. unfold said. cbn [map told]. rewrite (pair_ne _ _ _ _ H). reflexivity.
      - right. intros j q _ Hq _ _ _ Aq. destruct (NI j q Hq Aq).
      - unfold said. cbn [map told]. rewrite !Nat.eqb_refl. constructor; [|constructor]. split; [symmetry; exact TN|reflexivity].
      - rewrite EV. rewrite (evs_proc x' _ _ i (mkP (p_m p) (p_s p) (p_k1 p) (p_t1 p) (p_k2 p) (p_t2 p) b)).
        + cbn [p_m p_s]. rewrite !Nat.eqb_refl. cbn [andb]. rewrite B3. reflexivity.
        + cbn [procs x' with_proc]. eapply put_at_same. exact E.
        + apply (D x' i U).
      - right. eexists. eexists. split; [reflexivity|exact TN].
      - cbn [in_view x' with_proc]. rewrite viewed_add, (proj2 (pair_eqb_eq _ _) eq_refl). reflexivity. }
    split; [|split; [exact C|intros e [K|[]]; discriminate]].
    apply (moved_inv x x' i p b I E M); try reflexivity; auto.
    + right. right. split; [reflexivity|congruence].
    + left. congruence.
    + apply add_nodup. apply (I_vnd x I).
    + intros m s. apply (conserves_rem x x' _ m s eq_refl (C m s)). apply (I_rem x I).
  - unfold notify_exit.
    assert (TN : p_t2 p == now L x) by (rewrite <- DUE; exact T).
    destruct (HEAD _ _ EV TN) as [V S]. cbn [snd negb] in V. rewrite V. cbn [fst snd].
    set (x' := with_proc L x i p PDead (unview (in_view L x) (p_m p) (p_s p)) (urgent L x)).
    assert (M : moved x x' i p PDead) by (apply with_proc_moved; tauto).
    assert (C : forall m s, conserves x x' [Exited (p_s p) (p_m p)] m s).
    { apply (moved_conserves x x' i p PDead _ [(p_t2 p, false)] I E (D x i U) (D x' i U) M).
      - intros m s H. cbn [in_view x' with_proc]. rewrite viewed_unview, (pair_ne' _ _ _ _ H). cbn [negb]. apply andb_true_r.
      - intros m s H. unfold said. cbn [map told]. rewrite (pair_ne _ _ _ _ H). reflexivity.
      - right. intros j q _ Hq _ _ _ Aq. destruct (NI j q Hq Aq).
      - unfold said. cbn [map told]. rewrite !Nat.eqb_refl. constructor; [|constructor]. split; [symmetry; exact TN|reflexivity].
      - rewrite EV. rewrite (evs_proc x' _ _ i (mkP (p_m p) (p_s p) (p_k1 p) (p_t1 p) (p_k2 p) (p_t2 p) PDead)).
        + cbn [p_m p_s]. rewrite !Nat.eqb_refl. reflexivity.
        + cbn [procs x' with_proc]. eapply put_at_same. exact E.
        + apply (D x' i U).
      - right. eexists. eexists. split; [reflexivity|exact TN].
      - cbn [in_view x' with_proc]. rewrite viewed_unview, (proj2 (pair_eqb_eq _ _) eq_refl). cbn [negb]. rewrite andb_false_r. reflexivity. }
    split; [|split; [exact C|intros e [K|[]]; discriminate]].
    apply (moved_inv x x' i p PDead I E M); try reflexivity.
    + right. right. split; [reflexivity|congruence].
    + discriminate.
    + right. reflexivity.
    + apply NoDup_filter. apply (I_vnd x I).
    + intros m s. apply (conserves_rem x x' _ m s eq_refl (C m s)). apply (I_rem x I).
Qed.


(** *** Time passes *)
Lemma time_ok : forall x t, Inv x -> urgent L x = [] -> now L x < t ->
  forallb (fun p => match due_at p with Some d => Qleb t d | None => true end) (procs L x) = true ->
  let x' := mkSt L t (sensor_at L x) (detect L x) (sensors L x) (movers L x) (events L x) (in_view L x) (procs L x) (urgent L x) in
  Inv x' /\ forall m s, conserves x x' [] m s.
Proof.
  intros x t I U T F x'.
  assert (NI : forall j q, nth_error (procs L x) j = Some q -> p_at q <> PInit).
  { intros j q Hq Eq. assert (K : In (UInit j) (urgent L x)) by (apply (I_init x I); eauto). rewrite U in K. destruct K. }
  assert (EV : forall m s j, evs x' m s j = evs x m s j).
  { intros m s j. unfold evs. cbn [procs x']. destruct (nth_error (procs L x) j) as [q|] eqn:E; [|reflexivity].
    change (doomed x' j) with (doomed x j). destruct (_ && _); [|reflexivity]. cbn [in_view x']. unfold pevs.
    destruct (p_at q) eqn:A; try reflexivity. destruct (NI j q E A). }
  assert (R : forall m s, rem x' m s = rem x m s) by (intros; apply rem_same; [reflexivity|intro; apply EV]).
  split; [|intros m s; exists []; split; [constructor|]; split; [rewrite R; reflexivity|reflexivity]].
  destruct I. split; auto; try (cbn [procs now x']; intros; exfalso; eapply NI; eauto; fail).
  intros m s. rewrite R. destruct (I_rem0 m s) as [R1 [R2 R3]]. split; [exact R1|]. split; [exact R2|].
  intros e He. cbn [now x'].
  unfold rem in He. apply in_flat_map in He. destruct He as [j [Hj He]].
  assert (S : increasing (evs x m s j)).
  { unfold rem in R1. apply in_seq in Hj. rewrite (flat_split _ j) in R1 by lia.
    apply increasing_app in R1. destruct R1 as [_ [R1 _]]. apply increasing_app in R1. apply R1. }
  unfold evs in He, S. destruct (nth_error (procs L x) j) as [q|] eqn:E; [|destruct He].
  destruct (Nat.eqb (p_m q) m && Nat.eqb (p_s q) s && negb (doomed x j)); [|destruct He].
  rewrite forallb_forall in F. specialize (F q (nth_error_In _ _ E)). specialize (I_due0 j q E).
  unfold pevs in He, S. unfold due_at in F. destruct (p_at q) eqn:A; try (destruct He; fail).
  - destruct (NI j q E A).
  - qbool. destruct He as [He|He]; [subst e; cbn [fst]; lra|]. destruct S as [S _]. specialize (S e He). cbn [fst] in S. lra.
  - qbool. destruct He as [He|[]]. subst e. cbn [fst]. lra.
Qed.

(** *** Scheduling *)
Record Pre (x : st) : Prop := mkPre {
  P_init : forall i, In (UInit i) (urgent L x) <-> exists p, nth_error (procs L x) i = Some p /\ p_at p = PInit;
  P_urg : NoDup (urgent L x);
  P_doom : forall i, In (UInterrupt i) (urgent L x) -> exists p, nth_error (procs L x) i = Some p /\ p_at p <> PInit;
  P_live : forall i p, nth_error (procs L x) i = Some p -> p_at p <> PDead -> ~ In (UInterrupt i) (urgent L x) ->
             exists l, mget (p_m p) (events L x) = Some l /\ In i l;
  P_ev : forall m l i, mget m (events L x) = Some l -> In i l ->
           exists p, nth_error (procs L x) i = Some p /\ p_m p = m /\ ~ In (UInterrupt i) (urgent L x);
  P_evnd : forall m l, mget m (events L x) = Some l -> NoDup l;
  P_evm : forall m l, mget m (events L x) = Some l -> mget m (movers L x) <> None;
  P_sens : forall i p, nth_error (procs L x) i = Some p -> In (p_s p) (sensors L x);
  P_snd : NoDup (sensors L x);
  P_mnd : NoDup (map fst (movers L x));
  P_vnd : NoDup (in_view L x);
  P_due : forall i p, nth_error (procs L x) i = Some p ->
            match p_at p with PEnter d => d == p_t1 p | PExit d => d == p_t2 p | _ => True end }.
Definition Exits (x : st) : Prop :=
  forall i p, nth_error (procs L x) i = Some p -> p_at p = PInit -> p_k2 p = EXIT -> now L x < p_t2 p.
Definition Good (x : st) (m s : nat) : Prop :=
  increasing (rem x m s) /\ alternates (negb (viewed (in_view L x) m s)) (rem x m s) /\
  (forall e, In e (rem x m s) -> now L x <= fst e).
Lemma Inv_Pre : forall x, Inv x -> Pre x.
Proof. intros x []. split; assumption. Qed.
Lemma Pre_Inv : forall x, Pre x -> Exits x -> (forall m s, Good x m s) -> Inv x.
Proof. intros x [] E G. split; assumption. Qed.

(** Two states that differ only in what scheduling changes. *)
Definition kept (x x' : st) : Prop :=
  now L x' = now L x /\ sensor_at L x' = sensor_at L x /\ detect L x' = detect L x /\ sensors L x' = sensors L x /\
  movers L x' = movers L x /\ in_view L x' = in_view L x.
Lemma kept_refl : forall x, kept x x. Proof. intro x. repeat split. Qed.
Lemma kept_trans : forall x y z, kept x y -> kept y z -> kept x z.
Proof. intros x y z [A [B [C [D [E F]]]]] [A' [B' [C' [D' [E' F']]]]]. repeat split; congruence. Qed.

Definition contrib (now : Q) (v : bool) (e : crossing) : list (Q * bool) := moments now v [e].
Lemma moments_cons : forall now v e l, moments now v (e :: l) = contrib now v e ++ moments now v l.
Proof.
  intros now v [[k1 t1] [k2 t2]] l. unfold contrib. cbn [moments]. destruct (_ && _); [reflexivity|].
  rewrite app_nil_r. rewrite <- app_assoc. reflexivity.
Qed.
Lemma schedule_ok : forall x m s e, Pre x -> mget m (movers L x) <> None -> In s (sensors L x) ->
  let x' := schedule L x m s e in
  Pre x' /\ kept x x' /\
  (forall m' s', rem x' m' s' = rem x m' s' ++ (if pair_eqb (m, s) (m', s') then contrib (now L x) (viewed (in_view L x) m s) e else [])) /\
  (Exits x -> (forall t, In (t, false) (contrib (now L x) (viewed (in_view L x) m s) e) -> now L x < t) -> Exits x').
Proof.
  intros x m s [[k1 t1] [k2 t2]] P Hm Hs. cbv zeta. unfold schedule, contrib. cbn [moments].
  destruct (Qleb t1 (now L x) && Qltb t2 (now L x)).
  - split; [exact P|]. split; [apply kept_refl|]. split; [|auto]. intros m' s'. destruct (pair_eqb _ _); rewrite app_nil_r; reflexivity.
  - set (i := List.length (procs L x)). set (old := match mget m (events L x) with Some l => l | None => [] end).
    set (p := mkP m s k1 t1 k2 t2 PInit).
    set (x' := mkSt L _ _ _ _ _ _ _ _ _).
    assert (GET : forall j q, nth_error (procs L x') j = Some q <-> (nth_error (procs L x) j = Some q \/ (j = i /\ q = p))).
    { intros j q. cbn [procs x']. split.
      - intro H. destruct (Nat.lt_ge_cases j i) as [C|C].
        + rewrite nth_error_app1 in H by exact C. left. exact H.
        + rewrite nth_error_app2 in H by exact C. fold i in H. destruct (j - i)%nat eqn:D.
          * cbn [nth_error] in H. inversion H. right. split; [lia|reflexivity].
          * cbn [nth_error] in H. destruct n; discriminate.
      - intros [H|[-> ->]].
        + rewrite nth_error_app1; [exact H|eapply nth_lt; exact H].
        + rewrite nth_error_app2 by (unfold i; lia). unfold i. rewrite Nat.sub_diag. reflexivity. }
    assert (FRESH : forall q, nth_error (procs L x) i <> Some q).
    { intros q H. apply nth_lt in H. unfold i in H. lia. }
    assert (INT : forall j, In (UInterrupt j) (urgent L x') <-> In (UInterrupt j) (urgent L x)).
    { intro j. cbn [urgent x']. rewrite in_app_iff. cbn [In]. split; [intros [H|[H|[]]]; [exact H|discriminate]|auto]. }
    assert (NOT : ~ In (UInterrupt i) (urgent L x)).
    { intro H. destruct (P_doom x P i H) as [q [Hq _]]. exact (FRESH q Hq). }
    assert (EV : forall m0, mget m0 (events L x') = if Nat.eqb m m0 then Some (old ++ [i]) else mget m0 (events L x)).
    { intro m0. cbn [events x']. apply mget_mset. }
    split; [split|].
    + intro j. cbn [urgent x']. rewrite in_app_iff. cbn [In]. rewrite (P_init x P). split.
      * intros [[q [Hq Eq]]|[H|[]]]; [exists q; split; [apply GET; left; exact Hq|exact Eq]|].
        inversion H; subst j. exists p. split; [apply GET; right; auto|reflexivity].
      * intros [q [Hq Eq]]. apply GET in Hq. destruct Hq as [Hq|[-> ->]]; [left; exists q; auto|right; left; reflexivity].
    + cbn [urgent x']. apply nodup_snoc'; [apply (P_urg x P)|]. intro H. apply (P_init x P) in H. destruct H as [q [Hq _]]. exact (FRESH q Hq).
    + intros j H. apply INT in H. destruct (P_doom x P j H) as [q [Hq Eq]]. exists q. split; [apply GET; left; exact Hq|exact Eq].
    + intros j q Hq Al ND. rewrite INT in ND. rewrite EV. apply GET in Hq. destruct Hq as [Hq|[-> ->]].
      * destruct (P_live x P j q Hq Al ND) as [l [Hl Hj]]. destruct (Nat.eqb m (p_m q)) eqn:Q.
        -- apply Nat.eqb_eq in Q. exists (old ++ [i]). split; [reflexivity|]. apply in_app_iff. left. unfold old. rewrite Q, Hl. exact Hj.
        -- exists l. auto.
      * cbn [p_m p]. rewrite Nat.eqb_refl. eexists. split; [reflexivity|]. apply in_app_iff. right. left. reflexivity.
    + intros m0 l j. rewrite EV. intros Hl Hj. destruct (Nat.eqb m m0) eqn:Q.
      * apply Nat.eqb_eq in Q. subst m0. inversion Hl; subst l. apply in_app_iff in Hj. destruct Hj as [Hj|[Hj|[]]].
        -- unfold old in Hj. destruct (mget m (events L x)) as [l|] eqn:G; [|destruct Hj].
           destruct (P_ev x P m l j G Hj) as [q [Hq [Eq Nq]]]. exists q. split; [apply GET; left; exact Hq|]. split; [exact Eq|rewrite INT; exact Nq].
        -- subst j. exists p. split; [apply GET; right; auto|]. split; [reflexivity|rewrite INT; exact NOT].
      * destruct (P_ev x P m0 l j Hl Hj) as [q [Hq [Eq Nq]]]. exists q. split; [apply GET; left; exact Hq|]. split; [exact Eq|rewrite INT; exact Nq].
    + intros m0 l. rewrite EV. destruct (Nat.eqb m m0) eqn:Q; [|apply (P_evnd x P)]. intro H. inversion H; subst l.
      assert (OLD : NoDup old /\ ~ In i old).
      { unfold old. destruct (mget m (events L x)) as [l|] eqn:G; [|split; [constructor|intros []]].
        split; [apply (P_evnd x P m l G)|]. intro K. destruct (P_ev x P m l i G K) as [q [Hq _]]. exact (FRESH q Hq). }
      apply nodup_snoc'; apply OLD.
    + intros m0 l. rewrite EV. cbn [movers x']. destruct (Nat.eqb m m0) eqn:Q; [|apply (P_evm x P)].
      apply Nat.eqb_eq in Q. subst m0. intros _. exact Hm.
    + intros j q Hq. apply GET in Hq. cbn [sensors x']. destruct Hq as [Hq|[_ ->]]; [apply (P_sens x P j q Hq)|exact Hs].
    + apply (P_snd x P).
    + apply (P_mnd x P).
    + apply (P_vnd x P).
    + intros j q Hq. apply GET in Hq. destruct Hq as [Hq|[_ ->]]; [apply (P_due x P j q Hq)|exact I].
    + split; [repeat split|]. split.
      * intros m' s'. unfold rem. cbn [procs x']. rewrite app_length. cbn [List.length]. rewrite Nat.add_1_r, seq_S, flat_map_app.
        cbn [Nat.add flat_map]. rewrite app_nil_r. f_equal.
        -- apply flat_ext. intros j Hj. apply in_seq in Hj. unfold evs. cbn [procs x']. rewrite nth_error_app1 by lia.
           replace (doomed x' j) with (doomed x j); [reflexivity|].
           unfold doomed. cbn [urgent x']. rewrite existsb_app. cbn [existsb]. rewrite !orb_false_r. reflexivity.
        -- fold i. rewrite (evs_proc x' m' s' i p); [|apply GET; right; auto|apply doomed_not; rewrite INT; exact NOT].
           cbn [p_m p_s p]. unfold pair_eqb. cbn [fst snd]. destruct (Nat.eqb m m' && Nat.eqb s s') eqn:Q; [|reflexivity].
           apply andb_true_iff in Q. destruct Q as [Q1 Q2]. apply Nat.eqb_eq in Q1, Q2. subst m' s'.
           unfold pevs, at_once, exit_of. cbn [p_at p_k1 p_t1 p_k2 p_t2 p now x' in_view]. rewrite app_nil_r.
           destruct k1, k2; cbn [kind_eqb orb]; reflexivity.
      * intros Ex Fu j q Hq Aq Kq. cbn [now x']. apply GET in Hq. destruct Hq as [Hq|[_ ->]]; [apply (Ex j q Hq Aq Kq)|].
        cbn [p_k2 p_t2 p] in *. subst k2. apply Fu. apply in_app_iff. right. left. reflexivity.
Qed.
Lemma schedule_all_ok : forall l x m s, Pre x -> mget m (movers L x) <> None -> In s (sensors L x) ->
  let x' := fold_left (fun y e => schedule L y m s e) l x in
  Pre x' /\ kept x x' /\
  (forall m' s', rem x' m' s' = rem x m' s' ++ (if pair_eqb (m, s) (m', s') then moments (now L x) (viewed (in_view L x) m s) l else [])) /\
  (Exits x -> (forall t, In (t, false) (moments (now L x) (viewed (in_view L x) m s) l) -> now L x < t) -> Exits x').
Proof.
  induction l as [|e l IH]; intros x m s P Hm Hs; cbn [fold_left].
  - cbv zeta. split; [exact P|]. split; [apply kept_refl|]. split; [|auto]. intros. destruct (pair_eqb _ _); rewrite app_nil_r; reflexivity.
  - destruct (schedule_ok x m s e P Hm Hs) as [P1 [K1 [R1 E1]]].
    pose proof K1 as [N1 [_ [_ [S1 [M1 V1]]]]].
    destruct (IH (schedule L x m s e) m s P1) as [P2 [K2 [R2 E2]]]; [rewrite M1; exact Hm|rewrite S1; exact Hs|].
    cbv zeta. split; [exact P2|]. split; [eapply kept_trans; eassumption|]. rewrite N1, V1 in *. rewrite moments_cons. split.
    + intros m' s'. rewrite R2, R1. destruct (pair_eqb _ _); rewrite <- ?app_assoc; [reflexivity|rewrite !app_nil_r; reflexivity].
    + intros Ex Fu. apply E2; [apply E1; [exact Ex|]|]; intros t Ht; apply Fu, in_app_iff; auto.
Qed.
(** What _find_intersections does for the pairs of a list. *)
Definition planned (x : st) (m s : nat) (l : list crossing) : Prop :=
  exists speed ws start, mget m (movers L x) = Some (speed, ws, start) /\
    process_pair L intersection speed ws start (sensor_at L x s) = Ok l.
Lemma find_all_ok : forall prs x, Pre x -> Exits x -> NoDup prs ->
  (forall m s, In (m, s) prs -> mget m (movers L x) <> None /\ In s (sensors L x)) ->
  (forall m s l, In (m, s) prs -> planned x m s l -> orderly (now L x) (viewed (in_view L x) m s) l) ->
  let r := find_all L intersection x prs in
  Pre (fst r) /\ kept x (fst r) /\ Exits (fst r) /\
  (forall m s, ~ In (m, s) prs -> rem (fst r) m s = rem x m s) /\
  (forall m s, In (m, s) prs -> (rem (fst r) m s = rem x m s /\ snd r <> None) \/
     exists l, planned x m s l /\ rem (fst r) m s = rem x m s ++ moments (now L x) (viewed (in_view L x) m s) l).
Proof.
  induction prs as [|[m s] prs IH]; intros x P Ex ND K O; cbn [find_all].
  - cbv zeta. split; [exact P|]. split; [apply kept_refl|]. split; [exact Ex|]. split; [reflexivity|intros m s []].
  - cbv zeta. destruct (K m s (or_introl eq_refl)) as [Hm Hs]. unfold find_one.
    destruct (mget m (movers L x)) as [[[speed ws] start]|] eqn:G; [|congruence].
    destruct (process_pair L intersection speed ws start (sensor_at L x s)) as [l|e] eqn:PP.
    + destruct (schedule_all_ok l x m s P) as [P1 [K1 [R1 E1]]]; [congruence|exact Hs|].
      set (x1 := fold_left (fun y e => schedule L y m s e) l x) in *.
      assert (OL : orderly (now L x) (viewed (in_view L x) m s) l).
      { apply O; [left; reflexivity|]. exists speed, ws, start. auto. }
      assert (Ex1 : Exits x1). { apply E1; [exact Ex|]. apply OL. }
      pose proof K1 as [N1 [A1 [_ [S1 [M1 V1]]]]].
      inversion ND as [|? ? NI ND']; subst.
      assert (PL : forall m0 s0 l0, planned x1 m0 s0 l0 <-> planned x m0 s0 l0).
      { intros. unfold planned. rewrite M1, A1. tauto. }
      destruct (IH x1 P1 Ex1 ND') as [P2 [K2 [Ex2 [R2 R3]]]].
      * intros m0 s0 H. rewrite M1, S1. apply K. right. exact H.
      * intros m0 s0 l0 H H0. rewrite N1, V1. apply O; [right; exact H|apply PL; exact H0].
      * split; [exact P2|]. split; [eapply kept_trans; eassumption|]. split; [exact Ex2|]. split.
        -- intros m0 s0 H. rewrite R2 by (intro X; apply H; right; exact X). rewrite R1.
           replace (pair_eqb (m, s) (m0, s0)) with false; [apply app_nil_r|].
           symmetry. apply not_true_iff_false. intro X. apply pair_eqb_eq in X. apply H. left. exact X.
        -- intros m0 s0 [H|H].
           ++ inversion H; subst m0 s0. right. exists l. split; [exists speed, ws, start; auto|].
              rewrite R2 by exact NI. rewrite R1. rewrite (proj2 (pair_eqb_eq _ _) eq_refl). reflexivity.
           ++ assert (NE : pair_eqb (m, s) (m0, s0) = false).
              { apply not_true_iff_false. intro X. apply pair_eqb_eq in X. inversion X; subst. auto. }
              destruct (R3 m0 s0 H) as [[X1 X2]|[l0 [X1 X2]]].
              ** left. split; [rewrite X1, R1, NE; apply app_nil_r|exact X2].
              ** right. exists l0. split; [apply PL; exact X1|]. rewrite X2, R1, NE, app_nil_r, N1, V1. reflexivity.
    + cbn [fst snd]. split; [exact P|]. split; [apply kept_refl|]. split; [exact Ex|]. split; [reflexivity|].
      intros m0 s0 _. left. split; [reflexivity|discriminate].
Qed.
(** *** Starting and stopping *)
Definition told_ok (x x' : st) (o : list out) (m s : nat) : Prop :=
  alternates (negb (viewed (in_view L x) m s)) (said x o m s) /\
  viewed (in_view L x') m s = after (viewed (in_view L x) m s) (said x o m s).
Lemma same_after : forall a b v, same a b -> after v a = after v b.
Proof.
  intros a b v H. unfold after. f_equal. induction H as [|y z a b [_ H] _ IH]; [reflexivity|]. cbn [map]. congruence.
Qed.
Lemma conserves_told : forall x x' o m s, Good x m s -> conserves x x' o m s -> told_ok x x' o m s.
Proof.
  intros x x' o m s [_ [G _]] [d [S [R V]]]. rewrite R in G. apply alternates_app in G. split.
  - apply same_alternates with (a := d); [apply same_sym; exact S|apply G].
  - rewrite V. symmetry. apply same_after. exact S.
Qed.
Lemma idle_rem : forall x m s, Pre x -> mget m (movers L x) = None -> rem x m s = [].
Proof.
  intros x m s P H. unfold rem. assert (E : forall l, flat_map (evs x m s) l = []); [|apply E].
  induction l as [|j l IH]; [reflexivity|]. cbn [flat_map]. rewrite IH, app_nil_r. unfold evs.
  destruct (nth_error (procs L x) j) as [q|] eqn:Q; [|reflexivity].
  destruct (Nat.eqb (p_m q) m && Nat.eqb (p_s q) s && negb (doomed x j)) eqn:G; [|reflexivity].
  apply andb_true_iff in G. destruct G as [G G3]. apply andb_true_iff in G. destruct G as [G1 _].
  apply Nat.eqb_eq in G1. apply negb_true_iff in G3. apply doomed_not in G3. unfold pevs.
  destruct (p_at q) eqn:A; try reflexivity; exfalso;
    (destruct (P_live x P j q Q) as [l0 [X _]]; [congruence|exact G3|]; rewrite G1 in X; exact (P_evm x P m l0 X H)).
Qed.
Lemma new_rem : forall x m s, Pre x -> ~ In s (sensors L x) -> rem x m s = [].
Proof.
  intros x m s P H. unfold rem. assert (E : forall l, flat_map (evs x m s) l = []); [|apply E].
  induction l as [|j l IH]; [reflexivity|]. cbn [flat_map]. rewrite IH, app_nil_r. unfold evs.
  destruct (nth_error (procs L x) j) as [q|] eqn:Q; [|reflexivity].
  destruct (Nat.eqb (p_m q) m && Nat.eqb (p_s q) s && negb (doomed x j)) eqn:G; [|reflexivity].
  apply andb_true_iff in G. destruct G as [G G3]. apply andb_true_iff in G. destruct G as [_ G].
  apply Nat.eqb_eq in G. exfalso. apply H. rewrite <- G. apply (P_sens x P j q Q).
Qed.
Lemma orderly_good : forall x m s l, orderly (now L x) (viewed (in_view L x) m s) l ->
  rem x m s = moments (now L x) (viewed (in_view L x) m s) l -> Good x m s.
Proof.
  intros x m s l [O1 [O2 O3]] R. unfold Good. rewrite R. split; [exact O1|]. split; [exact O2|].
  intros [t b] H. destruct b; [|apply O3 in H; cbn [fst]; lra]. cbn [fst].
  clear - H. induction l as [|[[k1 t1] [k2 t2]] l IH]; [destruct H|]. cbn [moments] in H.
  destruct (Qleb t1 (now L x) && Qltb t2 (now L x)); [auto|].
  apply in_app_iff in H. destruct H as [H|H].
  - destruct (Qleb t1 (now L x)) eqn:Q; qbool; destruct k1; destruct (viewed (in_view L x) m s); cbn [In] in H;
      repeat destruct H as [H|H]; try (destruct H; fail); inversion H; subst; try lra.
  - apply in_app_iff in H. destruct H as [H|H]; [|auto]. destruct k2; cbn [In] in H; repeat destruct H as [H|H]; try (destruct H; fail); inversion H.
Qed.
(** A state with the same processes, urgent events, view and clock. *)
Lemma rem_fields : forall x x' m s, now L x' = now L x -> procs L x' = procs L x -> urgent L x' = urgent L x -> in_view L x' = in_view L x ->
  rem x' m s = rem x m s.
Proof.
  intros x x' m s A B C D. unfold rem. rewrite B. apply flat_ext. intros j _. unfold evs, doomed. rewrite A, B, C, D. reflexivity.
Qed.
Lemma said_raised : forall x o m s, (forall e, In e o -> exists r, e = Raised r) -> said x o m s = [].
Proof.
  intros x. induction o as [|e o IH]; intros m s H; [reflexivity|]. destruct (H e (or_introl eq_refl)) as [r ->].
  unfold said. cbn [map told]. apply IH. intros e' He'. apply H. right. exact He'.
Qed.
Lemma outcome_raised : forall r e, In e (snd (outcome L r)) -> exists k, e = Raised k.
Proof. intros [x [k|]] e H; cbn [outcome snd fst] in H; [destruct H as [<-|[]]; eauto|destruct H]. Qed.
Lemma said_outcome : forall x r m s, said x (snd (outcome L r)) m s = [].
Proof. intros. apply said_raised. intros e He. eapply outcome_raised. exact He. Qed.
Lemma crash_outcome : forall r, no_crash (snd (outcome L r)).
Proof. intros r e H. destruct (outcome_raised _ _ H) as [k E]. discriminate. Qed.

Lemma start_ok : forall x m speed ws, Inv x -> fair L intersection x (Start L m speed ws) ->
  let r := start_mover L intersection x m speed ws in
  Inv (fst r) /\ no_crash (snd r) /\ in_view L (fst r) = in_view L x /\ now L (fst r) = now L x /\ sensors L (fst r) = sensors L x /\
  (forall m' s', said x (snd r) m' s' = []) /\
  (forall m' s', m' <> m \/ mget m (movers L x) <> None -> rem (fst r) m' s' = rem x m' s') /\
  (forall m', mget m' (movers L (fst r)) <> None <-> mget m' (movers L x) <> None \/ (m' = m /\ detect L x m <> None)) /\
  (detect L x m = Some true -> mget m (movers L x) = None -> forall s, In s (sensors L x) ->
     (rem (fst r) m s = [] /\ snd r <> []) \/
     exists l, process_pair L intersection speed ws (now L x) (sensor_at L x s) = Ok l /\
       rem (fst r) m s = moments (now L x) (viewed (in_view L x) m s) l).
Proof.
  intros x m speed ws I F. cbv zeta. unfold start_mover. cbn [fair] in F.
  destruct (detect L x m) as [[|]|] eqn:D.
  - destruct (mget m (movers L x)) as [old|] eqn:G.
    + cbn [fst snd]. split; [exact I|]. split; [intros e [K|[]]; discriminate|]. split; [reflexivity|]. split; [reflexivity|]. split; [reflexivity|].
      split; [reflexivity|]. split; [reflexivity|]. split; [|intros _ K; congruence].
      intro m'. split; [auto|intros [K|[-> _]]; [exact K|congruence]].
    + set (x1 := mkSt L _ _ _ _ _ _ _ _ _).
      assert (P1 : Pre x1).
      { destruct (Inv_Pre x I). split; auto.
        - intros m0 l H. cbn [movers x1]. rewrite mget_mset. destruct (Nat.eqb m m0); [discriminate|]. apply (P_evm0 m0 l H).
        - cbn [movers x1]. apply mset_nodup. assumption. }
      assert (R1 : forall m' s', rem x1 m' s' = rem x m' s') by (intros; apply rem_fields; reflexivity).
      assert (GM : mget m (movers L x1) = Some (speed, ws, now L x)) by (cbn [movers x1]; rewrite mget_mset, Nat.eqb_refl; reflexivity).
      assert (PL : forall s l, planned x1 m s l -> process_pair L intersection speed ws (now L x) (sensor_at L x s) = Ok l).
      { intros s l [sp [w [t [X Y]]]]. rewrite GM in X. inversion X; subst. exact Y. }
      assert (NM : ~ moving L x m) by (apply mget_none; exact G).
      destruct (find_all_ok (map (fun s => (m, s)) (sensors L x)) x1 P1) as [P2 [K2 [E2 [R2 R3]]]].
      * exact (I_exit x I).
      * apply Injective_map_NoDup; [intros a b X; inversion X; reflexivity|apply (I_snd x I)].
      * intros m0 s0 H. apply in_map_iff in H. destruct H as [s1 [E1 H1]]. inversion E1; subst. split; [congruence|exact H1].
      * intros m0 s0 l H PP. apply in_map_iff in H. destruct H as [s1 [E1 H1]]. inversion E1; subst.
        apply (F eq_refl NM s0 l H1). apply PL. exact PP.
      * set (r := find_all L intersection x1 (map (fun s => (m, s)) (sensors L x))) in *.
        pose proof K2 as [N2 [_ [_ [S2 [M2 V2]]]]].
        assert (IR : forall s, rem x m s = []) by (intro; apply idle_rem; [apply Inv_Pre; exact I|exact G]).
        assert (OUT : forall m' s', m' <> m -> rem (fst r) m' s' = rem x m' s').
        { intros m' s' H. rewrite R2, R1; [reflexivity|]. intro X. apply in_map_iff in X. destruct X as [s1 [E1 _]]. inversion E1; congruence. }
        assert (NEW : forall s, In s (sensors L x) -> (rem (fst r) m s = [] /\ snd (outcome L r) <> []) \/
           exists l, process_pair L intersection speed ws (now L x) (sensor_at L x s) = Ok l /\
             rem (fst r) m s = moments (now L x) (viewed (in_view L x) m s) l).
        { intros s Hs. destruct (R3 m s) as [[X1 X2]|[l [X1 X2]]]; [apply in_map_iff; exists s; auto| |].
          - left. rewrite X1, R1, IR. split; [reflexivity|]. unfold outcome. cbn [snd]. destruct (snd r); [discriminate|congruence].
          - right. exists l. split; [apply PL; exact X1|]. rewrite X2, R1, IR. reflexivity. }
        cbn [outcome fst]. change (fst (outcome L r)) with (fst r).
        split; [|split; [apply crash_outcome|]]; [|split; [exact V2|]; split; [exact N2|]; split; [exact S2|]; split; [intros; apply said_outcome|]; split; [|split; [|intros _ _; exact NEW]]].
        -- apply Pre_Inv; [exact P2|exact E2|]. intros m' s'. destruct (Nat.eq_dec m' m) as [->|Hm].
           ++ destruct (in_dec Nat.eq_dec s' (sensors L x)) as [Hs|Hs].
              ** destruct (NEW s' Hs) as [[X _]|[l [X1 X2]]].
                 --- unfold Good. rewrite X. split; [exact Logic.I|]. split; [exact Logic.I|intros e []].
                 --- apply orderly_good with (l := l); rewrite N2, V2; [|exact X2]. apply (F eq_refl NM s' l Hs X1).
              ** unfold Good. rewrite (new_rem (fst r) m s' P2) by (rewrite S2; exact Hs). split; [exact Logic.I|]. split; [exact Logic.I|intros e []].
           ++ unfold Good. rewrite (OUT m' s' Hm), V2, N2. exact (I_rem x I m' s').
        -- intros m' s' [H|H]; [apply OUT; exact H|congruence].
        -- intro m'. rewrite M2. cbn [movers x1]. rewrite mget_mset. destruct (Nat.eqb m m') eqn:Q.
           ++ apply Nat.eqb_eq in Q. split; [intros _; right; split; [auto|congruence]|discriminate].
           ++ apply Nat.eqb_neq in Q. split; [auto|intros [K|[K _]]; [exact K|congruence]].
  - cbn [fst snd]. set (x1 := mkSt L _ _ _ _ _ _ _ _ _).
    assert (R1 : forall m' s', rem x1 m' s' = rem x m' s') by (intros; apply rem_fields; reflexivity).
    split; [|split; [intros e []|]; split; [reflexivity|]; split; [reflexivity|]; split; [reflexivity|]; split; [reflexivity|]; split; [intros; apply R1|]; split; [|discriminate]].
    + apply Pre_Inv; [|exact (I_exit x I)|].
      * destruct (Inv_Pre x I). split; auto.
        -- intros m0 l H. cbn [movers x1]. rewrite mget_mset. destruct (Nat.eqb m m0); [discriminate|]. apply (P_evm0 m0 l H).
        -- cbn [movers x1]. apply mset_nodup. assumption.
      * intros m' s'. unfold Good. rewrite R1. exact (I_rem x I m' s').
    + intro m'. cbn [movers x1]. rewrite mget_mset. destruct (Nat.eqb m m') eqn:Q.
      * apply Nat.eqb_eq in Q. split; [intros _; right; split; [auto|congruence]|discriminate].
      * apply Nat.eqb_neq in Q. split; [auto|intros [K|[K _]]; [exact K|congruence]].
  - cbn [fst snd]. split; [exact I|]. split; [intros e []|]. split; [reflexivity|]. split; [reflexivity|]. split; [reflexivity|].
    split; [reflexivity|]. split; [reflexivity|]. split; [|discriminate]. intro m'. split; [auto|intros [K|[_ K]]; [exact K|congruence]].
Qed.
Lemma add_sensor_ok : forall x s, Inv x -> fair L intersection x (AddSensor L s) ->
  let r := add_sensor L intersection x s in
  Inv (fst r) /\ no_crash (snd r) /\ in_view L (fst r) = in_view L x /\ now L (fst r) = now L x /\ movers L (fst r) = movers L x /\
  (forall s', In s' (sensors L (fst r)) <-> In s' (sensors L x) \/ s' = s) /\
  (forall m' s', said x (snd r) m' s' = []) /\
  (forall m' s', s' <> s \/ mget m' (movers L x) = None -> rem (fst r) m' s' = rem x m' s') /\
  (forall m speed ws start, mget m (movers L x) = Some (speed, ws, start) ->
     (rem (fst r) m s = [] /\ snd r <> []) \/
     exists l, process_pair L intersection speed ws start (sensor_at L x s) = Ok l /\
       rem (fst r) m s = moments (now L x) (viewed (in_view L x) m s) l).
Proof.
  intros x s I [NS F]. cbv zeta. unfold add_sensor.
  replace (memn s (sensors L x)) with false by (symmetry; apply not_true_iff_false; rewrite memn_in; exact NS).
  set (x1 := mkSt L _ _ _ _ _ _ _ _ _).
  assert (P1 : Pre x1).
  { destruct (Inv_Pre x I). split; auto.
    - intros i p H. cbn [sensors x1]. apply in_app_iff. left. apply (P_sens0 i p H).
    - cbn [sensors x1]. apply nodup_snoc'; assumption. }
  assert (R1 : forall m' s', rem x1 m' s' = rem x m' s') by (intros; apply rem_fields; reflexivity).
  destruct (find_all_ok (map (fun m => (fst m, s)) (movers L x)) x1 P1) as [P2 [K2 [E2 [R2 R3]]]].
  - exact (I_exit x I).
  - pose proof (I_mnd x I) as ND. replace (map (fun m => (fst m, s)) (movers L x)) with (map (fun k => (k, s)) (map fst (movers L x))) by (rewrite map_map; reflexivity).
    apply Injective_map_NoDup; [intros a b X; inversion X; reflexivity|exact ND].
  - intros m0 s0 H. apply in_map_iff in H. destruct H as [e [E1 H1]]. inversion E1; subst. split.
    + cbn [movers x1]. intro X. apply mget_none in X. apply X, in_map. exact H1.
    + cbn [sensors x1]. apply in_app_iff. right. left. reflexivity.
  - intros m0 s0 l H [sp [w [t [X Y]]]]. apply in_map_iff in H. destruct H as [e [E1 H1]]. inversion E1; subst.
    apply (F (fst e) sp w t l); [apply mget_in; exact X|exact Y].
  - set (r := find_all L intersection x1 (map (fun m => (fst m, s)) (movers L x))) in *.
    pose proof K2 as [N2 [_ [_ [S2 [M2 V2]]]]].
    assert (IR : forall m, rem x m s = []) by (intro; apply new_rem; [apply Inv_Pre; exact I|exact NS]).
    assert (OUT : forall m' s', s' <> s \/ mget m' (movers L x) = None -> rem (fst r) m' s' = rem x m' s').
    { intros m' s' H. rewrite R2, R1; [reflexivity|]. intro X. apply in_map_iff in X. destruct X as [e [E1 H1]]. inversion E1; subst.
      destruct H as [H|H]; [congruence|]. apply mget_none in H. apply H, in_map. exact H1. }
    assert (NEW : forall m speed ws start, mget m (movers L x) = Some (speed, ws, start) -> (rem (fst r) m s = [] /\ snd (outcome L r) <> []) \/
       exists l, process_pair L intersection speed ws start (sensor_at L x s) = Ok l /\
         rem (fst r) m s = moments (now L x) (viewed (in_view L x) m s) l).
    { intros m speed ws start Hm. destruct (R3 m s) as [[X1 X2]|[l [[sp [w [t [X1 X2]]]] X3]]].
      - apply in_map_iff. exists (m, (speed, ws, start)). split; [reflexivity|apply mget_in; exact Hm].
      - left. rewrite X1, R1, IR. split; [reflexivity|]. unfold outcome. cbn [snd]. destruct (snd r); [discriminate|congruence].
      - right. cbn [movers x1] in X1. rewrite Hm in X1. inversion X1; subst. exists l. split; [exact X2|]. rewrite X3, R1, IR. reflexivity. }
    change (fst (outcome L r)) with (fst r).
    split; [|split; [apply crash_outcome|]; split; [exact V2|]; split; [exact N2|]; split; [exact M2|]; split; [|split; [intros; apply said_outcome|]; split; [exact OUT|exact NEW]]].
    + apply Pre_Inv; [exact P2|exact E2|]. intros m' s'.
      destruct (Nat.eq_dec s' s) as [->|Hs]; [destruct (mget m' (movers L x)) as [[[sp w] t]|] eqn:G|].
      * destruct (NEW m' sp w t G) as [[X _]|[l [X1 X2]]].
        -- unfold Good. rewrite X. split; [exact Logic.I|]. split; [exact Logic.I|intros e []].
        -- apply orderly_good with (l := l); rewrite N2, V2; [|exact X2]. apply (F m' sp w t l); [apply mget_in; exact G|exact X1].
      * unfold Good. rewrite OUT, V2, N2 by (right; exact G). exact (I_rem x I m' s).
      * unfold Good. rewrite OUT, V2, N2 by (left; exact Hs). exact (I_rem x I m' s').
    + intro s'. rewrite S2. cbn [sensors x1]. rewrite in_app_iff. cbn [In]. split; [intros [H|[H|[]]]; auto|intros [H|H]; auto].
Qed.
(** Stopping, given the processes of the mover have begun; the detectability may have
    been changed just before. *)
Lemma stop_ok : forall x m b, Inv x -> ~ just_started L x m ->
  let r := stop_mover L x m b in
  Inv (fst r) /\ no_crash (snd r) /\ in_view L (fst r) = in_view L x /\ now L (fst r) = now L x /\ sensors L (fst r) = sensors L x /\
  (forall m' s', said x (snd r) m' s' = []) /\
  (forall m' s', m' <> m -> rem (fst r) m' s' = rem x m' s') /\
  (detect L x m <> None -> forall s', rem (fst r) m s' = []) /\
  (forall m', mget m' (movers L (fst r)) <> None -> mget m' (movers L x) <> None) /\
  (forall m', m' <> m -> mget m' (movers L (fst r)) = mget m' (movers L x)) /\
  (detect L x m <> None -> mget m (movers L (fst r)) = None).
Proof.
  intros x m b I JS. cbv zeta. unfold stop_mover.
  assert (NOP : forall o, (forall e, In e o -> exists k, e = Raised k) -> (detect L x m <> None -> mget m (movers L x) = None) ->
    Inv x /\ no_crash o /\ in_view L x = in_view L x /\ now L x = now L x /\ sensors L x = sensors L x /\
    (forall m' s', said x o m' s' = []) /\
    (forall m' s', m' <> m -> rem x m' s' = rem x m' s') /\ (detect L x m <> None -> forall s', rem x m s' = []) /\
    (forall m', mget m' (movers L x) <> None -> mget m' (movers L x) <> None) /\
    (forall m', m' <> m -> mget m' (movers L x) = mget m' (movers L x)) /\ (detect L x m <> None -> mget m (movers L x) = None)).
  { intros o H1 H2. split; [exact I|]. split; [intros e K; destruct (H1 _ K) as [k X]; discriminate|].
    do 3 (split; [reflexivity|]). split; [intros; apply said_raised; exact H1|]. split; [reflexivity|].
    split; [intros D s'; apply idle_rem; [apply Inv_Pre; exact I|auto]|]. split; [auto|]. split; [reflexivity|exact H2]. }
  destruct (detect L x m) as [dt|] eqn:D; [|apply NOP; [intros e []|congruence]].
  destruct (mget m (movers L x)) as [old|] eqn:G.
  2: { destruct dt; destruct b; cbn [negb fst snd]; rewrite ?G; apply NOP; auto; try (intros e []; fail).
       intros e [<-|[]]. eexists. reflexivity. }
  cbn [fst snd]. clear NOP.
  set (l := match mget m (events L x) with Some l => l | None => [] end).
  set (x' := mkSt L _ _ _ _ _ _ _ _ _).
  assert (LI : forall i, In i l -> exists p, nth_error (procs L x) i = Some p /\ p_m p = m /\ ~ In (UInterrupt i) (urgent L x) /\ p_at p <> PInit).
  { intros i Hi. unfold l in Hi. destruct (mget m (events L x)) as [l0|] eqn:E; [|destruct Hi].
    destruct (I_ev x I m l0 i E Hi) as [p [Hp [Em En]]]. exists p. split; [exact Hp|]. split; [exact Em|]. split; [exact En|].
    intro A. apply JS. exists i, p. split; [apply (I_init x I); eauto|]. auto. }
  assert (LN : NoDup l). { unfold l. destruct (mget m (events L x)) as [l0|] eqn:E; [apply (I_evnd x I m l0 E)|constructor]. }
  assert (UI : forall i, In (UInit i) (urgent L x') <-> In (UInit i) (urgent L x)).
  { intro i. cbn [urgent x']. rewrite in_app_iff. split; [|auto]. intros [H|H]; [exact H|].
    apply in_map_iff in H. destruct H as [? [H _]]. discriminate. }
  assert (UT : forall i, In (UInterrupt i) (urgent L x') <-> In (UInterrupt i) (urgent L x) \/ (In i l /\ alive L x i = true)).
  { intro i. cbn [urgent x']. rewrite in_app_iff. rewrite in_map_iff. split; intros [H|H]; auto.
    - destruct H as [j [E H]]. inversion E; subst. apply filter_In in H. auto.
    - right. exists i. split; [reflexivity|]. apply filter_In. exact H. }
  assert (EV : forall m0, mget m0 (events L x') = if Nat.eqb m m0 then None else mget m0 (events L x)) by (intro; cbn [events x']; apply mget_mdel).
  assert (MV : forall m0, mget m0 (movers L x') = if Nat.eqb m m0 then None else mget m0 (movers L x)) by (intro; cbn [movers x']; apply mget_mdel).
  assert (P' : Pre x').
  { split.
    - intro i. rewrite UI. apply (I_init x I).
    - cbn [urgent x']. assert (NM : NoDup (map UInterrupt (filter (alive L x) l))).
      { apply Injective_map_NoDup; [intros a c X; inversion X; reflexivity|apply NoDup_filter; exact LN]. }
      pose proof (I_urg x I) as NU. assert (DJ : forall a, In a (urgent L x) -> ~ In a (map UInterrupt (filter (alive L x) l))).
      { intros a Ha Hb. apply in_map_iff in Hb. destruct Hb as [j [<- Hj]]. apply filter_In in Hj. destruct (LI j (proj1 Hj)) as [p [_ [_ [X _]]]]. auto. }
      clear - NM NU DJ. induction (urgent L x) as [|a u IH]; [exact NM|]. inversion NU as [|? ? Ha Nu]; subst. cbn [app]. constructor.
      + intro X. apply in_app_iff in X. destruct X as [X|X]; [auto|]. apply (DJ a (or_introl eq_refl) X).
      + apply IH; [exact Nu|]. intros b0 Hb. apply DJ. right. exact Hb.
    - intros i H. apply UT in H. destruct H as [H|[H _]]; [apply (I_doom x I i H)|].
      destruct (LI i H) as [p [Hp [_ [_ A]]]]. exists p. auto.
    - intros i p Hp Al ND. cbn [procs x'] in Hp. rewrite UT in ND. rewrite EV.
      destruct (I_live x I i p Hp Al) as [l0 [Hl Hi]]; [tauto|]. destruct (Nat.eqb m (p_m p)) eqn:Q.
      + apply Nat.eqb_eq in Q. exfalso. apply ND. right. split.
        * unfold l. rewrite Q, Hl. exact Hi.
        * unfold alive. rewrite Hp. destruct (p_at p); congruence.
      + exists l0. auto.
    - intros m0 l0 i. rewrite EV. destruct (Nat.eqb m m0) eqn:Q; [discriminate|]. intros Hl Hi.
      destruct (I_ev x I m0 l0 i Hl Hi) as [p [Hp [Em En]]]. exists p. split; [exact Hp|]. split; [exact Em|].
      rewrite UT. intros [K|[K _]]; [auto|]. destruct (LI i K) as [p' [Hp' [Em' _]]]. apply Nat.eqb_neq in Q. congruence.
    - intros m0 l0. rewrite EV. destruct (Nat.eqb m m0); [discriminate|]. apply (I_evnd x I).
    - intros m0 l0. rewrite EV, MV. destruct (Nat.eqb m m0); [discriminate|]. apply (I_evm x I).
    - apply (I_sens x I).
    - apply (I_snd x I).
    - cbn [movers x']. apply mdel_nodup. apply (I_mnd x I).
    - apply (I_vnd x I).
    - apply (I_due x I). }
  assert (OUT : forall m' s', m' <> m -> rem x' m' s' = rem x m' s').
  { intros m' s' Hm. apply rem_same; [reflexivity|]. intro j. unfold evs. cbn [procs x' now in_view].
    destruct (nth_error (procs L x) j) as [q|] eqn:E; [|reflexivity].
    destruct (Nat.eqb (p_m q) m' && Nat.eqb (p_s q) s') eqn:Q; [|reflexivity]. cbn [andb].
    replace (doomed x' j) with (doomed x j); [reflexivity|].
    apply andb_true_iff in Q. destruct Q as [Q _]. apply Nat.eqb_eq in Q.
    destruct (doomed x j) eqn:Dj.
    - symmetry. apply doomed_in. apply UT. left. apply doomed_in. exact Dj.
    - symmetry. apply doomed_not. rewrite UT. intros [K|[K _]]; [apply doomed_not in Dj; auto|].
      destruct (LI j K) as [q' [Hq' [Em _]]]. congruence. }
  assert (NIL : forall s', rem x' m s' = []).
  { intro s'. apply idle_rem; [exact P'|]. rewrite MV, Nat.eqb_refl. reflexivity. }
  split; [|split; [intros e []|]; do 3 (split; [reflexivity|]); split; [reflexivity|]; split; [exact OUT|]; split; [intros _; exact NIL|]; split; [|split]].
  - apply Pre_Inv; [exact P'|exact (I_exit x I)|]. intros m' s'. destruct (Nat.eq_dec m' m) as [->|Hm].
    + unfold Good. rewrite NIL. split; [exact Logic.I|]. split; [exact Logic.I|intros e []].
    + unfold Good. rewrite OUT by exact Hm. exact (I_rem x I m' s').
  - intro m'. rewrite MV. destruct (Nat.eqb m m'); [congruence|auto].
  - intros m' Hm. rewrite MV. replace (Nat.eqb m m') with false; [reflexivity|]. symmetry. apply Nat.eqb_neq. auto.
  - intros _. rewrite MV, Nat.eqb_refl. reflexivity.
Qed.
(** *** Hiding *)
Definition with_view (x : st) (v : list (nat * nat)) : st :=
  mkSt L (now L x) (sensor_at L x) (detect L x) (sensors L x) (movers L x) (events L x) v (procs L x) (urgent L x).
Lemma stop_view : forall x v m b, stop_mover L (with_view x v) m b = (with_view (fst (stop_mover L x m b)) v, snd (stop_mover L x m b)).
Proof.
  intros x v m b. unfold stop_mover. cbn [detect movers events with_view].
  destruct (detect L x m) as [dt|]; [|reflexivity]. destruct (mget m (movers L x)) as [old|]; [reflexivity|].
  destruct dt; destruct b; reflexivity.
Qed.
Lemma told_exits : forall t s m v, told s m (map (pair t) (map (fun ms : nat * nat => Exited (snd ms) (fst ms)) v)) =
  map (fun _ => (t, false)) (filter (pair_eqb (m, s)) v).
Proof.
  intros t s m. induction v as [|[m0 s0] v IH]; [reflexivity|]. cbn [map told fst snd filter]. unfold pair_eqb at 1. cbn [fst snd].
  rewrite (andb_comm (Nat.eqb s s0)). destruct (Nat.eqb m m0 && Nat.eqb s s0); cbn [map]; rewrite IH; reflexivity.
Qed.
Lemma filter_once : forall m s v, NoDup v -> filter (pair_eqb (m, s)) v = if viewed v m s then [(m, s)] else [].
Proof.
  intros m s. induction v as [|[m0 s0] v IH]; intro N; [reflexivity|]. inversion N as [|? ? H1 H2]; subst.
  cbn [filter]. unfold viewed in *. cbn [existsb]. destruct (pair_eqb (m, s) (m0, s0)) eqn:E; cbn [orb]; rewrite (IH H2); [|reflexivity].
  apply pair_eqb_eq in E. inversion E; subst. destruct (existsb (pair_eqb (m0, s0)) v) eqn:X; [|reflexivity].
  exfalso. apply H1. apply viewed_in. exact X.
Qed.
Lemma viewed_hidden : forall v m m' s, viewed (filter (fun ms : nat * nat => negb (Nat.eqb (fst ms) m)) v) m' s = negb (Nat.eqb m' m) && viewed v m' s.
Proof.
  intros v m m' s. induction v as [|[m0 s0] v IH]; [cbn; rewrite andb_false_r; reflexivity|].
  cbn [filter fst]. unfold viewed in *. destruct (Nat.eqb m0 m) eqn:E; cbn [negb existsb]; rewrite IH.
  - destruct (pair_eqb (m', s) (m0, s0)) eqn:X; [|reflexivity]. apply pair_eqb_eq in X. inversion X; subst. rewrite E. reflexivity.
  - destruct (pair_eqb (m', s) (m0, s0)) eqn:X; [|reflexivity]. apply pair_eqb_eq in X. inversion X; subst. rewrite E. reflexivity.
Qed.
Lemma told_other : forall t s m m0 v, m <> m0 ->
  told s m (map (pair t) (map (fun ms : nat * nat => Exited (snd ms) (fst ms)) (filter (fun ms => Nat.eqb (fst ms) m0) v))) = [].
Proof.
  intros t s m m0 v H. rewrite told_exits. induction v as [|[m1 s1] v IH]; [reflexivity|]. cbn [filter fst].
  destruct (Nat.eqb m1 m0) eqn:E; [|exact IH]. apply Nat.eqb_eq in E. cbn [filter]. unfold pair_eqb at 1. cbn [fst snd].
  replace (Nat.eqb m m1) with false by (symmetry; apply Nat.eqb_neq; congruence). exact IH.
Qed.
Lemma told_here : forall t s m v, NoDup v ->
  told s m (map (pair t) (map (fun ms : nat * nat => Exited (snd ms) (fst ms)) (filter (fun ms => Nat.eqb (fst ms) m) v))) =
  if viewed v m s then [(t, false)] else [].
Proof.
  intros t s m v N. rewrite told_exits, filter_once by (apply NoDup_filter; exact N).
  replace (viewed (filter (fun ms : nat * nat => Nat.eqb (fst ms) m) v) m s) with (viewed v m s); [destruct (viewed v m s); reflexivity|].
  clear N. unfold viewed. induction v as [|[m0 s0] v IH]; [reflexivity|]. cbn [filter fst existsb].
  destruct (Nat.eqb m0 m) eqn:E; cbn [existsb]; rewrite IH; [reflexivity|].
  replace (pair_eqb (m, s) (m0, s0)) with false; [reflexivity|]. symmetry. unfold pair_eqb. cbn [fst snd]. rewrite (Nat.eqb_sym m m0), E. reflexivity.
Qed.
Lemma rem_of_view : forall x v m s, viewed v m s = viewed (in_view L x) m s -> rem (with_view x v) m s = rem x m s.
Proof.
  intros x v m s H. unfold rem. cbn [procs with_view]. apply flat_ext. intros j _. unfold evs. cbn [procs now in_view with_view].
  change (doomed (with_view x v) j) with (doomed x j). rewrite H. reflexivity.
Qed.
Lemma said_app : forall x a b m s, said x (a ++ b) m s = said x a m s ++ said x b m s.
Proof. intros. unfold said. rewrite map_app, told_app. reflexivity. Qed.
Lemma hide_ok : forall x m dt, Inv x -> detect L x m = Some dt -> ~ just_started L x m ->
  let r := step x (SetDetect L m false) in
  Inv (fst r) /\ no_crash (snd r) /\ now L (fst r) = now L x /\ sensors L (fst r) = sensors L x /\
  (forall s', said x (snd r) m s' = if viewed (in_view L x) m s' then [(now L x, false)] else []) /\
  (forall s', viewed (in_view L (fst r)) m s' = false) /\
  (forall m' s', m' <> m -> said x (snd r) m' s' = [] /\ rem (fst r) m' s' = rem x m' s' /\ viewed (in_view L (fst r)) m' s' = viewed (in_view L x) m' s') /\
  (forall s', rem (fst r) m s' = []) /\
  (forall m', m' <> m -> mget m' (movers L (fst r)) = mget m' (movers L x)) /\
  mget m (movers L (fst r)) = None.
Proof.
  intros x m dt I D JS. cbv zeta. cbn [step]. rewrite D. set (x1 := mkSt L _ _ _ _ _ _ _ _ _).
  assert (I1 : Inv x1) by (destruct I; constructor; auto).
  assert (D1 : detect L x1 m <> None) by (cbn [detect x1]; unfold upd; rewrite Nat.eqb_refl; discriminate).
  unfold not_detectable. set (v := filter (fun ms : nat * nat => negb (Nat.eqb (fst ms) m)) (in_view L x1)).
  change (mkSt L (now L x1) (sensor_at L x1) (detect L x1) (sensors L x1) (movers L x1) (events L x1) v (procs L x1) (urgent L x1)) with (with_view x1 v).
  rewrite stop_view. destruct (stop_ok x1 m true I1 JS) as [I2 [C2 [V2 [N2 [S2 [T2 [R2 [R3 [M2 [M3 M4]]]]]]]]]].
  cbn [fst snd]. set (y := fst (stop_mover L x1 m true)) in *. set (o := snd (stop_mover L x1 m true)) in *.
  assert (VW : forall m' s', viewed v m' s' = negb (Nat.eqb m' m) && viewed (in_view L y) m' s') by (intros; unfold v; rewrite viewed_hidden, V2; reflexivity).
  assert (O : forall m' s', m' <> m -> viewed v m' s' = viewed (in_view L y) m' s').
  { intros m' s' H. rewrite VW. replace (Nat.eqb m' m) with false; [reflexivity|symmetry; apply Nat.eqb_neq; exact H]. }
  assert (R4 : forall s', rem (with_view y v) m s' = []).
  { intro s'. apply idle_rem; [|exact (M4 D1)]. destruct (Inv_Pre y I2). split; auto. cbn [in_view with_view]. apply NoDup_filter. exact (I_vnd x1 I1). }
  split.
  { apply Pre_Inv.
    - destruct (Inv_Pre y I2). split; auto. cbn [in_view with_view]. apply NoDup_filter. exact (I_vnd x1 I1).
    - exact (I_exit y I2).
    - intros m' s'. unfold Good. destruct (Nat.eq_dec m' m) as [->|H].
      + rewrite R4. split; [exact Logic.I|]. split; [exact Logic.I|intros e []].
      + rewrite rem_of_view by (apply O; exact H). cbn [in_view with_view now]. rewrite O by exact H. apply (I_rem y I2). }
  split. { intros e H. apply in_app_iff in H. destruct H as [H|H]; [|apply (C2 e H)]. apply in_map_iff in H. destruct H as [? [H _]]. discriminate. }
  split; [exact N2|]. split; [exact S2|]. split.
  { intro s'. rewrite said_app. change (said x o m s') with (said x1 o m s'). rewrite T2, app_nil_r. unfold said. apply told_here. exact (I_vnd x I). }
  split. { intro s'. cbn [in_view with_view]. rewrite VW, Nat.eqb_refl. reflexivity. }
  split.
  { intros m' s' H. split; [|split].
    - rewrite said_app. change (said x o m' s') with (said x1 o m' s'). rewrite T2, app_nil_r. unfold said. apply told_other. exact H.
    - rewrite rem_of_view by (apply O; exact H). rewrite R2 by exact H. apply rem_fields; reflexivity.
    - cbn [in_view with_view]. rewrite O, V2 by exact H. reflexivity. }
  split; [exact R4|]. split; [|exact (M4 D1)]. intros m' H. exact (M3 m' H).
Qed.

(** *** Every step *)
Definition plain (x x' : st) (o : list out) : Prop :=
  Inv x' /\ no_crash o /\ (forall m s, conserves x x' o m s) /\ movers L x' = movers L x /\ sensors L x' = sensors L x.
Lemma conserves_nil : forall x x' o m s, said x o m s = [] -> rem x' m s = rem x m s -> viewed (in_view L x') m s = viewed (in_view L x) m s ->
  conserves x x' o m s.
Proof. intros x x' o m s A B C. exists []. rewrite A, B, C. split; [constructor|]. split; reflexivity. Qed.
Lemma plain_refl : forall x, Inv x -> plain x x [].
Proof.
  intros x I. split; [exact I|]. split; [intros e []|]. split; [|split; reflexivity]. intros. apply conserves_nil; reflexivity.
Qed.
Lemma begin_fields : forall x i p u, movers L (fst (begin_notify L x i p u)) = movers L x /\ sensors L (fst (begin_notify L x i p u)) = sensors L x.
Proof.
  intros. unfold begin_notify. destruct (kind_eqb (p_k1 p) START_INSIDE || Qleb (p_t1 p - now L x) 0); [|split; reflexivity].
  destruct (after_entry L x p). split; reflexivity.
Qed.
Definition is_plain (o : op L) : bool :=
  match o with Urgent _ | Fire _ _ | Time _ _ | SetSensor _ _ _ | SetDetect _ _ true => true | _ => false end.
Lemma plain_ok : forall x o, Inv x -> is_plain o = true -> plain x (fst (step x o)) (snd (step x o)).
Proof.
  intros x o I H. destruct o as [m sp ws|m|m b|s|s a| |i|t]; try discriminate H; cbn [step].
  - destruct b; [|discriminate H]. destruct (detect L x m); [|apply plain_refl; exact I]. cbn [fst snd].
    split; [destruct I; constructor; auto|]. split; [intros e []|]. split; [|split; reflexivity]. intros m0 s0. apply conserves_nil; [reflexivity| |reflexivity].
    apply rem_fields; reflexivity.
  - cbn [fst snd]. split; [destruct I; constructor; auto|]. split; [intros e []|]. split; [|split; reflexivity]. intros m0 s0. apply conserves_nil; [reflexivity| |reflexivity].
    apply rem_fields; reflexivity.
  - destruct (urgent L x) as [|[i|i] u] eqn:U; [apply plain_refl; exact I| |]; (destruct (nth_error (procs L x) i) as [p|] eqn:E; [|apply plain_refl; exact I]).
    + destruct (begin_ok x i p u I U E) as [A [B C]]. destruct (begin_fields x i p u) as [F1 F2].
      split; [exact A|]. split; [exact C|]. split; [exact B|]. split; assumption.
    + destruct (interrupt_ok x i p u I U E) as [A B]. split; [exact A|]. split; [intros e []|]. split; [exact B|]. split; reflexivity.
  - destruct (urgent L x) as [|w u] eqn:U; [|apply plain_refl; exact I].
    destruct (nth_error (procs L x) i) as [p|] eqn:E; [|apply plain_refl; exact I].
    destruct (p_at p) as [|d|d|] eqn:A; try (apply plain_refl; exact I);
      (destruct (Qeqb d (now L x)) eqn:Q; [|apply plain_refl; exact I]); qbool; destruct (fire_ok x i p d I U E) as [F1 F2].
    + destruct (F1 A Q) as [X [Y Z]]. split; [exact X|]. split; [exact Z|]. split; [exact Y|]. unfold notify_entry. destruct (after_entry L x p). split; reflexivity.
    + destruct (F2 A Q) as [X [Y Z]]. split; [exact X|]. split; [exact Z|]. split; [exact Y|]. split; reflexivity.
  - destruct (urgent L x) as [|w u] eqn:U; [|apply plain_refl; exact I].
    destruct (Qltb (now L x) t && forallb (fun p => match due_at p with Some d => Qleb t d | None => true end) (procs L x)) eqn:G; [|apply plain_refl; exact I].
    apply andb_true_iff in G. destruct G as [G1 G2]. qbool. destruct (time_ok x t I U G1 G2) as [A B]. rewrite U in *. cbn [fst snd].
    split; [exact A|]. split; [intros e []|]. split; [exact B|]. split; reflexivity.
Qed.
Lemma quiet_told : forall x x' o m s, said x o m s = [] -> viewed (in_view L x') m s = viewed (in_view L x) m s -> told_ok x x' o m s.
Proof. intros x x' o m s A B. unfold told_ok. rewrite A, B. split; [exact Logic.I|reflexivity]. Qed.
Lemma told_idle : forall x x' o m s, rem x m s = [] -> conserves x x' o m s -> said x o m s = [] /\ viewed (in_view L x') m s = viewed (in_view L x) m s.
Proof.
  intros x x' o m s R [d [S [E V]]]. rewrite R in E. symmetry in E. apply app_eq_nil in E. destruct E as [-> _]. inversion S. rewrite V. split; reflexivity.
Qed.
Theorem step_ok : forall x o, Inv x -> fair L intersection x o ->
  let r := step x o in
  Inv (fst r) /\ no_crash (snd r) /\ (forall m s, told_ok x (fst r) (snd r) m s) /\
  (forall s, In s (sensors L x) -> In s (sensors L (fst r))) /\
  (forall m s, ~ ends L m o -> mget m (movers L x) <> None -> In s (sensors L x) ->
     conserves x (fst r) (snd r) m s /\ mget m (movers L (fst r)) <> None) /\
  (forall m, mget m (movers L x) = None -> (forall sp ws, o <> Start L m sp ws) ->
     mget m (movers L (fst r)) = None /\
     forall s, (o <> SetDetect L m false \/ viewed (in_view L x) m s = false) -> said x (snd r) m s = [] /\ viewed (in_view L (fst r)) m s = viewed (in_view L x) m s).
Proof.
  intros x o I F. cbv zeta.
  assert (PL : is_plain o = true -> let r := step x o in
    Inv (fst r) /\ no_crash (snd r) /\ (forall m s, told_ok x (fst r) (snd r) m s) /\
    (forall s, In s (sensors L x) -> In s (sensors L (fst r))) /\
    (forall m s, ~ ends L m o -> mget m (movers L x) <> None -> In s (sensors L x) ->
       conserves x (fst r) (snd r) m s /\ mget m (movers L (fst r)) <> None) /\
    (forall m, mget m (movers L x) = None -> (forall sp ws, o <> Start L m sp ws) ->
       mget m (movers L (fst r)) = None /\
       forall s, (o <> SetDetect L m false \/ viewed (in_view L x) m s = false) -> said x (snd r) m s = [] /\ viewed (in_view L (fst r)) m s = viewed (in_view L x) m s)).
  { intros H. cbv zeta. destruct (plain_ok x o I H) as [A [B [C [D E]]]]. split; [exact A|]. split; [exact B|].
    split; [intros; apply conserves_told; [apply (I_rem x I)|apply C]|]. rewrite D, E. split; [auto|]. split; [auto|].
    intros m Hm _. split; [exact Hm|]. intros s _. apply told_idle; [|apply C]. apply idle_rem; [apply Inv_Pre; exact I|exact Hm]. }
  destruct o as [m sp ws|m|m b|s|s a| |i|t]; try (apply PL; reflexivity).
  - clear PL. destruct (start_ok x m sp ws I F) as [A [B [C [D [E [G [H [J _]]]]]]]]. cbn [step] in *.
    split; [exact A|]. split; [exact B|]. split; [intros; apply quiet_told; [apply G|rewrite C; reflexivity]|].
    rewrite E. split; [auto|]. split.
    + intros m0 s0 _ Hm _. split; [|apply J; auto]. apply conserves_nil; [apply G| |rewrite C; reflexivity]. apply H.
      destruct (Nat.eq_dec m0 m) as [->|X]; auto.
    + intros m0 Hm Hn. split; [|intros s0 _; split; [apply G|rewrite C; reflexivity]].
      destruct (mget m0 (movers L (fst (start_mover L intersection x m sp ws)))) eqn:X; [|reflexivity].
      assert (Y : mget m0 (movers L (fst (start_mover L intersection x m sp ws))) <> None) by congruence.
      apply J in Y. destruct Y as [Y|[-> _]]; [congruence|]. exfalso. apply (Hn sp ws). reflexivity.
  - clear PL. destruct (stop_ok x m false I F) as [A [B [C [D [E [G [H [_ [J [K _]]]]]]]]]]. cbn [step] in *.
    split; [exact A|]. split; [exact B|]. split; [intros; apply quiet_told; [apply G|rewrite C; reflexivity]|].
    rewrite E. split; [auto|]. split.
    + intros m0 s0 Hn Hm _. assert (m0 <> m) by (intro X; apply Hn; subst; left; reflexivity).
      rewrite K by assumption. split; [|exact Hm]. apply conserves_nil; [apply G|apply H; assumption|rewrite C; reflexivity].
    + intros m0 Hm _. split; [|intros s0 _; split; [apply G|rewrite C; reflexivity]].
      destruct (mget m0 (movers L (fst (stop_mover L x m false)))) eqn:X; [|reflexivity]. exfalso. apply (J m0); [congruence|exact Hm].
  - destruct b; [apply PL; reflexivity|]. clear PL. destruct (detect L x m) as [dt|] eqn:Dt.
    + destruct (hide_ok x m dt I Dt F) as [A [B [C [D [E [G [H [J [K M]]]]]]]]]. cbv zeta in *.
      set (r := step x (SetDetect L m false)) in *.
      split; [exact A|]. split; [exact B|]. split; [|rewrite D; split; [auto|split]].
      * intros m0 s0. destruct (Nat.eq_dec m0 m) as [->|X].
        -- unfold told_ok. rewrite E, G. destruct (viewed (in_view L x) m s0); cbn; auto.
        -- destruct (H m0 s0 X) as [H1 [_ H3]]. apply quiet_told; assumption.
      * intros m0 s0 Hn Hm _. assert (X : m0 <> m) by (intro X; apply Hn; subst; right; reflexivity).
        destruct (H m0 s0 X) as [H1 [H2 H3]]. rewrite K by exact X. split; [apply conserves_nil; assumption|exact Hm].
      * intros m0 Hm _. destruct (Nat.eq_dec m0 m) as [->|X].
        -- split; [exact M|]. intros s0 [Z|Z]; [congruence|]. rewrite E, G, Z. split; reflexivity.
        -- rewrite K by exact X. split; [exact Hm|]. intros s0 _. destruct (H m0 s0 X) as [H1 [_ H3]]. split; assumption.
    + cbn [step]. rewrite Dt. cbn [fst snd]. split; [exact I|]. split; [intros e []|]. split; [intros; apply quiet_told; reflexivity|].
      split; [auto|]. split; [intros; split; [apply conserves_nil; reflexivity|assumption]|]. intros m0 Hm _. split; [exact Hm|]. intros; split; reflexivity.
  - clear PL. destruct (add_sensor_ok x s I F) as [A [B [C [D [E [G [H [J _]]]]]]]]. cbn [step] in *.
    split; [exact A|]. split; [exact B|]. split; [intros; apply quiet_told; [apply H|rewrite C; reflexivity]|].
    split; [intros s0 Hs; apply G; left; exact Hs|]. rewrite E. split.
    + intros m0 s0 _ Hm Hs. split; [|exact Hm]. apply conserves_nil; [apply H| |rewrite C; reflexivity]. apply J. left. intros ->. destruct F as [F _]. auto.
    + intros m0 Hm _. split; [exact Hm|]. intros s0 _. split; [apply H|rewrite C; reflexivity].
Qed.
(** *** Runs *)
Lemma run_cons : forall x o ops, run x (o :: ops) =
  (fst (run (fst (step x o)) ops), map (pair (now L x)) (snd (step x o)) ++ snd (run (fst (step x o)) ops)).
Proof. intros x o ops. cbn [MotModel.run]. destruct (step x o) as [x1 o1]. cbn [fst snd]. destruct (run x1 ops). reflexivity. Qed.
Lemma run_app : forall a b x, run x (a ++ b) = (fst (run (fst (run x a)) b), snd (run x a) ++ snd (run (fst (run x a)) b)).
Proof.
  induction a as [|o a IH]; intros b x.
  - cbn [app]. change (run x []) with (x, @nil (Q * out)). cbn [fst snd app]. apply surjective_pairing.
  - change ((o :: a) ++ b) with (o :: (a ++ b)). rewrite !run_cons, IH. cbn [fst snd]. rewrite app_assoc. reflexivity.
Qed.
Lemma fair_app : forall a b x, fair_run L intersection x (a ++ b) <-> fair_run L intersection x a /\ fair_run L intersection (fst (run x a)) b.
Proof.
  induction a as [|o a IH]; intros b x; [cbn; tauto|].
  change ((o :: a) ++ b) with (o :: (a ++ b)). rewrite run_cons. cbn [fst fair_run]. rewrite IH. tauto.
Qed.
Lemma after_app : forall v a b, after v (a ++ b) = after (after v a) b.
Proof.
  intros v a b. unfold after. rewrite map_app. induction (map snd a) as [|y l IH] using rev_ind; [reflexivity|].
  rewrite <- app_assoc. rewrite last_last. destruct (map snd b) as [|z l'] eqn:E; [cbn [app]; rewrite last_last; reflexivity|].
  rewrite app_assoc. clear. revert l. set (w := z :: l'). assert (W : w <> []) by discriminate. clearbody w.
  intro l. destruct w as [|z0 w] using rev_ind; [congruence|]. rewrite app_assoc, !last_last. reflexivity.
Qed.
Lemma alternates_join : forall a b v, alternates (negb v) a -> alternates (negb (after v a)) b -> alternates (negb v) (a ++ b).
Proof.
  induction a as [|[t y] a IH]; intros b v H1 H2; [exact H2|]. cbn [alternates snd] in H1. destruct H1 as [E H1].
  change (((t, y) :: a) ++ b) with ((t, y) :: (a ++ b)). cbn [alternates snd]. split; [exact E|].
  assert (Y : negb (negb v) = negb y) by (rewrite E; reflexivity). rewrite Y in *. apply IH; [exact H1|].
  change ((t, y) :: a) with ([(t, y)] ++ a) in H2. rewrite after_app in H2. exact H2.
Qed.
Theorem run_ok : forall ops x, Inv x -> fair_run L intersection x ops ->
  Inv (fst (run x ops)) /\
  (forall t e, ~ In (t, Crashed e) (snd (run x ops))) /\
  (forall s, In s (sensors L x) -> In s (sensors L (fst (run x ops)))) /\
  (forall m s, alternates (negb (viewed (in_view L x) m s)) (told s m (snd (run x ops))) /\
     viewed (in_view L (fst (run x ops))) m s = after (viewed (in_view L x) m s) (told s m (snd (run x ops)))).
Proof.
  induction ops as [|o ops IH]; intros x I F.
  - split; [exact I|]. split; [intros t e []|]. split; [auto|]. intros. split; [exact Logic.I|reflexivity].
  - destruct F as [F1 F2]. destruct (step_ok x o I F1) as [A [B [C [D _]]]]. cbv zeta in *.
    destruct (IH _ A F2) as [E [G [H J]]]. rewrite run_cons. cbn [fst snd]. split; [exact E|]. split; [|split; [auto|]].
    + intros t e X. apply in_app_iff in X. destruct X as [X|X]; [|exact (G t e X)].
      apply in_map_iff in X. destruct X as [u [X Y]]. inversion X; subst. exact (B e Y).
    + intros m s. destruct (C m s) as [C1 C2]. destruct (J m s) as [J1 J2]. rewrite told_app. fold (said x (snd (step x o)) m s).
      split; [apply alternates_join; [exact C1|rewrite <- C2; exact J1]|]. rewrite after_app, <- C2. exact J2.
Qed.
Theorem run_conserves : forall ops x m s, Inv x -> fair_run L intersection x ops ->
  (forall o, In o ops -> ~ ends L m o) -> mget m (movers L x) <> None -> In s (sensors L x) ->
  same (told s m (snd (run x ops)) ++ rem (fst (run x ops)) m s) (rem x m s).
Proof.
  induction ops as [|o ops IH]; intros x m s I F N Hm Hs.
  - cbn [MotModel.run fst snd told app]. apply same_refl.
  - destruct F as [F1 F2]. destruct (step_ok x o I F1) as [A [_ [_ [D [E _]]]]]. cbv zeta in *.
    destruct (E m s (N o (or_introl eq_refl)) Hm Hs) as [[d [S [R V]]] Hm'].
    rewrite run_cons. cbn [fst snd]. rewrite told_app, R, <- app_assoc. apply same_app; [exact S|].
    apply IH; auto. intros o' Ho. apply N. right. exact Ho.
Qed.
Theorem run_idle : forall ops x m, Inv x -> fair_run L intersection x ops -> mget m (movers L x) = None ->
  (forall o, In o ops -> forall sp ws, o <> Start L m sp ws) ->
  (forall s, (forall o, In o ops -> o <> SetDetect L m false) \/ viewed (in_view L x) m s = false ->
    told s m (snd (run x ops)) = []).
Proof.
  induction ops as [|o ops IH]; intros x m I F Hm N s H; [reflexivity|].
  destruct F as [F1 F2]. destruct (step_ok x o I F1) as [A [_ [_ [_ [_ E]]]]]. cbv zeta in *.
  destruct (E m Hm (N o (or_introl eq_refl))) as [E1 E2].
  destruct (E2 s) as [E3 E4]; [destruct H as [H|H]; [left; apply H; left; reflexivity|right; exact H]|].
  rewrite run_cons. cbn [fst snd]. rewrite told_app. fold (said x (snd (step x o)) m s). rewrite E3. apply IH; auto.
  - intros o' Ho. apply N. right. exact Ho.
  - destruct H as [H|H]; [left; intros o' Ho; apply H; right; exact Ho|right; rewrite E4; exact H].
Qed.
Lemma quiet_rem : forall x m s e, Inv x -> quiet L x -> In e (rem x m s) -> now L x < fst e.
Proof.
  intros x m s e I [U Qt] H. pose proof (I_rem x I m s) as [IN [_ GE]]. specialize (GE e H).
  destruct (Qlt_le_dec (now L x) (fst e)) as [X|X]; [exact X|]. exfalso. assert (EQ : fst e == now L x) by lra.
  unfold rem in H. apply in_flat_map in H. destruct H as [i [_ H]]. pose proof H as H0. unfold evs in H.
  destruct (nth_error (procs L x) i) as [p|] eqn:E; [|destruct H].
  destruct (Nat.eqb (p_m p) m && Nat.eqb (p_s p) s && negb (doomed x i)) eqn:G; [|destruct H].
  pose proof (nth_error_In _ _ E) as Hp. pose proof (I_due x I i p E) as DU. unfold pevs in H. destruct (p_at p) as [|d|d|] eqn:AT.
  - assert (K : In (UInit i) (urgent L x)) by (apply (I_init x I); eauto). rewrite U in K. destruct K.
  - assert (D1 : In (p_t1 p, true) (rem x m s)).
    { apply (in_rem x m s i). unfold evs. rewrite E, G. unfold pevs. rewrite AT. left. reflexivity. }
    assert (ND : ~ p_t1 p == now L x).
    { intro Z. apply (Qt p d Hp); [unfold due_at; rewrite AT; reflexivity|]. rewrite DU. exact Z. }
    destruct H as [<-|H]; [apply ND; exact EQ|]. unfold exit_of in H. destruct (kind_eqb (p_k2 p) EXIT) eqn:K; [|destruct H].
    destruct H as [<-|[]]. cbn [fst] in EQ. pose proof (proj2 (proj2 (I_rem x I m s)) _ D1) as G1. cbn [fst] in G1.
    assert (LT : p_t1 p < p_t2 p).
    { unfold rem in IN. rewrite (flat_split _ i) in IN by (apply nth_lt in E; exact E).
      apply increasing_app in IN. destruct IN as [_ [IN _]]. apply increasing_app in IN. destruct IN as [IN _].
      unfold evs in IN. rewrite E, G in IN. unfold pevs in IN. rewrite AT in IN. destruct IN as [IN _]. unfold exit_of in IN. rewrite K in IN.
      apply (IN (p_t2 p, false)). left. reflexivity. }
    lra.
  - destruct H as [<-|[]]. cbn [fst] in EQ. apply (Qt p d Hp); [unfold due_at; rewrite AT; reflexivity|]. rewrite DU. exact EQ.
  - destruct H.
Qed.
Lemma init_inv : forall a d, Inv (init L a d).
Proof.
  intros a d. assert (NN : forall i (p : proc), nth_error (@nil proc) i = Some p -> False) by (intros [|i] p H; discriminate).
  constructor; cbn [init procs urgent events movers sensors in_view mget]; try constructor; try (intros; discriminate).
  - intros [].
  - intros [p [H _]]. exfalso. exact (NN i p H).
  - intros i [].
  - intros i p H. exfalso. exact (NN i p H).
  - intros i p H. exfalso. exact (NN i p H).
  - intros i p H. exfalso. exact (NN i p H).
  - intros i p H. exfalso. exact (NN i p H).
  - exact Logic.I.
  - split; [exact Logic.I|intros e []].
Qed.
End P.

Lemma follow_after : forall l lo now v, follow false lo l -> now <= lo ->
  moments now v l = moments now false l /\ alternates true (moments now false l) /\ increasing (moments now false l) /\
  forall t b, In (t, b) (moments now false l) -> lo < t.
Proof.
  induction l as [|[[k1 t1] [k2 t2]] l IH]; intros lo now v F NL; [cbn; repeat split; intros ? ? []|].
  cbn [follow] in F. destruct F as [[[-> L1]|[F0 _]] [L2 [K2 F]]]; [|discriminate F0]. cbn [moments].
  assert (Qleb t1 now = false) as -> by (apply Qleb_gt; lra). cbn [andb].
  destruct (IH t2 now v F ltac:(lra)) as [I1 [I2 [I3 I4]]]. rewrite I1.
  destruct K2 as [->|[-> ->]].
  - cbn [app alternates increasing fst snd negb]. split; [reflexivity|]. split; [auto|]. split.
    + split; [|split; [|exact I3]].
      * intros [t b] [H|H]; [inversion H; subst; exact L2|]. cbn. specialize (I4 _ _ H). lra.
      * intros [t b] H. cbn. exact (I4 _ _ H).
    + intros t b [H|[H|H]]; [inversion H; subst; lra|inversion H; subst; lra|]. specialize (I4 _ _ H). lra.
  - cbn. split; [reflexivity|]. split; [auto|]. split; [split; [intros y []|exact I]|]. intros t b [H|[]]. inversion H; subst. lra.
Qed.
