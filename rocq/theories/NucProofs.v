(** Proofs for the nucleus. *)
From Coq Require Import String Permutation.
From Verif Require Import Common NetModel NetProofs CtxModel CtxProofs NucModel NucSpec.
Open Scope string_scope.
Open Scope list_scope.

Lemma sadd_In x l y : In y (sadd x l) <-> In y l \/ y = x.
Proof.
  unfold sadd. destruct (smem x l) eqn:E.
  - apply smem_In in E. split; [auto|]. intros [H| ->]; auto.
  - rewrite in_app_iff. cbn. intuition.
Qed.
Lemma sadd_nodup x l : NoDup l -> NoDup (sadd x l).
Proof. intro H. unfold sadd. destruct (smem x l) eqn:E; [exact H|]. apply snoc_nodup; [exact H|]. apply smem_not. exact E. Qed.
Lemma dget_sset k l d j : dget j (sset k l d) = if String.eqb k j then l else dget j d.
Proof. unfold dget. rewrite sget_sset. destruct (String.eqb k j); reflexivity. Qed.
Lemma sget_sdel' {X} k j (d : list (string * X)) : sget k (sdel j d) = if String.eqb j k then None else sget k d.
Proof.
  destruct (String.eqb j k) eqn:E; [|apply sget_sdel; exact E]. apply String.eqb_eq in E. subst j.
  unfold sdel. induction d as [|[m v] d IH]; [reflexivity|]. cbn. destruct (String.eqb m k) eqn:E; cbn; [exact IH|]. rewrite E. exact IH.
Qed.

(** ** The two maps *)
Definition ok_nuc (u : nuc) (W : string -> string -> bool) : Prop :=
  (forall k, NoDup (dget k (n_states u))) /\ (forall n, NoDup (dget n (n_nets u))) /\
  forall n k, (In n (dget k (n_states u)) <-> W n k = true) /\ (In k (dget n (n_nets u)) <-> W n k = true).
Lemma ok_ext u W W' : (forall n k, W n k = W' n k) -> ok_nuc u W -> ok_nuc u W'.
Proof. intros E (A & B & C). split; [exact A|]. split; [exact B|]. intros n k. rewrite <- E. apply C. Qed.
Lemma nuc_add_ok n sts : forall u W, ok_nuc u W ->
  ok_nuc (nuc_add u n sts) (fun m k => if String.eqb n m && existsb (String.eqb k) sts then true else W m k).
Proof.
  unfold nuc_add. induction sts as [|s sts IH]; intros u W H; cbn [fold_left].
  - eapply ok_ext; [|exact H]. intros m k. cbn [existsb]. rewrite andb_false_r. reflexivity.
  - set (u1 := mkN _ _).
    assert (H1 : ok_nuc u1 (fun m k => if String.eqb n m && String.eqb k s then true else W m k)).
    { destruct H as (A & B & C). subst u1. unfold ok_nuc. cbn [n_states n_nets]. split; [|split].
      - intro k. rewrite dget_sset. destruct (String.eqb s k); [apply sadd_nodup|]; apply A.
      - intro m. rewrite dget_sset. destruct (String.eqb n m); [apply sadd_nodup|]; apply B.
      - intros m k. rewrite !dget_sset.
        destruct (String.eqb s k) eqn:E1.
        + apply String.eqb_eq in E1. subst k. rewrite (String.eqb_refl s), andb_true_r.
          destruct (String.eqb n m) eqn:E2.
          * apply String.eqb_eq in E2. subst m. rewrite !sadd_In. tauto.
          * rewrite sadd_In. destruct (C m s) as [C1 C2]. rewrite C1, C2. apply String.eqb_neq in E2. split; [|tauto]. split; [intros [?| ->]; [assumption|congruence]|auto].
        + rewrite (String.eqb_sym k s), E1, andb_false_r. destruct (C m k) as [C1 C2].
          destruct (String.eqb n m) eqn:E2; [|split; assumption].
          apply String.eqb_eq in E2. subst m. rewrite sadd_In. split; [assumption|]. rewrite C2. apply String.eqb_neq in E1.
          split; [intros [?|E]; [assumption|congruence]|auto]. }
    eapply ok_ext; [|apply (IH u1 _ H1)]. intros m k. cbn [existsb].
    destruct (String.eqb n m); cbn [andb]; [|reflexivity]. destruct (existsb (String.eqb k) sts); [rewrite orb_true_r|rewrite orb_false_r]; reflexivity.
Qed.
Lemma remove_fold n : forall l d, NoDup l -> (forall k, In k l -> In n (dget k d)) ->
  exists d', fold_left (fun d s => match d with
                   | None => None
                   | Some d => if smem n (dget s d) then Some (sset s (filter (fun m => negb (String.eqb m n)) (dget s d)) d) else None
                   end) l (Some d) = Some d' /\
    forall k, dget k d' = if smem k l then filter (fun m => negb (String.eqb m n)) (dget k d) else dget k d.
Proof.
  induction l as [|s l IH]; intros d ND H; cbn [fold_left].
  - exists d. split; [reflexivity|]. reflexivity.
  - inversion ND as [|? ? N1 N2]; subst.
    assert (E : smem n (dget s d) = true) by (apply smem_In; apply H; left; reflexivity). rewrite E.
    set (f := filter _ _). destruct (IH (sset s f d) N2) as (d' & E' & D').
    { intros k Hk. rewrite dget_sset. destruct (String.eqb s k) eqn:Ek; [|apply H; right; exact Hk].
      apply String.eqb_eq in Ek. subst k. contradiction. }
    exists d'. split; [exact E'|]. intro k. rewrite D', dget_sset. unfold smem. cbn [existsb]. rewrite (String.eqb_sym k s).
    destruct (String.eqb s k) eqn:Ek; cbn [orb]; [|reflexivity].
    apply String.eqb_eq in Ek. subst k. fold (smem s l). destruct (smem s l) eqn:Es; [|reflexivity].
    apply smem_In in Es. contradiction.
Qed.
Lemma nuc_remove_ok n u W : ok_nuc u W ->
  exists u', nuc_remove u n = Some u' /\ ok_nuc u' (fun m k => if String.eqb n m then false else W m k).
Proof.
  intros (A & B & C). unfold nuc_remove.
  destruct (remove_fold n (dget n (n_nets u)) (n_states u) (B n)) as (d' & -> & D').
  { intros k Hk. apply (proj2 (proj1 (C n k))). apply (proj1 (proj2 (C n k))). exact Hk. }
  eexists. split; [reflexivity|]. unfold ok_nuc. cbn [n_states n_nets]. split; [|split].
  - intro k. rewrite D'. destruct (smem k _); [apply NoDup_filter|]; apply A.
  - intro m. unfold dget. rewrite sget_sdel'. destruct (String.eqb n m); [constructor|apply B].
  - intros m k. split.
    + rewrite D'. destruct (smem k (dget n (n_nets u))) eqn:E.
      * rewrite filter_In. destruct (C m k) as [C1 _]. rewrite C1. rewrite (String.eqb_sym m n).
        destruct (String.eqb n m); cbn; intuition discriminate.
      * apply smem_not in E. destruct (String.eqb n m) eqn:En; [|apply C].
        apply String.eqb_eq in En. subst m. split; [|discriminate]. intro H. exfalso. apply E. apply (proj2 (proj2 (C n k))). apply (proj1 (proj1 (C n k))). exact H.
    + unfold dget. rewrite sget_sdel'. destruct (String.eqb n m) eqn:En; [cbn; intuition discriminate|]. apply C.
Qed.

(** ** What the operations on states leave alone *)
Definition view (x : actor) : option nuc * list (string * nat) * list string := (a_nuc x, a_nets x, map fst (a_cells x)).
Definition frame (s s' : st) : Prop :=
  s_now s' = s_now s /\ s_nets s' = s_nets s /\ s_procs s' = s_procs s /\
  (forall a, option_map view (nth_error (s_actors s') a) = option_map view (nth_error (s_actors s) a)) /\
  exists l, s_pend s' = s_pend s ++ l.
Lemma frame_refl s : frame s s.
Proof. repeat (split; [reflexivity|]). exists []. rewrite app_nil_r. reflexivity. Qed.
Lemma frame_trans s1 s2 s3 : frame s1 s2 -> frame s2 s3 -> frame s1 s3.
Proof.
  intros (A & B & C & D & l & E) (A' & B' & C' & D' & l' & E').
  split; [congruence|]. split; [congruence|]. split; [congruence|]. split; [intro a; rewrite D'; apply D|].
  exists (l ++ l'). rewrite E', E, app_assoc. reflexivity.
Qed.
Lemma frame_length s s' : frame s s' -> List.length (s_actors s') = List.length (s_actors s).
Proof.
  intros (_ & _ & _ & D & _).
  assert (X : forall l l' : list actor, (forall a, option_map view (nth_error l' a) = option_map view (nth_error l a)) -> (List.length l' <= List.length l)%nat).
  { intros l l' H. destruct (Nat.le_gt_cases (List.length l') (List.length l)) as [|G]; [assumption|].
    specialize (H (List.length l)). assert (nth_error l (List.length l) = None) as E by (apply nth_error_None; lia). rewrite E in H.
    destruct (nth_error l' (List.length l)) eqn:E'; [discriminate|]. apply nth_error_None in E'. lia. }
  apply Nat.le_antisymm; apply X; [apply D|intro a; symmetry; apply D].
Qed.
Lemma frame_pend s l : frame s (with_pend s (s_pend s ++ l)).
Proof. repeat (split; [reflexivity|]). exists l. reflexivity. Qed.
Lemma keys_sset {X} k (c : X) : forall d, sget k d <> None -> map fst (sset k c d) = map fst d.
Proof.
  induction d as [|[m v] d IH]; cbn; [congruence|]. destruct (String.eqb m k) eqn:E; cbn; [reflexivity|].
  intro H. rewrite IH by exact H. reflexivity.
Qed.
Lemma frame_cell s a x k c : nth_error (s_actors s) a = Some x -> sget k (a_cells x) <> None ->
  frame s (with_actor s a (mkA (a_nets x) (a_nuc x) (sset k c (a_cells x)))).
Proof.
  intros E H. split; [reflexivity|]. split; [reflexivity|]. split; [reflexivity|]. split; [|exists []; cbn; rewrite app_nil_r; reflexivity].
  intro b. cbn [with_actor s_actors]. rewrite set_nth_get. destruct (Nat.eqb a b) eqn:Eb.
  - apply Nat.eqb_eq in Eb. subst b. rewrite E. cbn. unfold view. cbn. rewrite keys_sset by exact H. reflexivity.
  - reflexivity.
Qed.

(** ** Sending *)
Definition cur_of (s : st) (nets : list (string * nat)) (n : string) : option nat :=
  match sget n nets with
  | Some x => match nth_error (s_nets s) x with Some r => r | None => None end
  | None => None
  end.
Definition good (s : st) (act : option nat) (nets : list (string * nat)) (n : string) : bool :=
  match sget n nets with
  | None => false
  | Some _ => match cur_of s nets n with Some p => can_hit s act p | None => true end
  end.
Definition curs (s : st) (nets : list (string * nat)) (ns : list string) : list nat :=
  flat_map (fun n => match cur_of s nets n with Some p => [p] | None => [] end) ns.
Lemma with_pend_pend s l l' : with_pend (with_pend s l) l' = with_pend s l'. Proof. reflexivity. Qed.
Lemma with_pend_same s : with_pend s (s_pend s ++ []) = s.
Proof. rewrite app_nil_r. destruct s; reflexivity. Qed.
Lemma current_cur s nets n x : sget n nets = Some x -> current s x = cur_of s nets n.
Proof. intro E. unfold current, cur_of. rewrite E. destruct (nth_error (s_nets s) x) as [[p|]|]; reflexivity. Qed.
Lemma interrupt_spec s act p c :
  interrupt s act p c = if can_hit s act p then (with_pend s (s_pend s ++ [(p, c)]), XOk) else (s, XRuntimeErr).
Proof.
  unfold interrupt, can_hit, alive, same_proc. destruct (nth_error (s_procs s) p) as [b|] eqn:E.
  - rewrite (nth_of_error _ _ _ _ E). destruct b; [|reflexivity]. destruct act as [q|]; [|reflexivity].
    destruct (Nat.eqb q p); reflexivity.
  - rewrite nth_overflow by (apply nth_error_None; exact E). reflexivity.
Qed.
Lemma send_spec act nets c ns : forall s,
  exists pre, (exists post, ns = pre ++ post /\ (post = [] \/ exists n post', post = n :: post' /\ good s act nets n = false)) /\
    fst (send s act nets c ns) = with_pend s (s_pend s ++ map (fun p => (p, c)) (curs s nets pre)) /\
    forallb (good s act nets) pre = true /\
    (if forallb (good s act nets) ns then snd (send s act nets c ns) = XOk
     else snd (send s act nets c ns) = XUpstageErr \/ snd (send s act nets c ns) = XRuntimeErr).
Proof.
  induction ns as [|n ns IH]; intro s; cbn [send].
  - exists []. split; [exists []; auto|]. cbn. rewrite with_pend_same. auto.
  - destruct (sget n nets) as [x|] eqn:E.
    2:{ assert (G : good s act nets n = false) by (unfold good; rewrite E; reflexivity).
        exists []. split; [exists (n :: ns); split; [reflexivity|right; eauto]|]. cbn [fst snd curs flat_map map forallb].
        rewrite with_pend_same, G. cbn. auto. }
    rewrite (current_cur s nets n x E). destruct (cur_of s nets n) as [p|] eqn:Ec.
    + rewrite interrupt_spec. destruct (can_hit s act p) eqn:Eh.
      * assert (G : good s act nets n = true) by (unfold good; rewrite E, Ec; exact Eh).
        set (s1 := with_pend s _). destruct (IH s1) as (pre & (post & Ep & Hp) & A & B & C).
        exists (n :: pre). split; [exists post; split; [cbn; rewrite Ep; reflexivity|exact Hp]|].
        split; [|split].
        -- rewrite A. subst s1. rewrite with_pend_pend. f_equal. cbn [with_pend s_pend curs flat_map]. rewrite Ec. cbn [app map].
           rewrite <- app_assoc. reflexivity.
        -- cbn [forallb]. rewrite G. exact B.
        -- cbn [forallb]. rewrite G. exact C.
      * assert (G : good s act nets n = false) by (unfold good; rewrite E, Ec; exact Eh).
        exists []. split; [exists (n :: ns); split; [reflexivity|right; eauto]|]. cbn [fst snd curs flat_map map forallb].
        rewrite with_pend_same, G. cbn. auto.
    + assert (G : good s act nets n = true) by (unfold good; rewrite E, Ec; reflexivity).
      destruct (IH s) as (pre & (post & Ep & Hp) & A & B & C).
      exists (n :: pre). split; [exists post; split; [cbn; rewrite Ep; reflexivity|exact Hp]|].
      cbn [curs flat_map forallb]. rewrite Ec, G. cbn [app andb]. auto.
Qed.
Lemma send_ok act nets c ns s : forallb (good s act nets) ns = true ->
  send s act nets c ns = (with_pend s (s_pend s ++ map (fun p => (p, c)) (curs s nets ns)), XOk).
Proof.
  intro G. destruct (send_spec act nets c ns s) as (pre & (post & Ep & Hp) & A & B & C). rewrite G in C.
  destruct Hp as [->|(n & post' & -> & Hn)].
  - rewrite app_nil_r in Ep. subst pre. rewrite <- A, <- C. apply surjective_pairing.
  - rewrite Ep, forallb_app in G. cbn in G. rewrite Hn in G. rewrite andb_false_r in G. discriminate.
Qed.
Section Nuc.
Variable order : list string -> list string.
Hypothesis perm : forall l, Permutation (order l) l.
Notation step := (step order). Notation run := (run order). Notation trace := (trace order).

Lemma broadcast_frame s act a k v : frame s (fst (broadcast order s act a k v)).
Proof.
  unfold broadcast. destruct (nth_error (s_actors s) a) as [x|]; [|apply frame_refl]. destruct (a_nuc x) as [u|]; [|apply frame_refl].
  destruct (send_spec act (a_nets x) (CState k v) (order (dget k (n_states u))) s) as (pre & _ & -> & _). apply frame_pend.
Qed.
Lemma assign_frame s act a k v : frame s (fst (assign order s act a k v)).
Proof.
  unfold assign. destruct (nth_error (s_actors s) a) as [x|] eqn:E; [|apply frame_refl]. destruct (sget k (a_cells x)) as [c|] eqn:Ec; [|apply frame_refl].
  eapply frame_trans; [|apply broadcast_frame]. apply frame_cell; [exact E|congruence].
Qed.
Lemma view_keys s s' a x : frame s s' -> nth_error (s_actors s) a = Some x ->
  exists x', nth_error (s_actors s') a = Some x' /\ a_nuc x' = a_nuc x /\ a_nets x' = a_nets x /\ map fst (a_cells x') = map fst (a_cells x).
Proof.
  intros (_ & _ & _ & D & _) E. specialize (D a). rewrite E in D. destruct (nth_error (s_actors s') a) as [x'|]; [|discriminate].
  cbn in D. injection D as D1 D2 D3. eauto.
Qed.
Lemma sget_fst {X} k (d d' : list (string * X)) : map fst d = map fst d' -> sget k d <> None -> sget k d' <> None.
Proof.
  revert d'. induction d as [|[m v] d IH]; intros [|[m' v'] d']; cbn; try discriminate; [congruence|]. intros [= <- E].
  destruct (String.eqb m k); [congruence|]. apply IH. exact E.
Qed.
Lemma read_frame s act a k : frame s (fst (read order s act a k)).
Proof.
  unfold read. destruct (nth_error (s_actors s) a) as [x|] eqn:E; [|apply frame_refl]. destruct (sget k (a_cells x)) as [c|] eqn:Ec; [|apply frame_refl].
  destruct (c_act c) as [[t r]|]; [|apply frame_refl]. destruct (Qltb (s_now s) t); [apply frame_refl|]. cbv zeta.
  pose proof (assign_frame s act a k (c_val c + (s_now s - t) * r)) as F.
  destruct (assign order s act a k (c_val c + (s_now s - t) * r)) as [s1 e]. cbn [fst] in F.
  destruct (view_keys s s1 a x F E) as (x1 & E1 & _ & _ & K1). rewrite E1.
  destruct e; try exact F. eapply frame_trans; [exact F|]. apply frame_cell; [exact E1|].
  apply (sget_fst k (a_cells x)); congruence.
Qed.
Lemma read_all_frame act a : forall ks s acc, frame s (fst (fst (read_all order s act a ks acc))).
Proof.
  induction ks as [|k ks IH]; intros s acc; cbn [read_all]; [apply frame_refl|].
  pose proof (read_frame s act a k) as F. destruct (read order s act a k) as [s1 e]. cbn [fst] in F.
  destruct e; try exact F. eapply frame_trans; [exact F|apply IH].
Qed.

(** ** Invariant *)
Definition quiet (t : op * out) : Prop := forall a n k w, watch1 a n k w t = w.
Definition reg_ok (tr : list (op * out)) (a : nat) (u : option nuc) : Prop :=
  match u with
  | None => forall n k, watches tr a n k = false
  | Some u => ok_nuc u (fun n k => watches tr a n k)
  end.
Definition nets_ok (len : nat) (d : list (string * nat)) : Prop :=
  (forall n o, sget n d = Some o -> (o < len)%nat) /\
  (forall n m o, sget n d = Some o -> sget m d = Some o -> n = m).
Definition inv (s : st) (tr : list (op * out)) : Prop :=
  (forall a x, nth_error (s_actors s) a = Some x -> reg_ok tr a (a_nuc x) /\ nets_ok (List.length (s_nets s)) (a_nets x)) /\
  (forall a n k, (List.length (s_actors s) <= a)%nat -> watches tr a n k = false) /\
  (forall o p, nth_error (s_nets s) o = Some (Some p) -> (p < List.length (s_procs s))%nat) /\
  (forall o o' p, nth_error (s_nets s) o = Some (Some p) -> nth_error (s_nets s) o' = Some (Some p) -> o = o').
Lemma watches_snoc tr t a n k : watches (tr ++ [t]) a n k = watch1 a n k (watches tr a n k) t.
Proof. unfold watches. rewrite fold_left_app. reflexivity. Qed.
Lemma reg_quiet tr t a u : quiet t -> reg_ok tr a u -> reg_ok (tr ++ [t]) a u.
Proof.
  intros Q H. destruct u as [u|]; cbn in *.
  - eapply ok_ext; [|exact H]. intros n k. cbn. rewrite watches_snoc, Q. reflexivity.
  - intros n k. rewrite watches_snoc, Q. apply H.
Qed.
Lemma inv_frame s s' tr t : inv s tr -> frame s s' -> quiet t -> inv s' (tr ++ [t]).
Proof.
  intros (I1 & I2 & I3 & I4) F Q. pose proof (frame_length s s' F) as L. destruct F as (A & B & C & D & _).
  split; [|split; [|split]].
  - intros a x' E'. specialize (D a). rewrite E' in D. destruct (nth_error (s_actors s) a) as [x|] eqn:E; [|discriminate].
    cbn in D. injection D as D1 D2 D3. destruct (I1 a x E) as [R N]. rewrite D1, D2, B. split; [apply reg_quiet; assumption|exact N].
  - intros a n k H. rewrite watches_snoc, Q. apply I2. lia.
  - rewrite B, C. exact I3.
  - rewrite B. exact I4.
Qed.
Lemma inv_add_actor s tr t x : inv s tr -> quiet t -> a_nuc x = None -> nets_ok (List.length (s_nets s)) (a_nets x) ->
  inv (mkS (s_now s) (s_actors s ++ [x]) (s_nets s) (s_procs s) (s_pend s)) (tr ++ [t]).
Proof.
  intros (I1 & I2 & I3 & I4) Q U N. split; [|split; [|split]]; cbn [s_actors s_nets s_procs]; [| |exact I3|exact I4].
  - intros a y E. destruct (Nat.lt_ge_cases a (List.length (s_actors s))) as [G|G].
    + rewrite nth_error_app1 in E by exact G. destruct (I1 a y E). split; [apply reg_quiet; assumption|assumption].
    + rewrite nth_error_app2 in E by exact G. destruct (a - List.length (s_actors s))%nat as [|j]; [|destruct j; discriminate]. injection E as <-.
      split; [|exact N]. rewrite U. apply reg_quiet; [exact Q|]. cbn. intros n k. apply I2. exact G.
  - intros a n k H. rewrite app_length in H. rewrite watches_snoc, Q. apply I2. lia.
Qed.
Lemma inv_actor s tr t a x x' : inv s tr -> nth_error (s_actors s) a = Some x ->
  (forall b n k w, b <> a -> watch1 b n k w t = w) -> reg_ok (tr ++ [t]) a (a_nuc x') -> nets_ok (List.length (s_nets s)) (a_nets x') ->
  inv (with_actor s a x') (tr ++ [t]).
Proof.
  intros (I1 & I2 & I3 & I4) E Q R N. split; [|split; [|split]]; cbn [with_actor s_actors s_nets s_procs]; [| |exact I3|exact I4].
  - intros b y Eb. rewrite set_nth_get in Eb. destruct (Nat.eqb a b) eqn:Eab.
    + apply Nat.eqb_eq in Eab. subst b. rewrite E in Eb. injection Eb as <-. auto.
    + apply Nat.eqb_neq in Eab. destruct (I1 b y Eb) as [R' N']. split; [|exact N'].
      destruct (a_nuc y) as [u|]; cbn in *.
      * eapply ok_ext; [|exact R']. intros n k. cbn. rewrite watches_snoc, Q by congruence. reflexivity.
      * intros n k. rewrite watches_snoc, Q by congruence. apply R'.
  - intros b n k H. rewrite set_nth_length in H. rewrite watches_snoc. destruct (Nat.eq_dec b a) as [->|Nb].
    + apply nth_error_None in H. congruence.
    + rewrite Q by exact Nb. apply I2. exact H.
Qed.
Lemma sget_sdel_some {X} n m (d : list (string * X)) o : sget n (sdel m d) = Some o -> sget n d = Some o.
Proof. rewrite sget_sdel'. destruct (String.eqb m n); [discriminate|auto]. Qed.
Ltac qt := let a := fresh in let n := fresh in let k := fresh in let w := fresh in intros a n k w; reflexivity.
Lemma inv_step s tr o : inv s tr -> inv (fst (step s o)) (tr ++ [(o, snd (step s o))]).
Proof.
  intro I. pose proof I as (I1 & I2 & I3 & I4).
  assert (FR : forall s' e, frame s s' -> quiet (o, e) -> step s o = (s', e) -> inv (fst (step s o)) (tr ++ [(o, snd (step s o))])).
  { intros s' e F Q E. rewrite E. apply (inv_frame s); assumption. }
  assert (F0 : frame s s) by apply frame_refl.
  destruct o as [cells|act a|a n|a n|a|a n sts|a n|x|p|t|act a k v|act a k r|act a k|act a k|act a n x|].
  - cbn [NucModel.step fst snd]. apply inv_add_actor; [exact I|qt|reflexivity|]. split; cbn; discriminate.
  - cbn [NucModel.step] in *. destruct (nth_error (s_actors s) a) as [x|] eqn:E; [|apply (FR s XBad F0); [qt|reflexivity]].
    pose proof (read_all_frame act a (map fst (a_cells x)) s []) as F. destruct (read_all order s act a (map fst (a_cells x)) []) as [[s1 e] cells].
    cbn [fst] in F. assert (Y : quiet (NClone act a, e)) by qt.
    destruct e; try (apply (FR s1 _ F Y); reflexivity).
    cbn [fst snd]. rewrite <- (app_nil_r tr). rewrite <- app_assoc. cbn [app].
    assert (Iq : inv s1 tr).
    { destruct (inv_frame s s1 tr (NClone act a, XOk) I F Y) as (J1 & J2 & J3 & J4).
      assert (W : forall b n k, watches (tr ++ [(NClone act a, XOk)]) b n k = watches tr b n k) by (intros; rewrite watches_snoc; reflexivity).
      split; [|split; [|split]]; [| |exact J3|exact J4].
      - intros b y Eb. destruct (J1 b y Eb) as [R N]. split; [|exact N]. destruct (a_nuc y) as [u|]; cbn in *.
        + eapply ok_ext; [|exact R]. intros n k. apply W.
        + intros n k. rewrite <- W. apply R.
      - intros b n k H. rewrite <- W. apply J2. exact H. }
    apply inv_add_actor; [exact Iq|exact Y|reflexivity|]. cbn [a_nets].
    destruct F as (_ & -> & _). apply (I1 a x E).
  - cbn [NucModel.step] in *. destruct (nth_error (s_actors s) a) as [x|] eqn:E; [|apply (FR s XBad F0); [qt|reflexivity]].
    destruct (sget n (a_nets x)) as [o|] eqn:En; [apply (FR s XSimErr F0); [qt|reflexivity]|]. cbn [fst snd].
    destruct (I1 a x E) as [R N].
    set (s0 := mkS (s_now s) (s_actors s) (s_nets s ++ [None]) (s_procs s) (s_pend s)).
    assert (Is : inv s0 tr).
    { split; [|split; [exact I2|split]]; subst s0; cbn [s_actors s_nets s_procs]; rewrite ?app_length; cbn [List.length].
      - intros b y Eb. destruct (I1 b y Eb) as [R' [N1 N2]]. split; [exact R'|]. split; [|exact N2]. intros m o Em. specialize (N1 m o Em). lia.
      - intros o p Ho. destruct (Nat.lt_ge_cases o (List.length (s_nets s))) as [G|G].
        + rewrite nth_error_app1 in Ho by exact G. apply (I3 o p Ho).
        + rewrite nth_error_app2 in Ho by exact G. destruct (o - List.length (s_nets s))%nat as [|j]; [discriminate|destruct j; discriminate].
      - assert (X : forall o p, nth_error (s_nets s ++ [None]) o = Some (Some p) -> nth_error (s_nets s) o = Some (Some p)).
        { intros o p Ho. destruct (Nat.lt_ge_cases o (List.length (s_nets s))) as [G|G].
          + rewrite nth_error_app1 in Ho by exact G. exact Ho.
          + rewrite nth_error_app2 in Ho by exact G. destruct (o - List.length (s_nets s))%nat as [|j]; [discriminate|destruct j; discriminate]. }
        intros o o' p H1 H2. apply (I4 o o' p); apply X; assumption. }
    apply (inv_actor s0 tr _ a x (mkA (sset n (List.length (s_nets s)) (a_nets x)) (a_nuc x) (a_cells x)) Is E); [intros; reflexivity| |].
    + cbn [a_nuc]. apply reg_quiet; [qt|exact R].
    + cbn [a_nets]. subst s0. cbn [s_nets]. rewrite app_length. cbn [List.length]. destruct N as [N1 N2]. split.
      * intros m o Em. rewrite sget_sset in Em. destruct (String.eqb n m); [injection Em as <-; lia|]. specialize (N1 m o Em). lia.
      * intros m m' o E1 E2. rewrite sget_sset in E1, E2.
        destruct (String.eqb n m) eqn:Q1, (String.eqb n m') eqn:Q2;
          rewrite ?String.eqb_eq in Q1, Q2; [congruence| | |apply (N2 m m' o E1 E2)].
        -- injection E1 as <-. specialize (N1 m' _ E2). lia.
        -- injection E2 as <-. specialize (N1 m _ E1). lia.
  - cbn [NucModel.step] in *. destruct (nth_error (s_actors s) a) as [x|] eqn:E; [|apply (FR s XBad F0); [qt|reflexivity]].
    destruct (sget n (a_nets x)) as [o|] eqn:En; [|apply (FR s XSimErr F0); [qt|reflexivity]]. cbn [fst snd].
    destruct (I1 a x E) as [R [N1 N2]].
    apply (inv_actor s tr _ a x _ I E); [intros; reflexivity| |].
    + cbn [a_nuc]. apply reg_quiet; [qt|exact R].
    + cbn [a_nets]. split.
      * intros m o' Em. apply (N1 m). apply sget_sdel_some in Em. exact Em.
      * intros m m' o' E1 E2. apply (N2 m m' o'); eapply sget_sdel_some; eassumption.
  - cbn [NucModel.step] in *. destruct (nth_error (s_actors s) a) as [x|] eqn:E; [|apply (FR s XBad F0); [qt|reflexivity]].
    destruct (a_nuc x) as [u|] eqn:Eu; [apply (FR s XUpstageErr F0); [qt|reflexivity]|]. cbn [fst snd].
    destruct (I1 a x E) as [R N]. rewrite Eu in R. cbn in R.
    apply (inv_actor s tr _ a x _ I E); [intros; reflexivity| |exact N].
    apply (reg_quiet tr _ a (Some (mkN [] []))); [qt|]. cbn. split; [constructor|]. split; [constructor|].
    intros n k. rewrite R. cbn. intuition discriminate.
  - cbn [NucModel.step] in *. destruct (nth_error (s_actors s) a) as [x|] eqn:E; [|apply (FR s XBad F0); [qt|reflexivity]].
    destruct (a_nuc x) as [u|] eqn:Eu; [|apply (FR s XBad F0); [qt|reflexivity]].
    destruct (sget n (a_nets x)) as [o|] eqn:En; [|apply (FR s XUpstageErr F0); [qt|reflexivity]]. cbn [fst snd].
    destruct (I1 a x E) as [R N]. rewrite Eu in R. cbn in R.
    apply (inv_actor s tr _ a x _ I E); [| |exact N].
    + intros b m k w Hb. cbn. replace (Nat.eqb a b) with false by (symmetry; apply Nat.eqb_neq; congruence). reflexivity.
    + cbn [a_nuc reg_ok]. eapply ok_ext; [|apply (nuc_add_ok n sts u _ R)].
      intros m k. cbn. rewrite watches_snoc. cbn. rewrite Nat.eqb_refl. reflexivity.
  - cbn [NucModel.step] in *. destruct (nth_error (s_actors s) a) as [x|] eqn:E; [|apply (FR s XBad F0); [qt|reflexivity]].
    destruct (a_nuc x) as [u|] eqn:Eu; [|apply (FR s XBad F0); [qt|reflexivity]].
    destruct (sget n (a_nets x)) as [o|] eqn:En; [|apply (FR s XUpstageErr F0); [qt|reflexivity]].
    destruct (I1 a x E) as [R N]. rewrite Eu in R. cbn in R. destruct (nuc_remove_ok n u _ R) as (u' & Eu' & R').
    rewrite Eu' in *. cbn [fst snd].
    apply (inv_actor s tr _ a x _ I E); [| |exact N].
    + intros b m k w Hb. cbn. replace (Nat.eqb a b) with false by (symmetry; apply Nat.eqb_neq; congruence). reflexivity.
    + cbn [a_nuc reg_ok]. eapply ok_ext; [|exact R'].
      intros m k. cbn. rewrite watches_snoc. cbn. rewrite Nat.eqb_refl. reflexivity.
  - cbn [NucModel.step] in *. destruct (nth_error (s_nets s) x) as [r|] eqn:E; [|apply (FR s XBad F0); [qt|reflexivity]].
    cbn [fst snd]. split; [|split; [|split]]; cbn [s_actors s_nets s_procs].
    + intros b y Eb. rewrite set_nth_length. destruct (I1 b y Eb) as [R N]. split; [apply reg_quiet; [qt|exact R]|exact N].
    + intros b n k H. rewrite watches_snoc. apply I2. exact H.
    + intros o p Ho. rewrite set_nth_get in Ho. rewrite app_length. cbn. destruct (Nat.eqb x o).
      * destruct (nth_error (s_nets s) o); [|discriminate]. injection Ho as <-. lia.
      * specialize (I3 o p Ho). lia.
    + intros o o' p H1 H2. rewrite set_nth_get in H1, H2. destruct (Nat.eqb x o) eqn:Q1, (Nat.eqb x o') eqn:Q2;
        rewrite ?Nat.eqb_eq in Q1, Q2; [congruence| | |apply (I4 o o' p H1 H2)].
      * destruct (nth_error (s_nets s) o); [|discriminate]. injection H1 as <-. specialize (I3 o' _ H2). lia.
      * destruct (nth_error (s_nets s) o'); [|discriminate]. injection H2 as <-. specialize (I3 o _ H1). lia.
  - cbn [NucModel.step fst snd]. split; [|split; [|split]]; cbn [s_actors s_nets s_procs].
    + intros b y Eb. destruct (I1 b y Eb) as [R N]. split; [apply reg_quiet; [qt|exact R]|exact N].
    + intros b n k H. rewrite watches_snoc. apply I2. exact H.
    + rewrite set_nth_length. exact I3.
    + exact I4.
  - cbn [NucModel.step] in *. destruct (Qltb t (s_now s)); [apply (FR s XBad F0); [qt|reflexivity]|]. cbn [fst snd].
    split; [|split; [|split]]; cbn [s_actors s_nets s_procs]; [| |exact I3|exact I4].
    + intros b y Eb. destruct (I1 b y Eb) as [R N]. split; [apply reg_quiet; [qt|exact R]|exact N].
    + intros b n k H. rewrite watches_snoc. apply I2. exact H.
  - eapply FR; [apply (assign_frame s act a k v)|qt|apply surjective_pairing].
  - cbn [NucModel.step] in *. destruct (nth_error (s_actors s) a) as [x|] eqn:E; [|apply (FR s XBad F0); [qt|reflexivity]].
    destruct (sget k (a_cells x)) as [c|] eqn:Ec; [|apply (FR s XBad F0); [qt|reflexivity]].
    destruct (c_act c); [apply (FR s XSimErr F0); [qt|reflexivity]|]. cbv zeta in *.
    assert (Fc : frame s (with_actor s a (mkA (a_nets x) (a_nuc x) (sset k (mkCell (c_val c) (Some (s_now s, r))) (a_cells x))))) by (apply frame_cell; congruence).
    set (s1 := with_actor s a _) in *. pose proof (read_frame s1 act a k) as F. destruct (read order s1 act a k) as [s2 e]. cbn [fst] in F.
    eapply FR; [|qt|reflexivity]. eapply frame_trans; eassumption.
  - cbn [NucModel.step] in *. pose proof (read_frame s act a k) as F. destruct (read order s act a k) as [s1 e] eqn:Er. cbn [fst] in F.
    destruct e; try (eapply FR; [exact F|qt|reflexivity]).
    destruct (nth_error (s_actors s1) a) as [x|] eqn:E; [|eapply FR; [exact F|qt|reflexivity]].
    eapply FR; [|qt|reflexivity]. eapply frame_trans; [exact F|]. apply frame_cell; [exact E|].
    unfold read in Er. destruct (nth_error (s_actors s) a) as [x0|] eqn:E0; [|discriminate].
    destruct (sget k (a_cells x0)) as [c|] eqn:Ec; [|discriminate].
    destruct (view_keys s s1 a x0 F E0) as (x1 & E1 & _ & _ & K1). rewrite E in E1. injection E1 as <-.
    apply (sget_fst k (a_cells x0)); congruence.
  - eapply FR; [apply (read_frame s act a k)|qt|apply surjective_pairing].
  - cbn [NucModel.step] in *. destruct (nth_error (s_actors s) a) as [y|] eqn:E; [|apply (FR s XBad F0); [qt|reflexivity]].
    destruct (sget n (a_nets y)) as [w|]; [|apply (FR s XSimErr F0); [qt|reflexivity]].
    destruct (current s w) as [p|]; [|apply (FR s XUpstageErr F0); [qt|reflexivity]]. rewrite interrupt_spec in *.
    destruct (can_hit s act p); [|apply (FR s XRuntimeErr F0); [qt|reflexivity]].
    eapply FR; [|qt|reflexivity]. apply frame_pend.
  - cbn [NucModel.step] in *. destruct (s_pend s) as [|[p c] l] eqn:Ep; [apply (FR s XBad F0); [qt|reflexivity]|]. cbn [fst snd].
    split; [|split; [|split]]; cbn [with_pend s_actors s_nets s_procs]; [| |exact I3|exact I4].
    + intros b y Eb. destruct (I1 b y Eb) as [R N]. split; [apply reg_quiet; [qt|exact R]|exact N].
    + intros b n k H. rewrite watches_snoc. apply I2. exact H.
Qed.
Lemma inv_init : inv init [].
Proof. split; [|split; [|split]]; cbn; intros; try (destruct a; discriminate); try (destruct o; discriminate); reflexivity. Qed.
Lemma inv_run os : forall s tr, inv s tr -> inv (run s os) (tr ++ trace s os).
Proof.
  induction os as [|o os IH]; intros s tr I; cbn [NucModel.run NucModel.trace]; [rewrite app_nil_r; exact I|].
  replace (tr ++ (o, snd (step s o)) :: trace (fst (step s o)) os) with ((tr ++ [(o, snd (step s o))]) ++ trace (fst (step s o)) os) by (rewrite <- app_assoc; reflexivity).
  apply IH. apply inv_step. exact I.
Qed.
Lemma inv_reach os : inv (run init os) (trace init os).
Proof. apply (inv_run os init [] inv_init). Qed.
End Nuc.
