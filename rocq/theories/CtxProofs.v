(** Lemmas for CtxProps. *)
From Coq Require Import String Permutation.
From Verif Require Import Common NetModel NetProofs CtxModel CtxSpec.
Open Scope string_scope.
Open Scope list_scope.

(** ** Classes *)
Lemma smem_In g l : smem g l = true <-> In g l.
Proof.
  unfold smem. rewrite existsb_exists. split.
  - intros (x & H & E). apply String.eqb_eq in E. subst. exact H.
  - intro H. exists g. split; [exact H|apply String.eqb_refl].
Qed.
Lemma smem_not g l : smem g l = false <-> ~ In g l.
Proof. rewrite <- smem_In. destruct (smem g l); split; congruence. Qed.
Lemma add1_In g l x : In x (add1 g l) <-> In x l \/ x = g.
Proof.
  unfold add1. destruct (smem g l) eqn:E.
  - apply smem_In in E. split; [auto|]. intros [H|H]; subst; auto.
  - rewrite in_app_iff. cbn. intuition.
Qed.
Lemma snoc_nodup {X} (l : list X) x : NoDup l -> ~ In x l -> NoDup (l ++ [x]).
Proof.
  intros H N. apply NoDup_rev in H. rewrite <- (rev_involutive (l ++ [x])). apply NoDup_rev.
  rewrite rev_app_distr. cbn. constructor; [|exact H]. rewrite <- in_rev. exact N.
Qed.
Lemma add1_nodup g l : NoDup l -> NoDup (add1 g l).
Proof.
  unfold add1. destruct (smem g l) eqn:E; [auto|]. intro H. apply snoc_nodup; [exact H|]. apply smem_not. exact E.
Qed.
Lemma union_In l' : forall l x, In x (union l l') <-> In x l \/ In x l'.
Proof.
  induction l' as [|g l' IH]; intros l x; cbn.
  - tauto.
  - unfold union in IH. rewrite IH, add1_In. intuition.
Qed.
Lemma union_nodup l' : forall l, NoDup l -> NoDup (union l l').
Proof.
  induction l' as [|g l' IH]; intros l H; cbn; [exact H|]. apply IH. apply add1_nodup. exact H.
Qed.
Lemma unions_In t bs : forall l x,
  In x (fold_left (fun a b => union a (nth b t [])) bs l) <-> In x l \/ exists b, In b bs /\ In x (nth b t []).
Proof.
  induction bs as [|b bs IH]; intros l x; cbn.
  - split; [auto|]. intros [H|(b & [] & _)]; exact H.
  - rewrite IH, union_In. split.
    + intros [[H|H]|(b' & H & H')]; [auto|right; exists b; auto|right; exists b'; auto].
    + intros [H|(b' & [<-|H] & H')]; [auto|auto|right; exists b'; auto].
Qed.
Lemma unions_nodup (t : list (list string)) bs : forall l, NoDup l -> NoDup (fold_left (fun a b => union a (nth b t [])) bs l).
Proof. induction bs as [|b bs IH]; intros l H; cbn; [exact H|]. apply IH. apply union_nodup. exact H. Qed.
Lemma groups_def_nodup t c : NoDup (groups_def t c).
Proof.
  unfold groups_def. destruct (c_add c); [|constructor]. apply unions_nodup.
  destruct (smem (c_name c) (union [] (c_declared c))) eqn:E; [apply union_nodup; constructor|].
  destruct (c_skip c); [apply union_nodup; constructor|].
  apply snoc_nodup; [apply union_nodup; constructor|apply smem_not; exact E].
Qed.
Lemma groups_def_In t c g :
  In g (groups_def t c) <->
  c_add c = true /\ ((smem g (c_declared c) || String.eqb g (c_name c) && negb (c_skip c)) = true \/ exists b, In b (c_mro c) /\ In g (nth b t [])).
Proof.
  unfold groups_def. destruct (c_add c); [|split; [intros []|intros [H _]; discriminate]].
  rewrite unions_In. rewrite orb_true_iff, smem_In, andb_true_iff, negb_true_iff, String.eqb_eq.
  assert (U : forall x, In x (union [] (c_declared c)) <-> In x (c_declared c)) by (intro; rewrite union_In; cbn; tauto).
  destruct (smem (c_name c) (union [] (c_declared c))) eqn:E.
  - apply smem_In in E. rewrite U in E. rewrite U. split.
    + intros [H|H]; auto.
    + intros [_ [[H|[-> H]]|H]]; auto.
  - destruct (c_skip c).
    + rewrite U. split; [intros [H|H]; auto|]. intros [_ [[H|[_ H]]|H]]; [auto|discriminate|auto].
    + rewrite in_app_iff, U. cbn. split; [intros [[H|[H|[]]]|H]; subst; auto 6|]. intros [_ [[H|[-> H]]|H]]; auto.
Qed.
Lemma table_snoc cs c : groups_table (cs ++ [c]) = groups_table cs ++ [groups_def (groups_table cs) c].
Proof. unfold groups_table. rewrite fold_left_app. reflexivity. Qed.
Lemma table_length cs : List.length (groups_table cs) = List.length cs.
Proof.
  induction cs as [|c cs IH] using rev_ind; [reflexivity|]. rewrite table_snoc, !app_length, IH. reflexivity.
Qed.
Lemma table_nodup cs c : NoDup (nth c (groups_table cs) []).
Proof.
  induction cs as [|d cs IH] using rev_ind.
  - destruct c; constructor.
  - rewrite table_snoc. destruct (Nat.lt_ge_cases c (List.length (groups_table cs))) as [L|L].
    + rewrite app_nth1 by exact L. exact IH.
    + rewrite app_nth2 by exact L. destruct (c - List.length (groups_table cs))%nat as [|[|n]]; [apply groups_def_nodup|constructor|constructor].
Qed.
Lemma mro_ok_prefix cs d : mro_ok (cs ++ [d]) -> mro_ok cs.
Proof.
  intros H c x b Hc Hb.
  assert (Lc : (c < List.length cs)%nat) by (apply nth_error_Some; congruence).
  destruct (H c x b) as [L M]; [rewrite nth_error_app1 by exact Lc; exact Hc|exact Hb|].
  split; [exact L|]. intros d' b' Hd. apply M. rewrite nth_error_app1 by lia. exact Hd.
Qed.
Lemma declares_prefix cs d b g : (b < List.length cs)%nat -> declares (cs ++ [d]) b g = declares cs b g.
Proof. intro L. unfold declares. rewrite nth_error_app1 by exact L. reflexivity. Qed.
Lemma table_groups cs : mro_ok cs -> forall c g, In g (nth c (groups_table cs) []) <-> in_group cs c g = true.
Proof.
  induction cs as [|d cs IH] using rev_ind; intros M c g.
  - unfold in_group. destruct c; cbn; split; try tauto; discriminate.
  - pose proof (IH (mro_ok_prefix _ _ M)) as IH'. clear IH. rewrite table_snoc.
    destruct (Nat.lt_trichotomy c (List.length cs)) as [L|[->|L]].
    + rewrite app_nth1 by (rewrite table_length; exact L). rewrite IH'.
      unfold in_group. rewrite nth_error_app1 by exact L. destruct (nth_error cs c) as [x|] eqn:E; [|tauto].
      assert (EQ : existsb (fun b => declares (cs ++ [d]) b g) (c :: c_mro x) = existsb (fun b => declares cs b g) (c :: c_mro x)).
      { assert (forall l, (forall b, In b l -> (b < List.length cs)%nat) ->
          existsb (fun b => declares (cs ++ [d]) b g) l = existsb (fun b => declares cs b g) l) as EX.
        { induction l as [|b l IHl]; intro A; cbn; [reflexivity|]. rewrite IHl by (intros; apply A; right; auto).
          rewrite declares_prefix by (apply A; left; auto). reflexivity. }
        apply EX. intros b [<-|Hb]; [exact L|]. destruct (M c x b) as [Lb _]; [rewrite nth_error_app1 by exact L; exact E|exact Hb|lia]. }
      rewrite EQ. tauto.
    + rewrite app_nth2 by (rewrite table_length; lia). rewrite table_length, Nat.sub_diag. cbn [nth].
      rewrite groups_def_In. unfold in_group. rewrite nth_error_app2, Nat.sub_diag by lia. cbn [nth_error].
      set (me := smem g (c_declared d) || String.eqb g (c_name d) && negb (c_skip d)) in *.
      rewrite andb_true_iff. cbn [existsb]. rewrite orb_true_iff.
      assert (D : declares (cs ++ [d]) (List.length cs) g =
        c_add d && me).
      { unfold declares. rewrite nth_error_app2, Nat.sub_diag by lia. reflexivity. }
      rewrite D. split.
      * intros [Ha [H|(b & Hb & H)]]; (split; [exact Ha|]).
        -- left. rewrite Ha, H. reflexivity.
        -- right. apply existsb_exists. apply IH' in H. unfold in_group in H.
           destruct (nth_error cs b) as [x|] eqn:E; [|discriminate]. apply andb_prop in H. destruct H as [_ H].
           apply existsb_exists in H. destruct H as (b' & Hb' & H).
           destruct (M (List.length cs) d b) as [Lb Cl]; [rewrite nth_error_app2, Nat.sub_diag by lia; reflexivity|exact Hb|].
           assert (In b' (c_mro d)).
           { destruct Hb' as [<-|Hb']; [exact Hb|]. eapply Cl; [|exact Hb']. rewrite nth_error_app1 by exact Lb. exact E. }
           exists b'. split; [assumption|]. rewrite declares_prefix; [exact H|].
           destruct (M (List.length cs) d b') as [Lb' _]; [rewrite nth_error_app2, Nat.sub_diag by lia; reflexivity|assumption|exact Lb'].
      * intros [Ha [H|H]]; (split; [exact Ha|]).
        -- rewrite Ha in H. left. exact H.
        -- right. apply existsb_exists in H. destruct H as (b & Hb & H). exists b. split; [exact Hb|].
           destruct (M (List.length cs) d b) as [Lb _]; [rewrite nth_error_app2, Nat.sub_diag by lia; reflexivity|exact Hb|].
           rewrite declares_prefix in H by exact Lb. apply IH'. unfold in_group. unfold declares in H.
           destruct (nth_error cs b) as [x|] eqn:E; [|discriminate]. apply andb_true_iff. pose proof H as H'. apply andb_prop in H'.
           split; [tauto|]. cbn [existsb]. unfold declares at 1. rewrite E, H. reflexivity.
    + rewrite nth_overflow by (rewrite app_length, table_length; cbn; lia).
      unfold in_group. destruct (nth_error (cs ++ [d]) c) eqn:E; [|split; [intros []|discriminate]].
      assert (c < List.length (cs ++ [d]))%nat by (apply nth_error_Some; congruence). rewrite app_length in *. cbn in *. lia.
Qed.

(** ** Heaps *)
Lemma set_nth_length {X} i (x : X) : forall l, List.length (set_nth i x l) = List.length l.
Proof. revert i. intros i l. revert i. induction l as [|y l IH]; intros [|i]; cbn; auto. Qed.
Lemma set_nth_get {X} i (x : X) : forall l j, nth_error (set_nth i x l) j =
  if Nat.eqb i j then match nth_error l j with Some _ => Some x | None => None end else nth_error l j.
Proof.
  intros l. revert i. induction l as [|y l IH]; intros [|i] [|j]; cbn; auto. destruct (Nat.eqb i j); reflexivity.
Qed.
Lemma nth_of_error {X} (l : list X) i d x : nth_error l i = Some x -> nth i l d = x.
Proof. revert i. induction l as [|y l IH]; intros [|i]; cbn; try discriminate; [congruence|apply IH]. Qed.
Lemma nget_nset {X} c (x : X) : forall d c', nget c' (nset c x d) = if Nat.eqb c c' then Some x else nget c' d.
Proof.
  induction d as [|[m y] d IH]; intro c'; cbn.
  - reflexivity.
  - destruct (Nat.eqb m c) eqn:E; cbn.
    + apply Nat.eqb_eq in E. subst m. destruct (Nat.eqb c c'); reflexivity.
    + rewrite IH. destruct (Nat.eqb m c') eqn:E2; [|reflexivity]. apply Nat.eqb_eq in E2. subst m.
      rewrite Nat.eqb_sym, E. reflexivity.
Qed.

Definition keeps {X} (r : option nat) (h h' : list X) : Prop :=
  (List.length h <= List.length h')%nat /\ forall i, (i < List.length h)%nat -> r <> Some i -> nth_error h' i = nth_error h i.
Lemma keeps_refl {X} r (h : list X) : keeps r h h.
Proof. split; auto. Qed.
Lemma keeps_trans {X} r (h1 h2 h3 : list X) : keeps r h1 h2 -> keeps r h2 h3 -> keeps r h1 h3.
Proof.
  intros [L1 K1] [L2 K2]. split; [lia|]. intros i Hi Hr. rewrite K2 by (auto; lia). apply K1; auto.
Qed.
Lemma keeps_set {X} r x (h : list X) : keeps (Some r) h (set_nth r x h).
Proof.
  split; [rewrite set_nth_length; auto|]. intros i _ Hr. rewrite set_nth_get.
  destruct (Nat.eqb_spec r i); [congruence|reflexivity].
Qed.
Lemma keeps_app {X} r x (h : list X) : keeps r h (h ++ [x]).
Proof. split; [rewrite app_length; lia|]. intros i Hi _. apply nth_error_app1. exact Hi. Qed.
Lemma keeps_new {X} r x (h h' : list X) : keeps (Some (List.length h)) (h ++ [x]) h' -> keeps r h h'.
Proof.
  intros [L K]. rewrite app_length in *. cbn in *. split; [lia|]. intros i Hi _.
  rewrite K by (try lia; intros [= E]; lia). apply nth_error_app1. exact Hi.
Qed.
Lemma keeps_any {X} (h h' : list X) x : keeps (Some (List.length h)) (h ++ [x]) h' ->
  forall i, (i < List.length h)%nat -> nth_error h' i = nth_error h i.
Proof. intros K i Hi. apply (keeps_new None) in K. apply K; [exact Hi|discriminate]. Qed.

Section Ctx.
Variable V : Type.
Variable cs : list cdef.
Variable order : list string -> list string.
Variable eqv : nat -> nat -> bool.
Notation step := (step V cs order eqv).
Notation run := (run V cs order eqv).
Notation trace := (trace V cs order eqv).
Notation init := (init V).

Definition keeps_all (s s' : st V) : Prop :=
  keeps (v_env (s_vars s)) (s_envs s) (s_envs s') /\
  keeps (v_special (s_vars s)) (s_specials s) (s_specials s') /\
  keeps (v_entity (s_vars s)) (s_entities s) (s_entities s') /\
  keeps (v_stage (s_vars s)) (s_stages s) (s_stages s').
Lemma keeps_all_refl s : keeps_all s s.
Proof. repeat split; auto. Qed.

Lemma add_to_group_frame s e g r : v_entity (s_vars s) = Some r ->
  let s' := fst (add_to_group V eqv s e g) in
  s_vars s' = s_vars s /\ s_tokens s' = s_tokens s /\ s_envs s' = s_envs s /\ s_specials s' = s_specials s /\
  s_stages s' = s_stages s /\ s_next s' = s_next s /\ s_class s' = s_class s /\
  keeps (Some r) (s_entities s) (s_entities s').
Proof.
  intro H. unfold add_to_group. rewrite H. cbv zeta.
  destruct (existsb _ _); cbn; repeat (split; [reflexivity|]); apply keeps_set.
Qed.
Lemma add_groups_frame e gs : forall s r, v_entity (s_vars s) = Some r ->
  let s' := fst (add_groups V eqv s e gs) in
  s_vars s' = s_vars s /\ s_tokens s' = s_tokens s /\ s_envs s' = s_envs s /\ s_specials s' = s_specials s /\
  s_stages s' = s_stages s /\ s_next s' = s_next s /\ s_class s' = s_class s /\
  keeps (Some r) (s_entities s) (s_entities s').
Proof.
  induction gs as [|g gs IH]; intros s r H; cbn [add_groups].
  - repeat (split; [reflexivity|]). apply keeps_refl.
  - destruct (smem g SKIP_GROUPS); [apply IH; exact H|].
    pose proof (add_to_group_frame s e g r H) as F. destruct (add_to_group V eqv s e g) as [s1 ok]. cbn in F.
    destruct F as (F1 & F2 & F3 & F4 & F5 & F6 & F7 & F8).
    destruct ok; cbn; [|repeat (split; [assumption|]); assumption].
    pose proof (IH s1 r ltac:(rewrite F1; exact H)) as G. cbn in G.
    destruct G as (G1 & G2 & G3 & G4 & G5 & G6 & G7 & G8).
    repeat (split; [congruence|]). eapply keeps_trans; eauto.
Qed.
Lemma add_special_frame s e k :
  let s' := fst (add_special V eqv s e k) in
  s_vars s' = s_vars s /\ s_tokens s' = s_tokens s /\ s_envs s' = s_envs s /\ s_entities s' = s_entities s /\
  s_stages s' = s_stages s /\ s_next s' = s_next s /\ s_class s' = s_class s /\
  keeps (v_special (s_vars s)) (s_specials s) (s_specials s').
Proof.
  unfold add_special. destruct k; try (repeat (split; [reflexivity|]); apply keeps_refl);
  (destruct (v_special (s_vars s)) as [r|]; [|repeat (split; [reflexivity|]); apply keeps_refl];
   destruct (nth_error (s_specials s) r); [|repeat (split; [reflexivity|]); apply keeps_refl];
   destruct (existsb _ _); repeat (split; [reflexivity|]); [apply keeps_refl|apply keeps_set]).
Qed.
Lemma create_frame s cls ok : v_entity (s_vars s) <> None ->
  let s' := fst (create V cs order eqv s cls ok) in
  s_vars s' = s_vars s /\ s_tokens s' = s_tokens s /\ keeps_all s s' /\ s_envs s' = s_envs s /\ s_stages s' = s_stages s.
Proof.
  intro H. unfold create. destruct (nth_error cs cls) as [c|]; [|cbn; auto using keeps_all_refl].
  destruct (v_entity (s_vars s)) as [r|] eqn:Hr; [|congruence]. cbv zeta.
  set (s0 := mkS (s_vars s) _ _ _ _ _ _ _).
  pose proof (add_groups_frame (s_next s) (order (nth cls (groups_table cs) [])) s0 r Hr) as F.
  destruct (add_groups V eqv s0 (s_next s) _) as [s1 ok1]. cbn in F. destruct F as (F1 & F2 & F3 & F4 & F5 & F6 & F7 & F8).
  destruct ok1.
  - pose proof (add_special_frame s1 (s_next s) (c_kind c)) as G. destruct (add_special V eqv s1 (s_next s) (c_kind c)) as [s2 ok2].
    cbn in G. destruct G as (G1 & G2 & G3 & G4 & G5 & G6 & G7 & G8).
    assert (A : s_vars s2 = s_vars s /\ s_tokens s2 = s_tokens s /\ keeps_all s s2 /\ s_envs s2 = s_envs s /\ s_stages s2 = s_stages s).
    { split; [congruence|]. split; [congruence|]. split; [|split; congruence].
      rewrite F1, F4 in G8. unfold keeps_all. rewrite G3, F3, G4, G5, F5, Hr.
      repeat split; auto using keeps_refl; try apply F8; try apply G8. }
    destruct ok2; exact A.
  - cbn. split; [congruence|]. split; [congruence|]. split; [|split; congruence].
    unfold keeps_all. rewrite F3, F4, F5, Hr. repeat split; auto; apply F8.
Qed.
Lemma plain_frame s o : plain V o = true -> v_entity (s_vars s) <> None ->
  let s' := fst (step s o) in
  s_vars s' = s_vars s /\ s_tokens s' = s_tokens s /\ keeps_all s s'.
Proof.
  intros P H. destruct o; try discriminate P; cbn [CtxModel.step];
    try (cbn; repeat (split; [reflexivity|]); apply keeps_all_refl).
  - destruct (v_stage (s_vars s)) as [r|] eqn:E; [|cbn; auto using keeps_all_refl]. cbv zeta.
    destruct (sget k _); cbn; (repeat (split; [reflexivity|])); [apply keeps_all_refl|].
    unfold keeps_all. cbn. rewrite E. repeat split; auto; apply keeps_set; auto.
  - destruct (v_stage (s_vars s)) as [r|] eqn:E; [|cbn; auto using keeps_all_refl].
    destruct (sget k _); cbn; auto using keeps_all_refl.
  - destruct (v_stage (s_vars s)) as [r|] eqn:E; [|cbn; auto using keeps_all_refl]. cbv zeta.
    destruct (sget k _); cbn; (repeat (split; [reflexivity|])); [apply keeps_all_refl|].
    unfold keeps_all. cbn. rewrite E. repeat split; auto; apply keeps_set; auto.
  - destruct (v_stage (s_vars s)) as [r|] eqn:E; cbn; (repeat (split; [reflexivity|])); [|apply keeps_all_refl].
    unfold keeps_all. cbn. rewrite E. repeat split; auto; apply keeps_set; auto.
  - destruct (v_stage (s_vars s)) as [r|] eqn:E; [|cbn; auto using keeps_all_refl]. cbv zeta.
    destruct (sget k _); cbn; (repeat (split; [reflexivity|])); [|apply keeps_all_refl].
    unfold keeps_all. cbn. rewrite E. repeat split; auto; apply keeps_set; auto.
  - pose proof (create_frame s cls ok H) as (A & B & C & _). auto.
  - destruct (nth_error (s_class s) e) as [c|]; [|cbn; auto using keeps_all_refl].
    pose proof (create_frame s c true H) as (A & B & C & _). auto.
  - destruct (v_env (s_vars s)) as [r|] eqn:E; [|cbn; auto using keeps_all_refl].
    destruct (Qltb _ _); cbn; (repeat (split; [reflexivity|])); [|apply keeps_all_refl].
    unfold keeps_all. cbn. rewrite E. repeat split; auto; apply keeps_set; auto.
  - destruct (v_special (s_vars s)) as [r|] eqn:E; [|cbn; auto using keeps_all_refl].
    destruct (nth_error (s_specials s) r); [|cbn; auto using keeps_all_refl].
    destruct (deref _ _); cbn; (repeat (split; [reflexivity|])); [|apply keeps_all_refl].
    unfold keeps_all. cbn. rewrite E. repeat split; auto; apply keeps_set; auto.
Qed.
Lemma run_app a : forall s b, run s (a ++ b) = run (run s a) b.
Proof. induction a as [|o a IH]; intros s b; cbn; auto. Qed.
Lemma entered_app a b : entered V (a ++ b) = entered V a ++ entered V b.
Proof. apply flat_map_app. Qed.
Lemma keeps_all_trans s1 s2 s3 : s_vars s2 = s_vars s1 -> keeps_all s1 s2 -> keeps_all s2 s3 -> keeps_all s1 s3.
Proof.
  unfold keeps_all. intros E (A1 & A2 & A3 & A4) (B1 & B2 & B3 & B4). rewrite E in *.
  repeat split; try (eapply keeps_trans; eauto); eapply (proj2 (keeps_trans _ _ _ _ _ _)) ; eauto.
  Unshelve. all: eauto.
Qed.

Lemma nested_run os : nested V os -> forall s, v_entity (s_vars s) <> None ->
  let s' := run s os in
  s_vars s' = s_vars s /\ keeps_all s s' /\ (forall c, ~ In c (entered V os) -> nget c (s_tokens s') = nget c (s_tokens s)).
Proof.
  induction 1 as [|o os P N IH|c t rng body os Nb IHb Hc No IHo]; intros s H; cbv zeta.
  - cbn. auto using keeps_all_refl.
  - cbn [CtxModel.run]. pose proof (plain_frame s o P H) as (A1 & A2 & A3).
    destruct (IH (fst (step s o))) as (B1 & B2 & B3); [rewrite A1; exact H|].
    split; [congruence|]. split; [eapply keeps_all_trans; eauto|].
    intros c Hc. rewrite B3, A2; [reflexivity|]. intro G. apply Hc. unfold entered in *. cbn [flat_map]. apply in_or_app. auto.
  - cbn [CtxModel.run CtxModel.step fst]. rewrite run_app. cbn [CtxModel.run].
    set (s1 := enter V s c t rng).
    destruct (IHb s1) as (B1 & B2 & B3); [discriminate|].
    set (s2 := run s1 body) in *. cbn [CtxModel.step]. unfold leave.
    assert (T : nget c (s_tokens s2) = Some (s_vars s, false)) by (rewrite B3 by exact Hc; cbn; rewrite nget_nset, Nat.eqb_refl; reflexivity).
    rewrite T. cbn [fst]. set (s3 := mkS _ _ _ _ _ _ _ _).
    assert (K : keeps_all s s3).
    { destruct B2 as (K1 & K2 & K3 & K4). cbn in K1, K2, K3, K4. subst s3. unfold keeps_all. cbn.
      split; [eapply keeps_new; exact K1|]. split; [eapply keeps_new; exact K2|].
      split; [eapply keeps_new; exact K3|]. eapply keeps_new; exact K4. }
    destruct (IHo s3) as (C1 & C2 & C3); [exact H|].
    split; [rewrite C1; reflexivity|]. split; [eapply keeps_all_trans; [|exact K|exact C2]; reflexivity|].
    intros c' Hc'.
    assert (EN : entered V (OEnter c t rng :: body ++ OExit c :: os) = c :: entered V body ++ entered V os)
      by (change (c :: entered V (body ++ OExit c :: os) = c :: entered V body ++ entered V os); rewrite entered_app; reflexivity).
    rewrite EN in Hc'. cbn [In] in Hc'.
    rewrite C3 by (intro G; apply Hc'; right; rewrite in_app_iff; auto). subst s3. cbn. rewrite nget_nset.
    destruct (Nat.eqb_spec c c') as [E|E]; [exfalso; apply Hc'; auto|].
    rewrite B3 by (intro G; apply Hc'; right; rewrite in_app_iff; auto). cbn. rewrite nget_nset.
    destruct (Nat.eqb_spec c c'); [contradiction|reflexivity].
Qed.

(** A whole inner context leaves everything made before untouched. *)
Lemma inner_untouched s c t rng body : nested V body -> ~ In c (entered V body) ->
  let s' := run s (OEnter c t rng :: body ++ [OExit c]) in
  s_vars s' = s_vars s /\
  (forall i, (i < List.length (s_envs s))%nat -> nth_error (s_envs s') i = nth_error (s_envs s) i) /\
  (forall i, (i < List.length (s_specials s))%nat -> nth_error (s_specials s') i = nth_error (s_specials s) i) /\
  (forall i, (i < List.length (s_entities s))%nat -> nth_error (s_entities s') i = nth_error (s_entities s) i) /\
  (forall i, (i < List.length (s_stages s))%nat -> nth_error (s_stages s') i = nth_error (s_stages s) i).
Proof.
  intros N Hc. cbv zeta. cbn [CtxModel.run CtxModel.step fst]. rewrite run_app. cbn [CtxModel.run].
  set (s1 := enter V s c t rng).
  destruct (nested_run body N s1) as (B1 & B2 & B3); [discriminate|].
  set (s2 := run s1 body) in *. cbn [CtxModel.step]. unfold leave.
  assert (T : nget c (s_tokens s2) = Some (s_vars s, false)) by (rewrite B3 by exact Hc; cbn; rewrite nget_nset, Nat.eqb_refl; reflexivity).
  rewrite T. cbn [fst]. destruct B2 as (K1 & K2 & K3 & K4). cbn in K1, K2, K3, K4. cbn.
  split; [reflexivity|]. split; [eapply keeps_any; exact K1|]. split; [eapply keeps_any; exact K2|].
  split; [eapply keeps_any; exact K3|]. eapply keeps_any; exact K4.
Qed.
Lemma exit_ok s c t rng body : nested V body -> ~ In c (entered V body) ->
  snd (step (run s (OEnter c t rng :: body)) (OExit c)) = XOk.
Proof.
  intros N Hc. cbn [CtxModel.run CtxModel.step fst]. set (s1 := enter V s c t rng).
  destruct (nested_run body N s1) as (B1 & B2 & B3); [discriminate|].
  unfold leave. rewrite B3 by exact Hc. cbn. rewrite nget_nset, Nat.eqb_refl. reflexivity.
Qed.

(** ** References stay in range *)
Definition ok_ref {X} (r : option nat) (h : list X) : Prop := forall i, r = Some i -> (i < List.length h)%nat.
Definition ok_vars (v : vars) (s : st V) : Prop :=
  ok_ref (v_env v) (s_envs s) /\ ok_ref (v_special v) (s_specials s) /\
  ok_ref (v_entity v) (s_entities s) /\ ok_ref (v_stage v) (s_stages s).
Definition wf (s : st V) : Prop :=
  ok_vars (s_vars s) s /\ (forall c v b, nget c (s_tokens s) = Some (v, b) -> ok_vars v s) /\
  (forall i d g l e, nth_error (s_entities s) i = Some d -> sget g d = Some l -> In e l -> (e < s_next s)%nat) /\
  (forall i p e, nth_error (s_specials s) i = Some p -> In e (p_actors p ++ p_monitored p) -> (e < s_next s)%nat) /\
  List.length (s_class s) = s_next s.
(** s' has at least the heaps of s *)
Definition grows (s s' : st V) : Prop :=
  (List.length (s_envs s) <= List.length (s_envs s'))%nat /\ (List.length (s_specials s) <= List.length (s_specials s'))%nat /\
  (List.length (s_entities s) <= List.length (s_entities s'))%nat /\ (List.length (s_stages s) <= List.length (s_stages s'))%nat.
Lemma grows_refl s : grows s s. Proof. repeat split; auto. Qed.
Lemma grows_trans a b c : grows a b -> grows b c -> grows a c.
Proof. unfold grows. intuition lia. Qed.
Lemma ok_grows v s s' : ok_vars v s -> grows s s' -> ok_vars v s'.
Proof.
  intros (A & B & C & D) (E & F & G & H). unfold ok_vars, ok_ref in *.
  repeat split; intros i Hi; eauto using Nat.lt_le_trans.
Qed.

(** What adding to groups does, in or out of a context. *)
Lemma add_to_group_other s e g :
  let s' := fst (add_to_group V eqv s e g) in
  s_tokens s' = s_tokens s /\ s_envs s' = s_envs s /\ s_specials s' = s_specials s /\
  s_stages s' = s_stages s /\ s_next s' = s_next s /\ s_class s' = s_class s /\
  v_env (s_vars s') = v_env (s_vars s) /\ v_special (s_vars s') = v_special (s_vars s) /\ v_stage (s_vars s') = v_stage (s_vars s) /\
  v_entity (s_vars s') <> None.
Proof.
  unfold add_to_group. destruct (v_entity (s_vars s)) as [r|] eqn:H; cbv zeta.
  - destruct (existsb _ _); cbn; repeat (split; [reflexivity|]); rewrite H; discriminate.
  - cbn. repeat (split; [reflexivity|]). discriminate.
Qed.
Lemma add_groups_other e gs : forall s,
  let s' := fst (add_groups V eqv s e gs) in
  s_tokens s' = s_tokens s /\ s_envs s' = s_envs s /\ s_specials s' = s_specials s /\
  s_stages s' = s_stages s /\ s_next s' = s_next s /\ s_class s' = s_class s /\
  v_env (s_vars s') = v_env (s_vars s) /\ v_special (s_vars s') = v_special (s_vars s) /\ v_stage (s_vars s') = v_stage (s_vars s).
Proof.
  induction gs as [|g gs IH]; intros s; cbn [add_groups].
  - cbn. repeat (split; [reflexivity|]). reflexivity.
  - destruct (smem g SKIP_GROUPS); [apply IH|].
    pose proof (add_to_group_other s e g) as F. destruct (add_to_group V eqv s e g) as [s1 ok]. cbn in F.
    destruct F as (F1 & F2 & F3 & F4 & F5 & F6 & F7 & F8 & F9 & _).
    destruct ok; cbn; [|repeat (split; [assumption|]); assumption].
    pose proof (IH s1) as G. cbn in G. destruct G as (G1 & G2 & G3 & G4 & G5 & G6 & G7 & G8 & G9).
    repeat (split; [congruence|]). congruence.
Qed.

Definition grp (s : st V) (r : nat) (g : string) : list nat :=
  match nth_error (s_entities s) r with
  | Some d => match sget g d with Some l => l | None => [] end
  | None => [] end.
Lemma grp_out s r g : (List.length (s_entities s) <= r)%nat -> grp s r g = [].
Proof. intro L. unfold grp. apply nth_error_None in L. rewrite L. reflexivity. Qed.

Section Distinct.
Hypothesis distinct : forall x y, eqv x y = false.

Lemma not_listed e l : ~ In e l -> existsb (fun x => Nat.eqb x e || eqv x e) l = false.
Proof.
  intro H. destruct (existsb _ l) eqn:E; [|reflexivity]. apply existsb_exists in E. destruct E as (x & Hx & E).
  rewrite distinct, orb_false_r in E. apply Nat.eqb_eq in E. subst. contradiction.
Qed.
Lemma add_to_group_grp s e g :
  ok_ref (v_entity (s_vars s)) (s_entities s) -> (forall r, ~ In e (grp s r g)) ->
  let s' := fst (add_to_group V eqv s e g) in
  snd (add_to_group V eqv s e g) = true /\
  ok_ref (v_entity (s_vars s')) (s_entities s') /\
  (List.length (s_entities s) <= List.length (s_entities s'))%nat /\
  (v_entity (s_vars s) <> None -> s_vars s' = s_vars s) /\
  v_entity (s_vars s') <> None /\
  forall r' g', grp s' r' g' = grp s r' g' ++ (if same (v_entity (s_vars s')) r' && String.eqb g g' then [e] else []).
Proof.
  intros O F. unfold add_to_group. destruct (v_entity (s_vars s)) as [r|] eqn:H; cbv zeta.
  - pose proof (O r eq_refl) as L. destruct (nth_error (s_entities s) r) as [d|] eqn:E; [|apply nth_error_None in E; lia].
    rewrite (nth_of_error _ _ _ _ E). pose proof (F r) as Fr. unfold grp in Fr. rewrite E in Fr.
    rewrite (not_listed e (match sget g d with Some l => l | None => [] end)) by exact Fr.
    set (l := match sget g d with Some l => l | None => [] end) in *. cbn [fst snd with_entities s_vars s_entities]. rewrite H.
    split; [reflexivity|]. split; [intros i [= <-]; rewrite set_nth_length; exact L|]. split; [rewrite set_nth_length; auto|].
    split; [auto|]. split; [discriminate|]. intros r' g'. unfold grp. cbn [s_entities with_entities]. rewrite set_nth_get.
    unfold same. destruct (Nat.eqb_spec r r') as [<-|N]; [|rewrite app_nil_r; reflexivity].
    rewrite E, sget_sset. cbn [andb]. destruct (String.eqb_spec g g') as [<-|N]; [reflexivity|].
    rewrite app_nil_r. destruct (sget g d); [reflexivity|]. rewrite sget_other by congruence. reflexivity.
  - cbn [fst snd s_vars s_entities v_entity].
    split; [reflexivity|]. split; [intros i [= <-]; rewrite app_length; cbn; lia|]. split; [rewrite app_length; lia|].
    split; [congruence|]. split; [discriminate|]. intros r' g'. unfold grp. cbn [s_entities].
    unfold same. destruct (Nat.eqb_spec (List.length (s_entities s)) r') as [<-|N].
    + rewrite nth_error_app2, Nat.sub_diag by lia. cbn. pose proof (proj2 (nth_error_None (s_entities s) (List.length (s_entities s)))) as E.
      rewrite E by lia. cbn. destruct (String.eqb g g'); reflexivity.
    + cbn. rewrite app_nil_r. destruct (Nat.lt_ge_cases r' (List.length (s_entities s))) as [L|L].
      * rewrite nth_error_app1 by exact L. reflexivity.
      * rewrite nth_error_app2 by exact L. destruct (r' - List.length (s_entities s))%nat eqn:D; [lia|]. cbn.
        rewrite (proj2 (nth_error_None (s_entities s) r') L). destruct n; reflexivity.
Qed.
Lemma add_groups_grp e gs : NoDup gs -> forall s,
  ok_ref (v_entity (s_vars s)) (s_entities s) -> (forall r g, In g gs -> ~ In e (grp s r g)) ->
  let s' := fst (add_groups V eqv s e gs) in
  snd (add_groups V eqv s e gs) = true /\
  ok_ref (v_entity (s_vars s')) (s_entities s') /\
  (List.length (s_entities s) <= List.length (s_entities s'))%nat /\
  (v_entity (s_vars s) <> None -> s_vars s' = s_vars s) /\
  (v_entity (s_vars s') = None -> s' = s) /\
  forall r' g', grp s' r' g' = grp s r' g' ++ (if same (v_entity (s_vars s')) r' && smem g' gs && negb (smem g' SKIP_GROUPS) then [e] else []).
Proof.
  induction 1 as [|g gs Hg N IH]; intros s O F; cbn [add_groups].
  - cbn [fst snd]. split; [reflexivity|]. split; [exact O|]. split; [auto|]. split; [auto|]. split; [auto|].
    intros. cbn [smem existsb]. rewrite andb_false_r. cbn. rewrite app_nil_r. reflexivity.
  - assert (SM : forall g', smem g' (g :: gs) = String.eqb g' g || smem g' gs) by reflexivity.
    destruct (smem g SKIP_GROUPS) eqn:Sk.
    + destruct (IH s O) as (A1 & A2 & A3 & A4 & A5 & A6); [intros; apply F; right; assumption|].
      repeat (split; [assumption|]). intros r' g'. rewrite A6, SM. destruct (String.eqb_spec g' g) as [->|]; [|reflexivity].
      rewrite Sk, !andb_false_r. reflexivity.
    + destruct (add_to_group_grp s e g O) as (B1 & B2 & B3 & B4 & B5 & B6); [intro; apply F; left; reflexivity|].
      destruct (add_to_group V eqv s e g) as [s1 ok]. cbn [fst snd] in *. subst ok.
      destruct (IH s1 B2) as (A1 & A2 & A3 & A4 & A5 & A6).
      { intros r g' Hg' Hin. rewrite B6 in Hin. apply in_app_iff in Hin. destruct Hin as [Hin|Hin].
        - eapply F; [right; exact Hg'|exact Hin].
        - destruct (String.eqb_spec g g') as [->|]; [contradiction|]. rewrite andb_false_r in Hin. destruct Hin. }
      split; [exact A1|]. split; [exact A2|]. split; [lia|].
      split; [intro Q; rewrite A4 by exact B5; auto|].
      split; [intro Q; rewrite A4 in Q by exact B5; contradiction|].
      intros r' g'. rewrite A6, B6, SM, <- app_assoc. f_equal. rewrite (A4 B5).
      destruct (same (v_entity (s_vars s1)) r'); [|reflexivity]. cbn [andb].
      rewrite (String.eqb_sym g' g). destruct (String.eqb_spec g g') as [<-|]; [|reflexivity].
      apply smem_not in Hg. rewrite Hg, Sk. reflexivity.
Qed.

Lemma add_special_spec s e k :
  ok_ref (v_special (s_vars s)) (s_specials s) ->
  (forall r p, nth_error (s_specials s) r = Some p -> ~ In e (p_actors p ++ p_monitored p)) ->
  let s' := fst (add_special V eqv s e k) in
  (snd (add_special V eqv s e k) = false -> s' = s) /\
  List.length (s_specials s') = List.length (s_specials s) /\
  forall r, nth_error (s_specials s') r =
    match nth_error (s_specials s) r with
    | Some p => Some (mkSp (p_actors p ++ if same (v_special (s_vars s)) r && is_actor k then [e] else [])
                           (p_monitored p ++ if same (v_special (s_vars s)) r && is_monitored k then [e] else []) (p_recorded p))
    | None => None
    end.
Proof.
  intros O F. unfold add_special.
  assert (ID : forall (p : special V) r, Some p = Some (mkSp (p_actors p ++ if same (v_special (s_vars s)) r && false then [e] else [])
     (p_monitored p ++ if same (v_special (s_vars s)) r && false then [e] else []) (p_recorded p))).
  { intros p r. rewrite !andb_false_r, !app_nil_r. destruct p. reflexivity. }
  destruct k.
  3:{ cbn [fst snd is_actor is_monitored]. split; [auto|]. split; [reflexivity|]. intro r. destruct (nth_error (s_specials s) r); [apply ID|reflexivity]. }
  all: destruct (v_special (s_vars s)) as [r0|] eqn:H;
    [|cbn [fst snd same andb]; split; [auto|]; split; [reflexivity|]; intro r; destruct (nth_error (s_specials s) r) as [p|]; [rewrite !app_nil_r; destruct p|]; reflexivity].
  all: pose proof (O r0 eq_refl) as L; destruct (nth_error (s_specials s) r0) as [p|] eqn:E; [|apply nth_error_None in E; lia].
  all: pose proof (F r0 p E) as Fp; cbv zeta; rewrite not_listed by (intro G; apply Fp; apply in_or_app; auto).
  all: cbn [fst snd]; split; [discriminate|]; split; [cbn; apply set_nth_length|]; intro r; cbn [with_special s_specials is_actor is_monitored];
    rewrite set_nth_get; unfold same; destruct (Nat.eqb_spec r0 r) as [<-|N];
    [rewrite E; cbn; rewrite ?app_nil_r; reflexivity|destruct (nth_error (s_specials s) r) as [q|]; [|reflexivity]; cbn; rewrite !app_nil_r; destruct q; reflexivity].
Qed.
End Distinct.

Section Listing.
Hypothesis distinct : forall x y, eqv x y = false.
Hypothesis mro : mro_ok cs.
Hypothesis perm : forall l, Permutation (order l) l.

Lemma create_spec s cls c ok :
  nth_error cs cls = Some c -> ok_vars (s_vars s) s ->
  (forall r g e, In e (grp s r g) -> (e < s_next s)%nat) ->
  (forall r p e, nth_error (s_specials s) r = Some p -> In e (p_actors p ++ p_monitored p) -> (e < s_next s)%nat) ->
  let s' := fst (create V cs order eqv s cls ok) in
  let a := snd (create V cs order eqv s cls ok) in
  a <> XAttrErr /\
  s_next s' = S (s_next s) /\ s_class s' = s_class s ++ [cls] /\ s_tokens s' = s_tokens s /\ s_envs s' = s_envs s /\ s_stages s' = s_stages s /\
  v_env (s_vars s') = v_env (s_vars s) /\ v_special (s_vars s') = v_special (s_vars s) /\ v_stage (s_vars s') = v_stage (s_vars s) /\
  ok_vars (s_vars s') s' /\ grows s s' /\
  (forall r g, grp s' r g = grp s r g ++ (if same (v_entity (s_vars s')) r && in_group cs cls g && negb (smem g SKIP_GROUPS) then [s_next s] else [])) /\
  (forall r, nth_error (s_specials s') r =
    match nth_error (s_specials s) r with
    | Some p => Some (mkSp (p_actors p ++ if same (v_special (s_vars s)) r && is_actor (c_kind c) then [s_next s] else [])
                           (p_monitored p ++ if same (v_special (s_vars s)) r && is_monitored (c_kind c) then [s_next s] else []) (p_recorded p))
    | None => None
    end) /\
  (v_special (s_vars s) <> None -> a = (if ok then XMade (s_next s) else XInitErr (s_next s))).
Proof.
  intros Hc (O1 & O2 & O3 & O4) Fg Fs. unfold create. rewrite Hc. cbv zeta.
  set (s0 := mkS (s_vars s) _ _ _ _ _ _ _). set (gs := order (nth cls (groups_table cs) [])).
  assert (Ng : NoDup gs) by (eapply Permutation_NoDup; [apply Permutation_sym, perm|apply table_nodup]).
  assert (Mg : forall g, smem g gs = in_group cs cls g).
  { intro g. apply eq_true_iff_eq. rewrite smem_In. rewrite <- (table_groups cs mro).
    split; intro H; [eapply Permutation_in; [apply perm|exact H]|eapply Permutation_in; [apply Permutation_sym, perm|exact H]]. }
  destruct (add_groups_grp distinct (s_next s) gs Ng s0) as (A1 & A2 & A3 & A4 & A5 & A6).
  { exact O3. }
  { intros r g _ Hin. apply Fg in Hin. lia. }
  pose proof (add_groups_other (s_next s) gs s0) as B. cbv zeta in B.
  destruct (add_groups V eqv s0 (s_next s) gs) as [s1 ok1]. cbn [fst snd] in *. subst ok1.
  destruct B as (B1 & B2 & B3 & B4 & B5 & B6 & B7 & B8 & B9).
  destruct (add_special_spec distinct s1 (s_next s) (c_kind c)) as (C1 & C2 & C3).
  { rewrite B8, B3. exact O2. }
  { intros r p. rewrite B3. intros Hp Hin. eapply Fs in Hin; [|exact Hp]. lia. }
  pose proof (add_special_frame s1 (s_next s) (c_kind c)) as D. cbv zeta in D.
  assert (K : v_special (s_vars s) <> None -> snd (add_special V eqv s1 (s_next s) (c_kind c)) = true).
  { clear Hc. intro Hn. unfold add_special. rewrite B8. cbn [s0 s_vars]. destruct (c_kind c); try reflexivity;
    (destruct (v_special (s_vars s)); [|congruence]; destruct (nth_error _ _); [|reflexivity]; destruct (existsb _ _); reflexivity). }
  destruct (add_special V eqv s1 (s_next s) (c_kind c)) as [s2 ok2]. cbn [fst snd] in *.
  destruct D as (D1 & D2 & D3 & D4 & D5 & D6 & D7 & D8).
  set (res := if ok2 then _ else _).
  assert (R1 : fst res = s2) by (subst res; destruct ok2; reflexivity). rewrite R1.
  split; [subst res; destruct ok2; [destruct ok|]; discriminate|].
  split; [rewrite D6, B5; reflexivity|]. split; [rewrite D7, B6; reflexivity|]. split; [rewrite D2, B1; reflexivity|].
  split; [rewrite D3, B2; reflexivity|]. split; [rewrite D5, B4; reflexivity|].
  split; [rewrite D1, B7; reflexivity|]. split; [rewrite D1, B8; reflexivity|]. split; [rewrite D1, B9; reflexivity|].
  assert (G2 : List.length (s_specials s2) = List.length (s_specials s)) by (rewrite C2, B3; reflexivity).
  split.
  { unfold ok_vars. rewrite D1, B7, B8, B9, D3, B2, D5, B4. split; [exact O1|].
    split; [unfold ok_ref; rewrite G2; exact O2|]. split; [rewrite D4; exact A2|exact O4]. }
  split; [unfold grows; rewrite D3, B2, D5, B4, G2, D4; repeat split; auto|].
  split.
  { intros r g. unfold grp at 1. rewrite D4. rewrite D1. change (grp s1 r g = grp s r g ++ (if same (v_entity (s_vars s1)) r && in_group cs cls g && negb (smem g SKIP_GROUPS) then [s_next s] else [])).
    rewrite A6, Mg. reflexivity. }
  split.
  { intro r. rewrite C3, B3, B8. reflexivity. }
  intro Hn. subst res. rewrite (K Hn). reflexivity.
Qed.

Definition inv (s : st V) (tr : list (op V * out V * st V)) : Prop :=
  ok_vars (s_vars s) s /\ (forall c v b, nget c (s_tokens s) = Some (v, b) -> ok_vars v s) /\
  List.length (s_class s) = s_next s /\
  (forall r g e, In e (grp s r g) -> (e < s_next s)%nat) /\
  (forall r p e, nth_error (s_specials s) r = Some p -> In e (p_actors p ++ p_monitored p) -> (e < s_next s)%nat) /\
  (forall r g, grp s r g = members V cs r g tr) /\
  (forall r, match nth_error (s_specials s) r with
             | Some p => p_actors p = specials V cs is_actor r tr /\ p_monitored p = specials V cs is_monitored r tr /\
                         p_recorded p = recorded V r tr
             | None => specials V cs is_actor r tr = [] /\ specials V cs is_monitored r tr = [] /\ recorded V r tr = []
             end).
Lemma members_app r g a b : members V cs r g (a ++ b) = members V cs r g a ++ members V cs r g b.
Proof. apply flat_map_app. Qed.
Lemma specials_app f r a b : specials V cs f r (a ++ b) = specials V cs f r a ++ specials V cs f r b.
Proof. apply flat_map_app. Qed.
Lemma recorded_app r a b : recorded V r (a ++ b) = recorded V r a ++ recorded V r b.
Proof. apply flat_map_app. Qed.

(** A step that does not touch what is listed. *)
Lemma inv_quiet s tr o a s' :
  inv s tr -> new_entity V (o, a, s') = None -> (forall r, recorded V r [(o, a, s')] = []) ->
  s_entities s' = s_entities s -> s_specials s' = s_specials s -> s_next s' = s_next s -> s_class s' = s_class s ->
  ok_vars (s_vars s') s' -> (forall c v b, nget c (s_tokens s') = Some (v, b) -> ok_vars v s') ->
  inv s' (tr ++ [(o, a, s')]).
Proof.
  intros (I1 & I2 & I3 & I4 & I5 & I6 & I7) N R E1 E2 E3 E4 O T. unfold inv.
  assert (M : forall r g, members V cs r g [(o, a, s')] = []) by (intros; cbn [members flat_map]; rewrite N; reflexivity).
  assert (S : forall f r, specials V cs f r [(o, a, s')] = []) by (intros; cbn [specials flat_map]; rewrite N; reflexivity).
  assert (Gr : forall r g, grp s' r g = grp s r g) by (intros; unfold grp; rewrite E1; reflexivity).
  split; [exact O|]. split; [exact T|]. split; [congruence|].
  split; [intros r g e; rewrite Gr, E3; apply I4|]. split; [rewrite E2, E3; exact I5|].
  split; [intros; rewrite members_app, M, app_nil_r, Gr; apply I6|].
  intro r. rewrite !specials_app, recorded_app, !S, R, !app_nil_r, E2. apply I7.
Qed.
Lemma inv_create s tr o cls ok :
  inv s tr -> (o = OCreate cls ok \/ exists e, o = OClone e) ->
  nth_error cs cls <> None ->
  let s' := fst (create V cs order eqv s cls ok) in
  inv s' (tr ++ [(o, snd (create V cs order eqv s cls ok), s')]).
Proof.
  intros (I1 & I2 & I3 & I4 & I5 & I6 & I7) Ho Hc. destruct (nth_error cs cls) as [c|] eqn:E; [|congruence]. clear Hc.
  destruct (create_spec s cls c ok E I1 I4 I5) as (C1 & C2 & C3 & C4 & C5 & C6 & C7 & C8 & C9 & C10 & C11 & C12 & C13 & _). cbv zeta.
  set (s' := fst _) in *. set (a := snd _) in *.
  assert (N : new_entity V (o, a, s') = Some (s_next s)).
  { unfold new_entity. cbn [fst snd]. rewrite C2. cbn [pred]. destruct Ho as [->|[e ->]]; destruct a; congruence. }
  assert (Cl : class_of V cs s' (s_next s) = cls).
  { unfold class_of. rewrite C3, app_nth2 by lia. rewrite I3, Nat.sub_diag. reflexivity. }
  assert (Kd : kind_of V cs s' (s_next s) = c_kind c) by (unfold kind_of; rewrite Cl, E; reflexivity).
  assert (R : forall r, recorded V r [(o, a, s')] = []) by (intro; destruct Ho as [->|[e ->]]; reflexivity).
  unfold inv. split; [exact C10|].
  split; [rewrite C4; intros c0 v b Hn; eapply ok_grows; [eapply I2; exact Hn|exact C11]|].
  split; [rewrite C3, app_length, I3, C2; cbn; lia|].
  split.
  { intros r g e. rewrite C12, C2. rewrite in_app_iff. intros [H|H]; [apply I4 in H; lia|].
    destruct (_ && _); [destruct H as [<-|[]]; lia|destruct H]. }
  split.
  { intros r p e. rewrite C13, C2. destruct (nth_error (s_specials s) r) as [q|] eqn:Eq; [|discriminate]. intros [= <-]. cbn.
    rewrite !in_app_iff. intros [[H|H]|[H|H]].
    - assert (e < s_next s)%nat; [|lia]. eapply I5; [exact Eq|]. apply in_or_app. auto.
    - destruct (_ && _); [destruct H as [<-|[]]; lia|destruct H].
    - assert (e < s_next s)%nat; [|lia]. eapply I5; [exact Eq|]. apply in_or_app. auto.
    - destruct (_ && _); [destruct H as [<-|[]]; lia|destruct H]. }
  split.
  { intros r g. rewrite members_app, C12, I6. f_equal. cbn [members flat_map]. rewrite N. cbn [snd]. rewrite Cl, app_nil_r. reflexivity. }
  intro r. rewrite !specials_app, recorded_app, R, app_nil_r, C13. specialize (I7 r).
  cbn [specials flat_map]. rewrite N. cbn [snd]. rewrite Kd, C8, !app_nil_r.
  destruct (nth_error (s_specials s) r) as [p|] eqn:Ep.
  - destruct I7 as (J1 & J2 & J3). cbn. rewrite J1, J2. auto.
  - destruct I7 as (J1 & J2 & J3). rewrite J1, J2, J3.
    assert (X : same (v_special (s_vars s)) r = false).
    { destruct (v_special (s_vars s)) as [j|] eqn:Ej; [|reflexivity]. cbn. apply Nat.eqb_neq. intros ->.
      apply nth_error_None in Ep. destruct I1 as (_ & O2 & _). pose proof (O2 r Ej). lia. }
    rewrite X. cbn. auto.
Qed.
Lemma inv_same s tr o a : inv s tr -> new_entity V (o, a, s) = None -> (forall r, recorded V r [(o, a, s)] = []) ->
  inv s (tr ++ [(o, a, s)]).
Proof. intros I N R. apply inv_quiet with (s := s); auto; apply I. Qed.
Lemma ok_vars_stage s r d v : ok_vars v s -> ok_vars v (with_stage V s r d).
Proof. unfold ok_vars, ok_ref. cbn. rewrite set_nth_length. auto. Qed.
Lemma inv_stage s tr o a r d : inv s tr -> new_entity V (o, a, with_stage V s r d) = None ->
  (forall r', recorded V r' [(o, a, with_stage V s r d)] = []) -> inv (with_stage V s r d) (tr ++ [(o, a, with_stage V s r d)]).
Proof.
  intros I N R. apply inv_quiet with (s := s); auto.
  - apply ok_vars_stage. apply I.
  - intros c v b H. apply ok_vars_stage. destruct I as (_ & I2 & _). eapply I2. exact H.
Qed.
Lemma inv_step s tr o : inv s tr -> inv (fst (step s o)) (tr ++ [(o, snd (step s o), fst (step s o))]).
Proof.
  intro I. destruct o; cbn [CtxModel.step]; try (cbn [fst snd]; apply inv_same; [exact I|reflexivity|reflexivity]).
  - (* OEnter *)
    cbn [fst snd]. destruct I as (I1 & I2 & I3 & I4 & I5 & I6 & I7). unfold inv.
    assert (G : grows s (enter V s c t0 rng)) by (unfold grows; cbn; rewrite !app_length; repeat split; lia).
    assert (Gr : forall r g, grp (enter V s c t0 rng) r g = grp s r g).
    { intros r g. unfold grp. cbn. destruct (Nat.lt_trichotomy r (List.length (s_entities s))) as [L|[->|L]].
      - rewrite nth_error_app1 by exact L. reflexivity.
      - rewrite nth_error_app2, Nat.sub_diag by lia. cbn. rewrite (proj2 (nth_error_None _ _)) by lia. reflexivity.
      - rewrite !(proj2 (nth_error_None _ _)); [reflexivity| |]; rewrite ?app_length; cbn; lia. }
    split; [unfold ok_vars, ok_ref; cbn; rewrite !app_length; cbn; repeat split; intros i [= <-]; lia|].
    split.
    { intros c' v b. cbn. rewrite nget_nset. destruct (Nat.eqb c c').
      - intros [= <- <-]. eapply ok_grows; eauto.
      - intro H. eapply ok_grows; [eapply I2; exact H|exact G]. }
    split; [exact I3|]. split; [intros r g e; rewrite Gr; apply I4|].
    split.
    { intros r p e. cbn. destruct (Nat.lt_ge_cases r (List.length (s_specials s))) as [L|L].
      - rewrite nth_error_app1 by exact L. apply I5.
      - rewrite nth_error_app2 by exact L. destruct (r - List.length (s_specials s))%nat as [|[|n]]; cbn; [intros [= <-] []|discriminate|discriminate]. }
    split; [intros r g; rewrite members_app, Gr, I6; cbn; rewrite app_nil_r; reflexivity|].
    intro r. rewrite !specials_app, recorded_app.
    change (specials V cs is_actor r [_]) with (@nil nat). change (specials V cs is_monitored r [_]) with (@nil nat).
    change (recorded V r [_]) with (@nil (Q * V)). rewrite !app_nil_r. specialize (I7 r). cbn [enter s_specials].
    destruct (Nat.lt_ge_cases r (List.length (s_specials s))) as [L|L].
    + rewrite nth_error_app1 by exact L. exact I7.
    + rewrite (proj2 (nth_error_None _ _) L) in I7. rewrite nth_error_app2 by exact L. destruct I7 as (J1 & J2 & J3).
      destruct (r - List.length (s_specials s))%nat as [|[|n]]; cbn; rewrite J1, J2, J3; auto.
  - (* OExit *)
    unfold leave. destruct (nget c (s_tokens s)) as [[v [|]]|] eqn:E; cbn [fst snd]; try (apply inv_same; [exact I|reflexivity|reflexivity]).
    apply inv_quiet with (s := s); auto.
    + destruct I as (_ & I2 & _). apply (I2 _ _ _ E).
    + intros c' v' b. cbn. rewrite nget_nset. destruct I as (_ & I2 & _). destruct (Nat.eqb c c').
      * intros [= <- <-]. apply (I2 _ _ _ E).
      * apply I2.
  - destruct (v_stage (s_vars s)) as [r|]; [|cbn [fst snd]; apply inv_same; [exact I|reflexivity|reflexivity]]. cbv zeta.
    destruct (sget k _); cbn [fst snd]; [apply inv_same; [exact I|reflexivity|reflexivity]|apply inv_stage; [exact I|reflexivity|reflexivity]].
  - destruct (v_stage (s_vars s)) as [r|]; [|cbn [fst snd]; apply inv_same; [exact I|reflexivity|reflexivity]].
    destruct (sget k _); cbn [fst snd]; apply inv_same; try exact I; try reflexivity.
  - destruct (v_stage (s_vars s)) as [r|]; [|cbn [fst snd]; apply inv_same; [exact I|reflexivity|reflexivity]]. cbv zeta.
    destruct (sget k _); cbn [fst snd]; [apply inv_same; [exact I|reflexivity|reflexivity]|apply inv_stage; [exact I|reflexivity|reflexivity]].
  - destruct (v_stage (s_vars s)) as [r|]; cbn [fst snd]; [apply inv_stage; [exact I|reflexivity|reflexivity]|apply inv_same; [exact I|reflexivity|reflexivity]].
  - destruct (v_stage (s_vars s)) as [r|]; [|cbn [fst snd]; apply inv_same; [exact I|reflexivity|reflexivity]]. cbv zeta.
    destruct (sget k _); cbn [fst snd]; [apply inv_stage; [exact I|reflexivity|reflexivity]|apply inv_same; [exact I|reflexivity|reflexivity]].
  - destruct (nth_error cs cls) eqn:E.
    + apply (inv_create s tr (OCreate cls ok) cls ok); [exact I|auto|congruence].
    + unfold create. rewrite E. apply inv_same; [exact I|reflexivity|reflexivity].
  - destruct (nth_error (s_class s) e) as [cls|]; [|apply inv_same; [exact I|reflexivity|reflexivity]].
    destruct (nth_error cs cls) eqn:E.
    + apply (inv_create s tr (OClone e) cls true); [exact I|eauto|congruence].
    + unfold create. rewrite E. apply inv_same; [exact I|reflexivity|reflexivity].
  - destruct (v_env (s_vars s)) as [r|]; [|apply inv_same; [exact I|reflexivity|reflexivity]].
    destruct (Qltb _ _); [|apply inv_same; [exact I|reflexivity|reflexivity]]. cbn [fst snd].
    apply inv_quiet with (s := s); auto; destruct I as (I1 & I2 & _).
    + revert I1. unfold ok_vars, ok_ref. cbn. rewrite set_nth_length. auto.
    + intros c v b H. specialize (I2 c v b H). revert I2. unfold ok_vars, ok_ref. cbn. rewrite set_nth_length. auto.
  - (* ORecord *)
    destruct (v_special (s_vars s)) as [r|] eqn:Hr; [|apply inv_same; [exact I|reflexivity|reflexivity]].
    destruct (nth_error (s_specials s) r) as [p|] eqn:Hp; [|apply inv_same; [exact I|reflexivity|reflexivity]].
    destruct (deref (v_env (s_vars s)) (s_envs s)) as [now|] eqn:Hn; [|apply inv_same; [exact I|reflexivity|reflexivity]].
    cbn [fst snd]. destruct I as (I1 & I2 & I3 & I4 & I5 & I6 & I7). unfold inv.
    set (s' := with_special V s r _).
    assert (OK : forall v, ok_vars v s -> ok_vars v s') by (intro w; unfold ok_vars, ok_ref; cbn; rewrite set_nth_length; auto).
    split; [apply OK; exact I1|]. split; [intros c w b H; apply OK; eapply I2; exact H|]. split; [exact I3|]. split; [exact I4|].
    split.
    { intros r' q e. cbn [s' with_special s_specials s_next]. rewrite set_nth_get. destruct (Nat.eqb_spec r r') as [<-|]; [|apply I5].
      rewrite Hp. intros [= <-]. apply (I5 r p e Hp). }
    split; [intros; rewrite members_app; cbn; rewrite app_nil_r; apply I6|].
    intro r'. rewrite !specials_app, recorded_app.
    change (specials V cs is_actor r' [_]) with (@nil nat). change (specials V cs is_monitored r' [_]) with (@nil nat). rewrite !app_nil_r.
    cbn [recorded flat_map fst snd s' with_special s_vars s_envs s_specials]. rewrite Hr, Hn, app_nil_r. cbn [same].
    rewrite set_nth_get. specialize (I7 r'). destruct (Nat.eqb_spec r r') as [<-|].
    + rewrite Hp in *. destruct I7 as (J1 & J2 & J3). cbn. rewrite J3. auto.
    + rewrite app_nil_r. exact I7.
Qed.
Lemma trace_app a : forall s b, trace s (a ++ b) = trace s a ++ trace (run s a) b.
Proof.
  induction a as [|o a IH]; intros s b; cbn [CtxModel.trace CtxModel.run app]; [reflexivity|].
  destruct (step s o) as [s1 x] eqn:E. cbn [fst]. rewrite IH. reflexivity.
Qed.
Lemma inv_run os : forall s tr, inv s tr -> inv (run s os) (tr ++ trace s os).
Proof.
  induction os as [|o os IH]; intros s tr I; cbn [CtxModel.trace CtxModel.run].
  - rewrite app_nil_r. exact I.
  - pose proof (inv_step s tr o I) as J. destruct (step s o) as [s1 x]. cbn [fst snd] in *.
    specialize (IH s1 _ J). rewrite <- app_assoc in IH. exact IH.
Qed.
Lemma inv_init : inv init [].
Proof.
  unfold inv, ok_vars, ok_ref. cbn. repeat split; try discriminate.
  - intros r g e. unfold grp. cbn. destruct r; intros [].
  - intros r p e. destruct r; discriminate.
  - intros r g. unfold grp. cbn. destruct r; reflexivity.
  - intro r. destruct r; cbn; auto.
Qed.
Lemma inv_reach os : inv (run init os) (trace init os).
Proof. apply (inv_run os init []). apply inv_init. Qed.

(** Entities made are numbered in order. *)
Lemma made_sorted os : forall s tr, inv s tr ->
  (forall t e, In t (trace s os) -> new_entity V t = Some e -> (s_next s <= e)%nat) /\
  NoDup (flat_map (fun t => match new_entity V t with Some e => [e] | None => [] end) (trace s os)).
Proof.
  induction os as [|o os IH]; intros s tr I; cbn [CtxModel.trace].
  - split; [intros t e []|constructor].
  - pose proof (inv_step s tr o I) as J. destruct (step s o) as [s1 x] eqn:E. cbn [fst snd] in J.
    destruct (IH s1 _ J) as [A B].
    assert (M : (s_next s <= s_next s1)%nat /\ (forall e, new_entity V (o, x, s1) = Some e -> e = s_next s /\ s_next s1 = S (s_next s))).
    { assert (Cr : forall cls ok, (s_next s <= s_next (fst (create V cs order eqv s cls ok)))%nat /\
        (snd (create V cs order eqv s cls ok) <> XAttrErr -> s_next (fst (create V cs order eqv s cls ok)) = S (s_next s))).
      { intros cls ok. destruct (nth_error cs cls) eqn:Ec.
        - destruct I as (I1 & I2 & I3 & I4 & I5 & I6 & I7). destruct (create_spec s cls c ok Ec I1 I4 I5) as (C1 & C2 & _). rewrite C2. split; auto.
        - unfold create. rewrite Ec. cbn. split; [auto|congruence]. }
      assert (s1 = fst (step s o)) by (rewrite E; reflexivity). assert (x = snd (step s o)) by (rewrite E; reflexivity). subst s1 x. clear E A B J.
      destruct o; cbn [CtxModel.step]; try (cbn; split; [solve [auto]|discriminate]).
      - unfold leave. destruct (nget c (s_tokens s)) as [[v [|]]|]; cbn; split; auto; discriminate.
      - destruct (v_stage (s_vars s)); [destruct (sget k _)|]; cbn; split; auto; discriminate.
      - destruct (v_stage (s_vars s)); [destruct (sget k _)|]; cbn; split; auto; discriminate.
      - destruct (v_stage (s_vars s)); [destruct (sget k _)|]; cbn; split; auto; discriminate.
      - destruct (v_stage (s_vars s)); cbn; split; auto; discriminate.
      - destruct (v_stage (s_vars s)); [destruct (sget k _)|]; cbn; split; auto; discriminate.
      - destruct (Cr cls ok) as [L S]. split; [exact L|]. unfold new_entity. cbn [fst snd].
        intros e He. assert (snd (create V cs order eqv s cls ok) <> XAttrErr) as Nx by (intro Q; rewrite Q in He; discriminate).
        rewrite S in * by exact Nx. split; [|reflexivity]. destruct (snd (create V cs order eqv s cls ok)); try congruence; injection He as <-; reflexivity.
      - destruct (nth_error (s_class s) e) as [cls|]; [|cbn; split; [auto|discriminate]].
        destruct (Cr cls true) as [L S]. split; [exact L|]. unfold new_entity. cbn [fst snd].
        intros e' He. assert (snd (create V cs order eqv s cls true) <> XAttrErr) as Nx by (intro Q; rewrite Q in He; discriminate).
        rewrite S in * by exact Nx. split; [|reflexivity]. destruct (snd (create V cs order eqv s cls true)); try congruence; injection He as <-; reflexivity.
      - destruct (v_env (s_vars s)); [destruct (Qltb _ _)|]; cbn; split; auto; discriminate.
      - destruct (v_special (s_vars s)) as [r|]; [|cbn; split; [auto|discriminate]].
        destruct (nth_error (s_specials s) r); [|cbn; split; [auto|discriminate]].
        destruct (deref (v_env (s_vars s)) (s_envs s)); cbn; split; auto; discriminate. }
    destruct M as [M1 M2]. split.
    + intros t e [<-|Ht] He; [destruct (M2 e He); lia|]. pose proof (A t e Ht He). lia.
    + cbn [flat_map]. destruct (new_entity V (o, x, s1)) as [e|] eqn:Ne; [|exact B]. destruct (M2 e eq_refl) as [-> Ms]. cbn. constructor; [|exact B].
      intro G. apply in_flat_map in G. destruct G as (t & Ht & G). destruct (new_entity V t) as [e'|] eqn:Et; [|destruct G].
      destruct G as [->|[]]. pose proof (A t _ Ht Et). lia.
Qed.
Lemma sub_nodup (P : op V * out V * st V -> nat -> bool) tr :
  NoDup (flat_map (fun t => match new_entity V t with Some e => [e] | None => [] end) tr) ->
  NoDup (flat_map (fun t => match new_entity V t with Some e => if P t e then [e] else [] | None => [] end) tr).
Proof.
  induction tr as [|t tr IH]; cbn; [auto|]. intro H. destruct (new_entity V t) as [e|]; [|apply IH; exact H].
  cbn in H. inversion H as [|x l N H']; subst. specialize (IH H'). destruct (P t e); [|exact IH]. cbn. constructor; [|exact IH].
  intro G. apply N. apply in_flat_map in G. destruct G as (t' & Ht & G). apply in_flat_map. exists t'. split; [exact Ht|].
  destruct (new_entity V t') as [e'|]; [|exact G]. destruct (P t' e'); [exact G|destruct G].
Qed.
End Listing.

(** ** The stage *)
Definition stg (s : st V) (r : nat) (k : string) : option V := sget k (nth r (s_stages s) []).
Lemma create_stages s cls ok : s_stages (fst (create V cs order eqv s cls ok)) = s_stages s.
Proof.
  unfold create. destruct (nth_error cs cls) as [c|]; [|reflexivity]. cbv zeta. set (s0 := mkS _ _ _ _ _ _ _ _).
  pose proof (add_groups_other (s_next s) (order (nth cls (groups_table cs) [])) s0) as B. cbv zeta in B.
  destruct (add_groups V eqv s0 (s_next s) _) as [s1 ok1]. cbn [fst] in B. destruct B as (_ & _ & _ & B & _).
  destruct ok1; [|exact B].
  pose proof (add_special_frame s1 (s_next s) (c_kind c)) as D. cbv zeta in D. destruct (add_special V eqv s1 (s_next s) (c_kind c)) as [s2 ok2].
  cbn [fst] in D. destruct D as (_ & _ & _ & _ & D & _). destruct ok2; cbn; rewrite D; exact B.
Qed.
Lemma nth_set_same {X} r (x d : X) l : (r < List.length l)%nat -> nth r (set_nth r x l) d = x.
Proof. revert r. induction l as [|y l IH]; intros [|r] H; cbn in *; try lia; [reflexivity|]. apply IH. lia. Qed.
Lemma sget_sdel {X} k j (d : list (string * X)) : String.eqb j k = false -> sget k (sdel j d) = sget k d.
Proof.
  intro N. unfold sdel. induction d as [|[m v] d IH]; cbn; [reflexivity|]. destruct (String.eqb_spec m j) as [->|E]; cbn.
  - rewrite N. exact IH.
  - rewrite IH. reflexivity.
Qed.
Lemma plain_stage s o r k : plain V o = true -> v_stage (s_vars s) = Some r -> (r < List.length (s_stages s))%nat ->
  respects V k o = true ->
  stg (fst (step s o)) r k = match stg s r k with Some v => Some v | None => first_added V k [o] end.
Proof.
  intros P H L R. unfold stg. destruct o; try discriminate P; cbn [CtxModel.step first_added]; try (cbn [fst]; destruct (sget k _); reflexivity); rewrite ?H.
  - cbv zeta. destruct (sget k0 (nth r (s_stages s) [])) eqn:E; cbn [fst with_stage s_stages].
    + destruct (String.eqb_spec k0 k) as [->|]; [rewrite E; reflexivity|]. destruct (sget k _); reflexivity.
    + rewrite nth_set_same by exact L. rewrite sget_sset. destruct (String.eqb_spec k0 k) as [->|]; [rewrite E; reflexivity|]. destruct (sget k _); reflexivity.
  - cbv zeta. destruct (sget k0 (nth r (s_stages s) [])) eqn:E; cbn [fst]; destruct (sget k _); reflexivity.
  - cbv zeta. destruct (sget k0 (nth r (s_stages s) [])) eqn:E; cbn [fst with_stage s_stages].
    + destruct (String.eqb_spec k0 k) as [->|]; [rewrite E; reflexivity|]. destruct (sget k _); reflexivity.
    + rewrite nth_set_same by exact L. rewrite sget_sset. destruct (String.eqb_spec k0 k) as [->|]; [rewrite E; reflexivity|]. destruct (sget k _); reflexivity.
  - cbn [fst with_stage s_stages]. rewrite nth_set_same by exact L. rewrite sget_sset. cbn in R. apply negb_true_iff in R. rewrite R. destruct (sget k _); reflexivity.
  - cbn in R. apply negb_true_iff in R. cbv zeta. destruct (sget k0 (nth r (s_stages s) [])) eqn:E; cbn [fst with_stage s_stages].
    + rewrite nth_set_same by exact L. rewrite sget_sdel by exact R. destruct (sget k _); reflexivity.
    + destruct (sget k _); reflexivity.
  - rewrite create_stages. destruct (sget k _); reflexivity.
  - destruct (nth_error (s_class s) e); [rewrite create_stages|cbn [fst]]; destruct (sget k _); reflexivity.
  - destruct (v_env (s_vars s)); [destruct (Qltb _ _)|]; cbn [fst s_stages]; destruct (sget k _); reflexivity.
  - destruct (v_special (s_vars s)) as [p|]; [|cbn [fst]; destruct (sget k _); reflexivity].
    destruct (nth_error (s_specials s) p); [|cbn [fst]; destruct (sget k _); reflexivity].
    destruct (deref _ _); cbn [fst with_special s_stages]; destruct (sget k _); reflexivity.
Qed.
Lemma own_deep os : nested V os -> forall d rest, own V (S d) (os ++ rest) = own V (S d) rest.
Proof.
  induction 1 as [|o os P N IH|c t rng body os Nb IHb Hc No IHo]; intros d rest.
  - reflexivity.
  - destruct o; try discriminate P; cbn [app own]; apply IH.
  - cbn [app own]. rewrite <- app_assoc. rewrite IHb. cbn [app own pred]. apply IHo.
Qed.
Lemma own_with c t rng body os : nested V body -> own V 0 (OEnter c t rng :: body ++ OExit c :: os) = own V 0 os.
Proof. intro N. cbn [own]. rewrite own_deep by exact N. reflexivity. Qed.
Lemma own_plain o os : plain V o = true -> own V 0 (o :: os) = o :: own V 0 os.
Proof. destruct o; try discriminate; reflexivity. Qed.
Lemma first_added_app k a : forall b, first_added V k (a ++ b) = match first_added V k a with Some v => Some v | None => first_added V k b end.
Proof.
  induction a as [|o a IH]; intro b; cbn [app first_added]; [reflexivity|]. destruct o; try apply IH; destruct (String.eqb _ _); auto.
Qed.
Lemma nested_stage os : nested V os -> forall s r k,
  v_entity (s_vars s) <> None -> v_stage (s_vars s) = Some r -> (r < List.length (s_stages s))%nat ->
  forallb (respects V k) (own V 0 os) = true ->
  stg (run s os) r k = match stg s r k with Some v => Some v | None => first_added V k (own V 0 os) end.
Proof.
  induction 1 as [|o os P N IH|c t rng body os Nb IHb Hc No IHo]; intros s r k He Hs L R.
  - cbn. destruct (stg s r k); reflexivity.
  - rewrite own_plain in * by exact P. cbn [forallb] in R. apply andb_prop in R. destruct R as [R1 R2].
    pose proof (plain_frame s o P He) as (A1 & A2 & (_ & _ & _ & A3)).
    cbn [CtxModel.run]. rewrite IH; [|rewrite A1; exact He|rewrite A1; exact Hs|destruct A3; lia|exact R2].
    rewrite (plain_stage s o r k P Hs L R1). change (o :: own V 0 os) with ([o] ++ own V 0 os). rewrite first_added_app.
    destruct (stg s r k); reflexivity.
  - rewrite own_with in * by exact Nb.
    assert (E : OEnter c t rng :: body ++ OExit c :: os = (OEnter c t rng :: body ++ [OExit c]) ++ os)
      by (cbn; rewrite <- app_assoc; reflexivity).
    rewrite E, run_app.
    destruct (inner_untouched s c t rng body Nb Hc) as (U1 & U2 & U3 & U4 & U5).
    set (s1 := run s (OEnter c t rng :: body ++ [OExit c])) in *.
    assert (Q : stg s1 r k = stg s r k).
    { unfold stg. f_equal. destruct (nth_error (s_stages s) r) as [d|] eqn:Ed; [|apply nth_error_None in Ed; lia].
      rewrite (nth_of_error _ _ _ _ Ed). apply nth_of_error. rewrite U5 by exact L. exact Ed. }
    rewrite <- Q. apply IHo; [rewrite U1; exact He|rewrite U1; exact Hs| |exact R].
    apply nth_error_Some. rewrite U5 by exact L. apply nth_error_Some. exact L.
Qed.

(** References in range, whatever == does. *)
Definition refs_ok (s : st V) : Prop :=
  ok_vars (s_vars s) s /\ (forall c v b, nget c (s_tokens s) = Some (v, b) -> ok_vars v s).
Lemma add_to_group_refs s e g : ok_ref (v_entity (s_vars s)) (s_entities s) ->
  let s' := fst (add_to_group V eqv s e g) in
  ok_ref (v_entity (s_vars s')) (s_entities s') /\ (List.length (s_entities s) <= List.length (s_entities s'))%nat.
Proof.
  intro O. unfold add_to_group. destruct (v_entity (s_vars s)) as [r|] eqn:H; cbv zeta.
  - pose proof (O r eq_refl) as L.
    destruct (existsb _ _); cbn; rewrite set_nth_length, H; (split; [intros i [= <-]; rewrite set_nth_length; exact L|lia]).
  - cbn. split; [intros i [= <-]|]; rewrite app_length; cbn; lia.
Qed.
Lemma add_groups_refs e gs : forall s, ok_ref (v_entity (s_vars s)) (s_entities s) ->
  let s' := fst (add_groups V eqv s e gs) in
  ok_ref (v_entity (s_vars s')) (s_entities s') /\ (List.length (s_entities s) <= List.length (s_entities s'))%nat.
Proof.
  induction gs as [|g gs IH]; intros s O; cbn [add_groups]; [cbn; split; auto|].
  destruct (smem g SKIP_GROUPS); [apply IH; exact O|].
  pose proof (add_to_group_refs s e g O) as A. destruct (add_to_group V eqv s e g) as [s1 ok]. cbn [fst] in A. destruct A as [A1 A2].
  destruct ok; cbn [fst]; [|auto]. destruct (IH s1 A1) as [B1 B2]. split; [exact B1|lia].
Qed.
Lemma create_refs s cls ok : refs_ok s -> let s' := fst (create V cs order eqv s cls ok) in
  refs_ok s' /\ v_env (s_vars s') = v_env (s_vars s) /\ v_special (s_vars s') = v_special (s_vars s) /\ v_stage (s_vars s') = v_stage (s_vars s).
Proof.
  intros [(O1 & O2 & O3 & O4) T]. unfold create. destruct (nth_error cs cls) as [c|]; [|cbn; split; [exact (conj (conj O1 (conj O2 (conj O3 O4))) T)|auto]]. cbv zeta. set (s0 := mkS _ _ _ _ _ _ _ _).
  pose proof (add_groups_other (s_next s) (order (nth cls (groups_table cs) [])) s0) as B. cbv zeta in B.
  pose proof (add_groups_refs (s_next s) (order (nth cls (groups_table cs) [])) s0 O3) as C. cbv zeta in C.
  destruct (add_groups V eqv s0 (s_next s) _) as [s1 ok1]. cbn [fst] in B, C. destruct B as (B1 & B2 & B3 & B4 & B5 & B6 & B7 & B8 & B9).
  destruct C as [C1 C2].
  assert (X : forall s2, s_vars s2 = s_vars s1 -> s_tokens s2 = s_tokens s1 -> s_envs s2 = s_envs s1 -> s_entities s2 = s_entities s1 ->
    s_stages s2 = s_stages s1 -> List.length (s_specials s2) = List.length (s_specials s1) ->
    refs_ok s2 /\ v_env (s_vars s2) = v_env (s_vars s) /\ v_special (s_vars s2) = v_special (s_vars s) /\ v_stage (s_vars s2) = v_stage (s_vars s)).
  { intros s2 E1 E2 E3 E4 E5 E6. rewrite E1. split; [|repeat split; assumption]. unfold refs_ok, ok_vars, ok_ref. rewrite E1, E2, E3, E4, E5, E6.
    rewrite B1, B2, B3, B4, B7, B8, B9. split; [split; [exact O1|split; [exact O2|split; [exact C1|exact O4]]]|].
    intros c0 v b H. destruct (T c0 v b H) as (T1 & T2 & T3 & T4). repeat split; auto. intros i Hi. pose proof (T3 i Hi). cbn in C2. lia. }
  destruct ok1; [|cbn; apply X; reflexivity].
  pose proof (add_special_frame s1 (s_next s) (c_kind c)) as D. cbv zeta in D.
  assert (LS : List.length (s_specials (fst (add_special V eqv s1 (s_next s) (c_kind c)))) = List.length (s_specials s1)).
  { unfold add_special. destruct (c_kind c); try reflexivity;
    (destruct (v_special (s_vars s1)) as [r|]; [|reflexivity]; destruct (nth_error (s_specials s1) r); [|reflexivity];
     destruct (existsb _ _); [reflexivity|]; cbn; apply set_nth_length). }
  destruct (add_special V eqv s1 (s_next s) (c_kind c)) as [s2 ok2].
  cbn [fst] in D, LS. destruct D as (D1 & D2 & D3 & D4 & D5 & _). destruct ok2; cbn; apply X; assumption.
Qed.
Lemma refs_step s o : refs_ok s -> refs_ok (fst (step s o)) /\
  (plain V o = true -> v_env (s_vars (fst (step s o))) = v_env (s_vars s) /\
     v_special (s_vars (fst (step s o))) = v_special (s_vars s) /\ v_stage (s_vars (fst (step s o))) = v_stage (s_vars s)).
Proof.
  intro R. assert (W : forall r d, refs_ok (with_stage V s r d)).
  { intros r d. destruct R as [R1 R2]. split; [apply ok_vars_stage; exact R1|]. intros c v b H. apply ok_vars_stage. eapply R2. exact H. }
  destruct o; cbn [CtxModel.step]; try (cbn; split; [exact R|auto]).
  - split; [|discriminate]. cbn. destruct R as [R1 R2].
    assert (G : grows s (enter V s c t0 rng)) by (unfold grows; cbn; rewrite !app_length; repeat split; lia).
    split; [unfold ok_vars, ok_ref; cbn; rewrite !app_length; cbn; repeat split; intros i [= <-]; lia|].
    intros c' v b. cbn. rewrite nget_nset. destruct (Nat.eqb c c').
    + intros [= <- <-]. eapply ok_grows; eauto.
    + intro H. eapply ok_grows; [eapply R2; exact H|exact G].
  - split; [|discriminate]. unfold leave. destruct R as [R1 R2]. destruct (nget c (s_tokens s)) as [[v [|]]|] eqn:E; cbn; try (split; assumption).
    split; [apply (R2 _ _ _ E)|]. intros c' v' b. cbn. rewrite nget_nset. destruct (Nat.eqb c c').
    + intros [= <- <-]. apply (R2 _ _ _ E).
    + apply R2.
  - destruct (v_stage (s_vars s)) eqn:E; [|cbn; auto]. cbv zeta. destruct (sget k _); cbn; auto.
  - destruct (v_stage (s_vars s)) eqn:E; [|cbn; auto]. destruct (sget k _); cbn; auto.
  - destruct (v_stage (s_vars s)) eqn:E; [|cbn; auto]. cbv zeta. destruct (sget k _); cbn; auto.
  - destruct (v_stage (s_vars s)) eqn:E; cbn; auto.
  - destruct (v_stage (s_vars s)) eqn:E; [|cbn; auto]. cbv zeta. destruct (sget k _); cbn; auto.
  - destruct (create_refs s cls ok R) as [A B]. auto.
  - destruct (nth_error (s_class s) e) as [cls|]; [|cbn; auto]. destruct (create_refs s cls true R) as [A B]. auto.
  - destruct (v_env (s_vars s)) eqn:E; [|cbn; auto]. destruct (Qltb _ _); cbn; [|auto]. split; [|auto]. destruct R as [R1 R2]. split.
    + revert R1. unfold ok_vars, ok_ref. cbn. rewrite set_nth_length. auto.
    + intros c w b H. specialize (R2 c w b H). revert R2. unfold ok_vars, ok_ref. cbn. rewrite set_nth_length. auto.
  - destruct (v_special (s_vars s)) as [r|] eqn:E; [|cbn; auto]. destruct (nth_error (s_specials s) r); [|cbn; auto].
    destruct (deref _ _); [|cbn; auto]. cbn. split; [|auto]. destruct R as [R1 R2]. split.
    + revert R1. unfold ok_vars, ok_ref. cbn. rewrite set_nth_length. auto.
    + intros c w b H. specialize (R2 c w b H). revert R2. unfold ok_vars, ok_ref. cbn. rewrite set_nth_length. auto.
Qed.
Lemma refs_run os : forall s, refs_ok s -> refs_ok (run s os).
Proof. induction os as [|o os IH]; intros s R; cbn; [exact R|]. apply IH. apply refs_step. exact R. Qed.
Lemma refs_init : refs_ok init.
Proof. unfold refs_ok, ok_vars, ok_ref. cbn. repeat split; discriminate. Qed.
Lemma outside os : nested V os -> forall s, refs_ok s ->
  v_env (s_vars s) = None -> v_special (s_vars s) = None -> v_stage (s_vars s) = None ->
  v_env (s_vars (run s os)) = None /\ v_special (s_vars (run s os)) = None /\ v_stage (s_vars (run s os)) = None.
Proof.
  induction 1 as [|o os P N IH|c t rng body os Nb IHb Hc No IHo]; intros s R H1 H2 H3.
  - auto.
  - cbn [CtxModel.run]. destruct (refs_step s o R) as [R' A]. destruct (A P) as (A1 & A2 & A3). apply IH; congruence.
  - assert (E : OEnter c t rng :: body ++ OExit c :: os = (OEnter c t rng :: body ++ [OExit c]) ++ os)
      by (cbn; rewrite <- app_assoc; reflexivity).
    rewrite E, run_app. destruct (inner_untouched s c t rng body Nb Hc) as (U1 & _).
    apply IHo; [apply refs_run; exact R|rewrite U1; assumption..].
Qed.

(** Environment and special groups are set together. *)
Definition paired (v : vars) : Prop := v_env v = None <-> v_special v = None.
Definition pairs_ok (s : st V) : Prop := paired (s_vars s) /\ forall c v b, nget c (s_tokens s) = Some (v, b) -> paired v.
Lemma add_special_tokens s e k : s_tokens (fst (add_special V eqv s e k)) = s_tokens s.
Proof.
  unfold add_special. destruct k; try reflexivity; (destruct (v_special (s_vars s)); [|reflexivity]); (destruct (nth_error _ _); [|reflexivity]); cbv zeta; destruct (existsb _ _); reflexivity.
Qed.
Lemma create_tokens s cls ok : s_tokens (fst (create V cs order eqv s cls ok)) = s_tokens s.
Proof.
  unfold create. destruct (nth_error cs cls); [|reflexivity]. cbv zeta. set (s0 := mkS _ _ _ _ _ _ _ _).
  pose proof (add_groups_other (s_next s) (order (nth cls (groups_table cs) [])) s0) as F. destruct (add_groups V eqv s0 _ _) as [s1 ok1]. cbn in F. destruct F as (F & _).
  destruct ok1; [|exact F]. pose proof (add_special_tokens s1 (s_next s) (c_kind c)) as G. destruct (add_special V eqv s1 _ _) as [s2 ok2]. cbn in G. destruct ok2; cbn; congruence.
Qed.
Lemma plain_tokens s o : plain V o = true -> s_tokens (fst (step s o)) = s_tokens s.
Proof.
  destruct o; intro P; try discriminate P; cbn [CtxModel.step]; try reflexivity.
  - destruct (v_stage (s_vars s)); [|reflexivity]. cbv zeta. destruct (sget k _); reflexivity.
  - destruct (v_stage (s_vars s)); [|reflexivity]. destruct (sget k _); reflexivity.
  - destruct (v_stage (s_vars s)); [|reflexivity]. cbv zeta. destruct (sget k _); reflexivity.
  - destruct (v_stage (s_vars s)); reflexivity.
  - destruct (v_stage (s_vars s)); [|reflexivity]. cbv zeta. destruct (sget k _); reflexivity.
  - apply create_tokens.
  - destruct (nth_error (s_class s) e); [apply create_tokens|reflexivity].
  - destruct (v_env (s_vars s)); [|reflexivity]. destruct (Qltb _ _); reflexivity.
  - destruct (v_special (s_vars s)) as [r|]; [|reflexivity]. destruct (nth_error (s_specials s) r); [|reflexivity]. destruct (deref _ _); reflexivity.
Qed.
Lemma pairs_step s o : refs_ok s -> pairs_ok s -> pairs_ok (fst (step s o)).
Proof.
  intros R [P T]. destruct (plain V o) eqn:PL.
  - destruct (refs_step s o R) as [_ A]. destruct (A PL) as (A1 & A2 & _). split; [unfold paired; rewrite A1, A2; exact P|]. rewrite (plain_tokens s o PL). exact T.
  - destruct o; try discriminate PL; cbn [CtxModel.step fst].
    + split; [split; discriminate|]. intros c' v b. cbn. rewrite nget_nset. destruct (Nat.eqb c c'); [intros [= <- <-]; exact P|apply T].
    + unfold leave. destruct (nget c (s_tokens s)) as [[v [|]]|] eqn:E; cbn; try (split; assumption). split; [exact (T _ _ _ E)|].
      intros c' v' b. cbn. rewrite nget_nset. destruct (Nat.eqb c c'); [intros [= <- <-]; exact (T _ _ _ E)|apply T].
Qed.
Lemma pairs_run os : forall s, refs_ok s -> pairs_ok s -> pairs_ok (run s os).
Proof. induction os as [|o os IH]; intros s R P; cbn; [exact P|]. apply IH; [apply refs_step; exact R|apply pairs_step; assumption]. Qed.
Lemma pairs_init : pairs_ok init.
Proof. split; [split; reflexivity|]. cbn. discriminate. Qed.
End Ctx.
