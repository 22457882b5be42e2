(** Proofs about running tasks. *)
From Verif Require Import Common StateModel StateProofs ActiveModel MimicModel KnowledgeModel EvModel EvSpec EvProofs TaskModel TaskSpec.

Section P.
Variable W : Type.
Variable armw : W -> ev -> W.
Variable cleanup : W -> ev -> W * bool.
Variable task : body.
Variable rts : nat -> routine.
Notation run := (trun armw cleanup task rts).
Notation step := (tstep armw cleanup task rts).

Lemma trun_app c w a b : run c w (a ++ b) =
  let '(c1, w1, o1) := run c w a in let '(c2, w2, o2) := run c1 w1 b in (c2, w2, o1 ++ o2).
Proof.
  revert c w. induction a as [|i a IH]; intros c w; cbn [trun app].
  - destruct (run c w b) as [[c2 w2] o2]. reflexivity.
  - destruct (step c w i) as [[c1 w1] o1]. rewrite IH. destruct (run c1 w1 a) as [[c2 w2] o2].
    destruct (run c2 w2 b) as [[c3 w3] o3]. rewrite app_assoc. reflexivity.
Qed.

(** ** Ignored interrupts *)
Lemma tick_no_same c w : match c_phase c with PAgain _ => True | _ =>
  filter not_again (snd (tick armw task rts c w)) = snd (tick armw task rts c w) end.
Proof.
  unfold tick. destruct (c_phase c); auto; destruct (c_stack c) as [|f st]; auto.
  destruct (fresh f && _); auto. destruct (act_of task rts f (c_ret c)); auto.
  - destruct f; auto.
  - destruct st; auto.
Qed.
Lemma ignore_pair c w : Forall (fun o => legal o = true) (snd (run c w [IInterrupt RIgnore; ITick])) ->
  exists e, run c w [IInterrupt RIgnore; ITick] = (c, w, [OSame e]).
Proof.
  destruct c as [ph st ret]. cbn [trun tstep interrupt c_phase].
  unfold interrupt. cbn [c_phase].
  destruct ph; cbn [c_stack c_ret fail]; intro H; try (eexists; reflexivity); exfalso;
    try (destruct (tick armw task rts (mkC PRun st ret) w) as [[c2 w2] o2]); apply Forall_inv in H; cbn in H; discriminate H.
Qed.
Lemma ignored_same c w l l' : ignored l l' -> Forall (fun o => legal o = true) (snd (run c w l')) ->
  fst (run c w l') = fst (run c w l) /\
  filter not_again (snd (run c w l')) = filter not_again (snd (run c w l)).
Proof.
  intro H. revert c w. induction H as [|i l l' H IH|l l' H IH]; intros c w F.
  - auto.
  - cbn [trun] in *. destruct (step c w i) as [[c1 w1] o1]. specialize (IH c1 w1).
    destruct (run c1 w1 l) as [[c2 w2] o2], (run c1 w1 l') as [[c3 w3] o3]. cbn [fst snd] in *.
    apply Forall_app in F. destruct F as [_ F]. destruct (IH F) as [E1 E2]. split; [exact E1|].
    rewrite !filter_app, E2. reflexivity.
  - change (IInterrupt RIgnore :: ITick :: l') with ([IInterrupt RIgnore; ITick] ++ l') in *.
    rewrite trun_app in *.
    assert (F1 : Forall (fun o => legal o = true) (snd (run c w [IInterrupt RIgnore; ITick]))).
    { destruct (run c w [IInterrupt RIgnore; ITick]) as [[c1 w1] o1], (run c1 w1 l') as [[c2 w2] o2].
      cbn [snd] in *. apply Forall_app in F. tauto. }
    destruct (ignore_pair c w F1) as [e E]. rewrite E in *. specialize (IH c w).
    destruct (run c w l') as [[c2 w2] o2]. cbn [fst snd] in *. apply Forall_app in F. destruct F as [_ F].
    destruct (IH F) as [E1 E2]. split; [exact E1|]. cbn [app filter not_again]. exact E2.
Qed.

(** ** Cancelling routines *)
Definition todo_outs (todo : list (nat * list ev)) : list tout :=
  flat_map (fun p => map (OCancel (fst p)) (snd p)) todo.
Lemma todo_plan st : todo_outs (cancels rts st) = plan rts st.
Proof. unfold plan. induction st as [|[g|r k] st IH]; [reflexivity|exact IH|].
  change (routines_of (FRout r k :: st)) with (r :: routines_of st). cbn [flat_map]. rewrite <- IH. reflexivity. Qed.

Definition tail (restart : bool) : list tout := if restart then [] else [OEnd].
Definition after (restart : bool) : ctl := if restart then tinit else mkC PEnd [] None.
Lemma next_shape todo : todo_outs todo = [] /\ (forall restart w, next_cancel armw todo restart w = (after restart, w, tail restart))
  \/ exists r e l todo', todo_outs todo = OCancel r e :: todo_outs ((r, l) :: todo') /\
     forall restart w, next_cancel armw todo restart w = (mkC (PCancel ((r, e :: l) :: todo') restart) [] None, armw w e, [OCancel r e]).
Proof.
  induction todo as [|[r [|e l]] todo IH].
  - left. split; [reflexivity|]. intros [] w; reflexivity.
  - destruct IH as [[E H]|(r' & e & l & todo' & E & H)].
    + left. split; [exact E|exact H].
    + right. exists r', e, l, todo'. split; [exact E|exact H].
  - right. exists r, e, l, todo. split; [reflexivity|]. reflexivity.
Qed.

(** From one waiting point of the cancellation to the end. *)
Lemma cancel_run n : forall r e l todo ds w, S n = length (todo_outs ((r, e :: l) :: todo)) -> waits (S n) ds ->
  exists ds1 w1, (exists ds0, ds = ds0 ++ ds1 /\ waits (S n) ds0) /\ waits 0 ds1 /\
  forall restart tl, run (mkC (PCancel ((r, e :: l) :: todo) restart) [] None) w (ds ++ tl) =
    let '(c2, w2, o2) := run (after restart) w1 (ds1 ++ tl) in
    (c2, w2, todo_outs ((r, l) :: todo) ++ tail restart ++ o2).
Proof.
  induction n as [n IH] using lt_wf_ind. intros r e l todo ds w Hn Hw.
  remember (S n) as m eqn:Em. revert w. revert Em Hn. induction Hw as [|k v ds Hw IHw|k w' ds Hw IHw]; intros Em Hn w.
  - discriminate.
  - clear IHw. inversion Em; subst k.
    destruct (next_shape ((r, l) :: todo)) as [[E H]|(r' & e' & l' & todo' & E & H)].
    + assert (n = 0)%nat. { change (todo_outs ((r, e :: l) :: todo)) with (OCancel r e :: todo_outs ((r, l) :: todo)) in Hn.
        rewrite E in Hn. simpl in Hn. lia. }
      subst n. exists ds, w. split; [exists [IDone v]; split; [reflexivity|repeat constructor]|]. split; [exact Hw|].
      intros restart tl. cbn [app trun tstep c_phase]. rewrite H. rewrite E.
      destruct (run (after restart) w (ds ++ tl)) as [[c2 w2] o2]. reflexivity.
    + change (todo_outs ((r, e :: l) :: todo)) with (OCancel r e :: todo_outs ((r, l) :: todo)) in Hn.
      assert (Hn' : n = length (todo_outs ((r', e' :: l') :: todo'))).
      { rewrite E in Hn. cbn in Hn. inversion Hn. reflexivity. }
      destruct n as [|n']; [cbn in Hn'; discriminate|].
      destruct (IH n' (Nat.lt_succ_diag_r _) r' e' l' todo' ds (armw w e') Hn' Hw) as (ds1 & w1 & (ds0 & -> & W0) & W1 & R).
      exists ds1, w1. split; [exists (IDone v :: ds0); split; [reflexivity|constructor; exact W0]|]. split; [exact W1|].
      intros restart tl. cbn [app trun tstep c_phase]. rewrite H. rewrite R. rewrite E.
      destruct (run (after restart) w1 (ds1 ++ tl)) as [[c2 w2] o2]. reflexivity.
  - subst k. destruct (IHw eq_refl Hn w') as (ds1 & w1 & (ds0 & -> & W0) & W1 & R).
    exists ds1, w1. split; [exists (IWorld w' :: ds0); split; [reflexivity|constructor; exact W0]|]. split; [exact W1|].
    intros restart tl. cbn [app trun tstep]. rewrite R.
    destruct (run (after restart) w1 (ds1 ++ tl)) as [[c2 w2] o2]. reflexivity.
Qed.

Definition is_restart (a : answer) : bool := match a with RRestart => true | _ => false end.
Lemma worlds_only ds : waits 0 ds -> forall c w, exists w', forall tl,
  run c w (ds ++ tl) = run c w' tl.
Proof.
  intro H. remember 0%nat as m. induction H as [|n v l H IH|n w' l H IH]; intros c w.
  - exists w. reflexivity.
  - discriminate.
  - subst n. destruct (IH eq_refl c w') as [w2 R]. exists w2. intro tl. cbn [app trun tstep]. rewrite R.
    destruct (run c w2 tl) as [[c2 w3] o2]. reflexivity.
Qed.
Lemma interrupt_run c w e ds : c_phase c = PWait e -> snd (cleanup w e) = true ->
  waits (length (plan rts (c_stack c))) ds ->
  exists w1, forall a tl, a = REnd \/ a = RRestart ->
  run c w (IInterrupt a :: ds ++ tl) =
    let '(c2, w2, o2) := run (after (is_restart a)) w1 tl in
    (c2, w2, (OClean e :: plan rts (c_stack c)) ++ tail (is_restart a) ++ o2).
Proof.
  intros Hp Hc Hw. destruct (cleanup w e) as [w0 ok] eqn:Ec. cbn [snd] in Hc. subst ok.
  rewrite <- todo_plan in *.
  destruct (next_shape (cancels rts (c_stack c))) as [[E H]|(r & e1 & l & todo' & E & H)].
  - rewrite E in *. cbn [length] in Hw. 
    destruct (worlds_only ds Hw (after true) w0) as [w1 R1]. destruct (worlds_only ds Hw (after false) w0) as [w2 R2].
    assert (w1 = w2).
    { specialize (R1 []). specialize (R2 []). rewrite app_nil_r in *. cbn [trun] in R1, R2.
      assert (G : forall c c', snd (fst (run c w0 ds)) = snd (fst (run c' w0 ds))).
      { clear - Hw. remember 0%nat as m. generalize w0 as w. induction Hw as [|n v l H IH|n w' l H IH]; intros w c c'; [reflexivity|discriminate|].
        cbn [trun tstep]. specialize (IH Heqm w' c c'). destruct (run c w' l) as [[? ?] ?], (run c' w' l) as [[? ?] ?]. exact IH. }
      specialize (G (after true) (after false)). rewrite R1, R2 in G. exact G. }
    subst w2. exists w1. intros a tl Ha.
    assert (Ex : forall b, run (after b) w0 (ds ++ tl) = run (after b) w1 tl) by (intros []; auto).
    destruct Ha as [-> | ->]; cbn [trun tstep]; unfold interrupt; rewrite Hp, Ec, H;
      cbn [is_restart]; rewrite Ex; destruct (run (after _) w1 tl) as [[c2 w2] o2]; reflexivity.
  - assert (L : exists n, length (todo_outs (cancels rts (c_stack c))) = S n) by (rewrite E; cbn; eauto).
    destruct L as [n L]. rewrite L in Hw.
    assert (Hn : S n = length (todo_outs ((r, e1 :: l) :: todo'))) by (rewrite <- L, E; reflexivity).
    destruct (cancel_run n r e1 l todo' ds (armw w0 e1) Hn Hw) as (ds1 & w1 & _ & W1 & R).
    destruct (worlds_only ds1 W1 (after true) w1) as [x1 R1]. destruct (worlds_only ds1 W1 (after false) w1) as [x2 R2].
    assert (x1 = x2).
    { specialize (R1 []). specialize (R2 []). rewrite app_nil_r in *. cbn [trun] in R1, R2.
      assert (G : forall c c', snd (fst (run c w1 ds1)) = snd (fst (run c' w1 ds1))).
      { clear - W1. remember 0%nat as m. generalize w1 as w. induction W1 as [|k v l0 H IH|k w' l0 H IH]; intros w c c'; [reflexivity|discriminate|].
        cbn [trun tstep]. specialize (IH Heqm w' c c'). destruct (run c w' l0) as [[? ?] ?], (run c' w' l0) as [[? ?] ?]. exact IH. }
      specialize (G (after true) (after false)). rewrite R1, R2 in G. exact G. }
    subst x2. exists x1. intros a tl Ha. rewrite E.
    assert (Ex : forall b, run (after b) w1 (ds1 ++ tl) = run (after b) x1 tl) by (intros []; auto).
    destruct Ha as [-> | ->]; cbn [trun tstep]; unfold interrupt; rewrite Hp, Ec, H;
      cbn [is_restart]; rewrite R, Ex; destruct (run (after _) x1 tl) as [[c2 w2] o2];
      cbn [app]; reflexivity.
Qed.

(** ** Routine results *)
Lemma play_run r es v : scripted (rts r) es v -> forall vs, length vs = length es -> forall st w ret,
  st <> [] -> ret = None ->
  exists w' o, run (mkC PRun (FRout r 0 :: st) ret) w (play vs ++ [ITick]) =
    (mkC PRun st (match v with Some _ => v | None => last_val (map snd vs) end), w', o) /\
    deliveries o = map (fun k => (FRout r k, None)) (seq 0 (S (length es))).
Proof.
  intros [HE HR] vs Hl st w ret Hst ->.
  assert (G : forall vs2 vs1 ret w, (length vs1 + length vs2 = length es)%nat ->
    ret = last_val (map snd vs1) ->
    exists w' o, run (mkC PRun (FRout r (length vs1) :: st) ret) w (play vs2 ++ [ITick]) =
      (mkC PRun st (match v with Some _ => v | None => last_val (map snd (vs1 ++ vs2)) end), w', o) /\
      deliveries o = map (fun k => (FRout r k, None)) (seq (length vs1) (S (length vs2)))).
  { induction vs2 as [|[wd vd] vs2 IH]; intros vs1 ret w0 HL Hret.
    - rewrite app_nil_r. cbn [length] in HL. rewrite Nat.add_0_r in HL. cbn [play flat_map app trun tstep tick c_phase c_stack c_ret].
      assert (FR : fresh (FRout r (length vs1)) && match ret with Some _ => true | None => false end = false).
      { cbn [fresh]. destruct vs1; cbn [length Nat.eqb]; [|reflexivity]. subst ret. reflexivity. }
      rewrite FR. cbn [act_of]. rewrite HL, HR. destruct st as [|f st]; [contradiction|].
      eexists w0, _. split; [subst ret; reflexivity|reflexivity].
    - cbn [play flat_map]. cbn [length] in HL.
      assert (FR : fresh (FRout r (length vs1)) && match ret with Some _ => true | None => false end = false).
      { cbn [fresh]. destruct vs1; cbn [length Nat.eqb]; [|reflexivity]. subst ret. reflexivity. }
      destruct (nth_error es (length vs1)) as [e|] eqn:Ee.
      2:{ apply nth_error_None in Ee. lia. }
      specialize (IH (vs1 ++ [(wd, vd)]) vd wd).
      rewrite app_length in IH. cbn [length] in IH.
      destruct IH as (w' & o & R & D); [lia|rewrite map_app; cbn [map]; unfold last_val; rewrite last_last; reflexivity|].
      replace (length vs1 + 1)%nat with (S (length vs1)) in * by lia.
      rewrite <- app_assoc in R. cbn [app] in R. cbn [fst snd app trun tstep tick c_phase c_stack c_ret]. rewrite FR. cbn [act_of].
      rewrite (HE _ _ Ee). cbn [c_phase c_stack c_ret resumed].
      change (flat_map (fun p : W * val => [ITick; IWorld (fst p); IDone (snd p)]) vs2) with (play vs2).
      rewrite R. eexists w', _. split; [reflexivity|]. cbn [app deliveries flat_map].
      change (flat_map (fun o0 : tout => match o0 with OResume f v0 => [(f, v0)] | _ => [] end) o) with (deliveries o).
      rewrite D. reflexivity. }
  destruct (G vs [] None w) as (w' & o & R & D); [cbn; exact Hl|reflexivity|].
  exists w', o. split; [exact R|]. rewrite D, Hl. reflexivity.
Qed.

Definition result_of (v : val) (vs : list val) : val := match v with Some _ => v | None => last_val vs end.
Lemma routine_result r es v : scripted (rts r) es v -> forall vs (got : list val) w,
  length vs = length es -> task (got ++ [None]) = ARout r ->
  exists w' o, run (mkC PRun [FTask got] None) w (ITick :: play vs ++ [ITick]) =
    (mkC PRun [FTask (got ++ [None])] (result_of v (map snd vs)), w', o) /\
    deliveries o = (FTask got, None) :: map (fun k => (FRout r k, None)) (seq 0 (S (length es))).
Proof.
  intros S vs got w Hl Ht. cbn [trun tstep tick c_phase c_stack c_ret].
  assert (FR : fresh (FTask got) && false = false) by apply andb_false_r. rewrite FR.
  assert (Ht' : act_of task rts (FTask got) None = ARout r) by exact Ht. rewrite Ht'.
  destruct (play_run r es v S vs Hl [resumed (FTask got) None] w None) as (w' & o & R & D); [discriminate|reflexivity|].
  rewrite R. eexists w', _. split; [reflexivity|]. cbn [app deliveries flat_map]. f_equal. exact D.
Qed.
Lemma routine_delivers r es v : scripted (rts r) es v -> forall vs (got : list val) w,
  length vs = length es -> task (got ++ [None]) = ARout r ->
  exists o1 o2, snd (run (mkC PRun [FTask got] None) w ((ITick :: play vs ++ [ITick]) ++ [ITick])) =
    o1 ++ OResume (FTask (got ++ [None])) (result_of v (map snd vs)) :: o2 /\
    deliveries o1 = (FTask got, None) :: map (fun k => (FRout r k, None)) (seq 0 (S (length es))) /\
    deliveries o2 = [].
Proof.
  intros S vs got w Hl Ht. destruct (routine_result r es v S vs got w Hl Ht) as (w' & o & R & D).
  rewrite trun_app, R. cbn [trun tstep tick c_phase c_stack c_ret].
  assert (FR : fresh (FTask (got ++ [None])) = false) by (destruct got; reflexivity). rewrite FR. cbn [andb].
  destruct (act_of task rts (FTask (got ++ [None])) (result_of v (map snd vs))); cbn [snd app];
    eexists o, _; (split; [reflexivity|split; [exact D|reflexivity]]).
Qed.

Lemma event_value got st e w ret v : exists o,
  snd (run (mkC (PWait e) (FTask got :: st) ret) w [IDone v; ITick]) =
  (if match got, v with [], Some _ => true | _, _ => false end then OFail TType else OResume (FTask got) v) :: o
  /\ deliveries o = [].
Proof.
  cbn [trun tstep c_phase c_stack c_ret tick]. destruct got as [|g got], v as [x|]; cbn [fresh andb];
    try (eexists; split; reflexivity).
  all: match goal with |- context [act_of task rts ?f ?v] => destruct (act_of task rts f v) end; cbn;
    try (eexists; split; reflexivity); destruct st; eexists; split; reflexivity.
Qed.

(** Routine bodies never receive anything. *)
Lemma step_rout c w i r k v : In (OResume (FRout r k) v) (snd (step c w i)) -> v = None.
Proof.
  assert (NC : forall todo b w, In (OResume (FRout r k) v) (snd (next_cancel armw todo b w)) -> False).
  { intros todo b w0. destruct (next_shape todo) as [[E H]|(r' & e & l & todo' & E & H)]; rewrite H; cbn.
    - destruct b; simpl; intuition discriminate.
    - intros [X|[]]. discriminate. }
  destruct i; cbn [tstep].
  - unfold tick. destruct (c_phase c); cbn; try (intros [X|[]]; discriminate).
    + destruct (c_stack c) as [|f st]; cbn; [intros [X|[]]; discriminate|].
      destruct (fresh f && _); cbn; [intros [X|[]]; discriminate|].
      destruct (act_of task rts f (c_ret c)); cbn; try destruct st; try destruct f; cbn; intuition (try discriminate);
        match goal with H : OResume _ _ = _ |- _ => inversion H; reflexivity end.
  - destruct (c_phase c) as [| | |todo b| |]; cbn; try (intros [X|[]]; discriminate); try tauto.
    destruct todo as [|[r0 [|e l]] todo]; cbn; try (intros [X|[]]; discriminate).
    intro X. exfalso. eapply (NC ((r0, l) :: todo)). exact X.
  - unfold interrupt. destruct (c_phase c); cbn; try (intros [X|[]]; discriminate).
    destruct a; cbn; try (intros [X|[]]; discriminate); try tauto.
    all: destruct (cleanup w e) as [w1 []]; cbn; try (intros [X|[]]; discriminate).
    all: match goal with |- context [next_cancel armw ?t ?b ?x] =>
      specialize (NC t b x); destruct (next_cancel armw t b x) as [[c2 w2] o] end; cbn in *; intros [X|X];
      [discriminate|contradiction].
  - cbn. tauto.
Qed.
Lemma run_rout is : forall c w r k v, In (OResume (FRout r k) v) (snd (run c w is)) -> v = None.
Proof.
  induction is as [|i is IH]; intros c w r k v; cbn [trun]; [cbn; tauto|].
  pose proof (step_rout c w i r k v) as S. destruct (step c w i) as [[c1 w1] o1].
  specialize (IH c1 w1 r k v). destruct (run c1 w1 is) as [[c2 w2] o2]. cbn [snd] in *.
  intro X. apply in_app_or in X. tauto.
Qed.
End P.

(** ** The actor's side *)
From Verif Require Import KnowledgeProofs ActiveSpec ActiveProofs MimicSpec MimicProofs.
Section A.
Variable V : Type.
Variable typ : nat -> Z -> bool.

Lemma forget_get e n names : forall d : list (key * kval V), kget n (forget names e d) =
  match kget n d with
  | Some v => if is_event e v && existsb (Z.eqb n) names then None else Some v
  | None => None
  end.
Proof.
  induction names as [|m names IH]; intro d; cbn [forget existsb].
  - destruct (kget n d) as [v|]; [|reflexivity]. rewrite andb_false_r. reflexivity.
  - rewrite IH. destruct (kget m d) as [v|] eqn:Em.
    + destruct (is_event e v) eqn:Ev.
      * unfold clear_know, kmem. rewrite Em. cbn [negb fst]. rewrite kget_kdel.
        destruct (Z.eqb n m) eqn:Enm.
        -- apply Z.eqb_eq in Enm. subst m. rewrite Em, Ev. reflexivity.
        -- destruct (kget n d); reflexivity.
      * destruct (Z.eqb n m) eqn:Enm; [|destruct (kget n d); reflexivity].
        apply Z.eqb_eq in Enm. subst m. rewrite Em, Ev. reflexivity.
    + destruct (Z.eqb n m) eqn:Enm; [|destruct (kget n d); reflexivity].
      apply Z.eqb_eq in Enm. subst m. rewrite Em. reflexivity.
Qed.
Lemma kget_in_names n (d : list (key * kval V)) v : kget n d = Some v -> existsb (Z.eqb n) (map fst d) = true.
Proof.
  induction d as [|[m x] d IH]; cbn [kget map fst existsb]; [discriminate|].
  intro H. rewrite Z.eqb_sym. destruct (Z.eqb m n); [reflexivity|]. cbn [orb]. apply IH. exact H.
Qed.

Lemma top_off e h : cancellable h e -> exists h', cancel_top e h = (h', true) /\ event_off h h' e.
Proof.
  intros (F & W & N & P).
  assert (OK : snd (cancel e h) = true) by (apply cancel_iff; auto).
  pose proof (cancel_done e h F OK) as D.
  destruct (top_cases e h F) as [E|(i & -> & K)].
  - rewrite E. destruct (cancel e h) as [h' ok] eqn:Ec. cbn [fst snd] in *. subst ok. exists h'. split; [reflexivity|].
    destruct e as [i|i subs]; [|exact D]. unfold event_off. destruct (ekind_of h i) as [[]|] eqn:K; try exact D.
    exfalso. unfold cancel_top in E. unfold ekind_of in K. destruct (nth_error h i) as [[k s]|] eqn:En; [|discriminate].
    inversion K; subst. cbn [cancel] in E, Ec. unfold cancel_leaf in Ec. rewrite En in Ec. inversion Ec; subst h'.
    specialize (P ltac:(cbn [ev_id]; unfold ekind_of; rewrite En; reflexivity)). cbn [ev_id] in P. unfold estat_of in P. rewrite En in P. inversion P; subst.
    inversion E. assert (X : nth_error (setst i SGone h) i = nth_error h i) by (rewrite H0; reflexivity).
    rewrite nth_setst, Nat.eqb_refl, En in X. discriminate.
  - specialize (P K). cbn [ev_id] in P. unfold cancel_top, event_off. rewrite K. unfold ekind_of, estat_of in *.
    destruct (nth_error h i) as [[k s]|] eqn:En; [|discriminate]. inversion K; inversion P; subst.
    exists (setst i SGone h). split; [reflexivity|]. rewrite nth_setst, Nat.eqb_refl, En. split; [reflexivity|].
    intros j Hj. rewrite nth_setst. destruct (Nat.eqb i j) eqn:Eij; [apply Nat.eqb_eq in Eij; congruence|reflexivity].
Qed.

Lemma clean_ok me t (u : surroundings V) e : lived typ u -> own_mimics typ me t (u_mim u) -> cancellable (u_heap u) e ->
  exists u', clean typ me t u e = (u', true) /\ left_nothing me t e u u'.
Proof.
  intros [(t0 & l & os & HW & HA) (t1 & l1 & os1 & HM)] [HH HB] HC.
  destruct (deactivate_all_releases _ _ t (sound_run _ os HW _ (sound_init t0 l))) as [A1 A2]. rewrite <- HA in A1, A2.
  assert (CI : calls_inv (u_mim u)) by (rewrite HM; apply calls_run, calls_init).
  destruct (off_all typ (u_mim u) me t CI HH HB) as (m' & M1 & M2).
  destruct (top_off e (u_heap u) HC) as (h' & H1 & H2).
  unfold clean. destruct (astep (u_act u) (ADeactivateAll t)) as [a1 r1]. cbn [fst snd] in *. subst r1.
  rewrite M1, H1. eexists. split; [reflexivity|]. unfold left_nothing. cbn [u_act u_mim u_know u_heap].
  split; [exact A2|]. split; [exact M2|]. split; [|exact H2].
  intro n. rewrite forget_get. destruct (kget n (u_know u)) as [v|] eqn:Ek; [|reflexivity].
  rewrite (kget_in_names _ _ _ Ek), andb_true_r. destruct v; reflexivity.
Qed.
End A.
