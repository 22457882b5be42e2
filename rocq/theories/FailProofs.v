(** Proofs about tasks that fail. *)
From Verif Require Import Common EvModel EvSpec TaskModel TaskSpec FailModel FailSpec.
From Verif Require Import StateModel ActiveModel MimicModel KnowledgeModel.

Section P.
Variable W : Type.
Variable armw : W -> ev -> W.
Variable cleanup : W -> ev -> W * bool.
Variable task : body.
Variable rts : nat -> routine.
Variable raises : frame -> val -> option nat.
Notation step := (fstep armw cleanup task rts raises).
Notation run := (frun armw cleanup task rts raises).

Lemma run_app g w l1 l2 : run g w (l1 ++ l2) =
  let '(g1, w1, o1) := run g w l1 in let '(g2, w2, o2) := run g1 w1 l2 in (g2, w2, o1 ++ o2).
Proof.
  revert g w. induction l1 as [|i l1 IH]; intros g w; cbn [app frun].
  - destruct (run g w l2) as [[? ?] ?]. reflexivity.
  - destruct (step g w i) as [[g1 w1] o1]. rewrite IH. destruct (run g1 w1 l1) as [[g2 w2] o2].
    destruct (run g2 w2 l2) as [[g3 w3] o3]. rewrite app_assoc. reflexivity.
Qed.

Lemma lift_no_raise (r : ctl * W * list tout) x : ~ In (FRaised x) (snd (lift r)).
Proof. destruct r as [[c w] o]. cbn. intro H. apply in_map_iff in H as (y & E & _). discriminate. Qed.

(** ** A dead process *)
Lemma dead_run x st w is : exists os, run (GDead x st) w is = (GDead x st, others w is, os) /\ Forall (eq (FOut OIllegal)) os.
Proof.
  revert w. induction is as [|i is IH]; intro w; cbn [frun others].
  - exists []. auto.
  - assert (E : exists w1 o1, step (GDead x st) w i = (GDead x st, w1, o1) /\ others w1 is = others w (i :: is) /\ Forall (eq (FOut OIllegal)) o1).
    { destruct i as [[| | |w0]| |]; cbn; eexists _, _; (split; [reflexivity|]; split; [reflexivity|]; repeat constructor). }
    destruct E as (w1 & o1 & E & F & A). rewrite E. destruct (IH w1) as (os & R & B). rewrite R. exists (o1 ++ os). split.
    + change (others w (i :: is)) with (others w (i :: is)) in F. cbn [others] in F. rewrite F. reflexivity.
    + apply Forall_app. auto.
Qed.

(** ** When a step raises *)
Lemma step_raise g w i g' w' o x : step g w i = (g', w', o) -> In (FRaised x) o ->
  w' = w /\ ((i = FFail x /\ awaiting g /\ o = [FRaised x] /\ exists st, g' = GDead x st) \/
             (exists f st v, i = FIn ITick /\ about_to_resume g f st v /\ raises f v = Some x /\
                o = [FOut (OResume f v); FRaised x] /\ g' = GDead x st)).
Proof.
  intros E I. destruct i as [j|y|a].
  - destruct j as [|v|a|w0].
    + destruct g as [c|c e|y st]; try (injection E as <- <- <-; destruct I as [I|[]]; discriminate).
      cbn [fstep] in E. unfold ftick in E.
      assert (L : forall r, r = (g', w', o) -> In (FRaised x) o -> r = lift (tick armw task rts c w) -> False).
      { intros r R J Q. subst r. apply (lift_no_raise (tick armw task rts c w) x). rewrite <- Q. exact J. }
      destruct (c_phase c) eqn:P; try (exfalso; eapply L; [exact E|exact I|reflexivity]).
      destruct (c_stack c) as [|f st] eqn:S; [exfalso; eapply L; [exact E|exact I|reflexivity]|].
      destruct (fresh f && match c_ret c with Some _ => true | None => false end)%bool eqn:F;
        [exfalso; eapply L; [exact E|exact I|reflexivity]|].
      destruct (raises f _) as [y|] eqn:R; [|exfalso; eapply L; [exact E|exact I|reflexivity]].
      injection E as <- <- <-. destruct I as [I|[I|[]]]; [discriminate|]. injection I as ->. split; [reflexivity|]. right.
      exists f, st, (match f with FTask _ => c_ret c | FRout _ _ => None end). cbn. repeat split; auto.
      intro Z. rewrite Z in F. cbn in F. destruct (c_ret c); [discriminate|reflexivity].
    + destruct g as [c|c e|y st]; [|injection E as <- <- <-; destruct I as [I|[]]; discriminate..].
      cbn [fstep] in E. exfalso. apply (lift_no_raise (tstep armw cleanup task rts c w (IDone v)) x). rewrite E. exact I.
    + destruct g as [c|c e|y st]; [|injection E as <- <- <-; destruct I as [I|[]]; discriminate..].
      cbn [fstep] in E. exfalso. apply (lift_no_raise (tstep armw cleanup task rts c w (IInterrupt a)) x). rewrite E. exact I.
    + cbn in E. injection E as <- <- <-. destruct I.
  - destruct g as [c|c e|z st]; [|injection E as <- <- <-; destruct I as [I|[]]; discriminate..].
    cbn [fstep] in E. destruct (c_phase c) eqn:P; injection E as <- <- <-; destruct I as [I|[]]; try discriminate; injection I as ->;
      (split; [reflexivity|]); left; cbn; rewrite P; (split; [reflexivity|]); split; eauto.
  - exfalso. destruct g as [c|c e|z st]; [| |injection E as <- <- <-; destruct I as [I|[]]; discriminate].
    + cbn [fstep] in E.
      assert (L : lift (interrupt armw cleanup rts c w a) = (g', w', o) -> False).
      { intro Q. apply (lift_no_raise (interrupt armw cleanup rts c w a) x). rewrite Q. exact I. }
      destruct (c_phase c), a; try (exact (L E)). injection E as <- <- <-. destruct I as [I|[]]. discriminate.
    + cbn [fstep] in E.
      assert (L : lift (interrupt armw cleanup rts c w a) = (g', w', o) -> False).
      { intro Q. apply (lift_no_raise (interrupt armw cleanup rts c w a) x). rewrite Q. exact I. }
      destruct a; try (exact (L E)). injection E as <- <- <-. destruct I as [I|[]]. discriminate.
Qed.

Lemma step_fail g w x : awaiting g -> exists st, step g w (FFail x) = (GDead x st, w, [FRaised x]).
Proof.
  destruct g as [c| |]; cbn; [|contradiction..]. intros [(e & ->)|(l & b & ->)]; eauto.
Qed.
Lemma step_raises g w f st v x : about_to_resume g f st v -> raises f v = Some x ->
  step g w (FIn ITick) = (GDead x st, w, [FOut (OResume f v); FRaised x]).
Proof.
  destruct g as [c| |]; cbn; [|contradiction..]. intros (P & S & -> & Z) R. unfold ftick. rewrite P, S, R.
  destruct (fresh f) eqn:F; cbn; [|reflexivity]. rewrite (Z eq_refl). reflexivity.
Qed.

(** The run up to the failure, and after it. *)
Lemma run_raise g w is g' w' os x : run g w is = (g', w', os) -> In (FRaised x) os ->
  exists l1 i l2 g1 w1 o1 o o2 st, is = l1 ++ i :: l2 /\ run g w l1 = (g1, w1, o1) /\ (forall y, ~ In (FRaised y) o1) /\
    step g1 w1 i = (GDead x st, w1, o) /\ os = o1 ++ o ++ o2 /\ Forall (eq (FOut OIllegal)) o2 /\
    g' = GDead x st /\ w' = others w1 l2 /\
    ((i = FFail x /\ awaiting g1 /\ o = [FRaised x]) \/
     (exists f v, i = FIn ITick /\ about_to_resume g1 f st v /\ raises f v = Some x /\ o = [FOut (OResume f v); FRaised x])).
Proof.
  revert g w g' w' os. induction is as [|i is IH]; intros g w g' w' os E I; cbn [frun] in E.
  - injection E as <- <- <-. destruct I.
  - destruct (step g w i) as [[g1 w1] o1] eqn:S. destruct (run g1 w1 is) as [[g2 w2] o2] eqn:R. injection E as <- <- <-.
    assert (D : (exists y, In (FRaised y) o1) \/ forall y, ~ In (FRaised y) o1).
    { clear. induction o1 as [|[q|y] o1 IH]; [right; intros y []| |left; exists y; left; reflexivity].
      destruct IH as [(y & H)|H]; [left; exists y; right; exact H|right; intros y [Q|Q]; [discriminate|exact (H y Q)]]. }
    destruct D as [(y & Y)|N].
    + destruct (step_raise g w i g1 w1 o1 y S Y) as (-> & [(-> & A & -> & st & ->)|(f & st & v & -> & A & Ra & -> & ->)]).
      * destruct (dead_run y st w is) as (os & R' & F). rewrite R in R'. injection R' as -> -> ->.
        assert (x = y).
        { apply in_app_iff in I as [[I|[]]|I]; [injection I as <-; reflexivity|].
          exfalso. rewrite Forall_forall in F. specialize (F _ I). discriminate. }
        subst y. exists [], (FFail x), is, g, w, [], [FRaised x], os, st. cbn [frun app]. repeat split; auto.
      * destruct (dead_run y st w is) as (os & R' & F). rewrite R in R'. injection R' as -> -> ->.
        assert (x = y).
        { apply in_app_iff in I as [[I|[I|[]]]|I]; [discriminate|injection I as <-; reflexivity|].
          exfalso. rewrite Forall_forall in F. specialize (F _ I). discriminate. }
        subst y. exists [], (FIn ITick), is, g, w, [], [FOut (OResume f v); FRaised x], os, st. cbn [frun app].
        repeat split; auto. right. exists f, v. auto.
    + assert (I2 : In (FRaised x) o2) by (apply in_app_iff in I as [I|I]; [exfalso; exact (N x I)|exact I]).
      destruct (IH g1 w1 g2 w2 o2 R I2) as (l1 & j & l2 & g3 & w3 & p1 & p & p2 & st & -> & R1 & N1 & S1 & -> & F & -> & -> & D).
      exists (i :: l1), j, l2, g3, w3, (o1 ++ p1), p, p2, st. cbn [frun app]. rewrite S, R1.
      split; [reflexivity|]. split; [reflexivity|]. split.
      { intros y Q. apply in_app_iff in Q as [Q|Q]; [exact (N y Q)|exact (N1 y Q)]. }
      split; [exact S1|]. split; [rewrite app_assoc; reflexivity|]. auto.
Qed.

(** ** Without failures *)
Lemma no_failures : (forall f v, raises f v = None) -> forall is c w,
  run (GOn c) w (map FIn is) = lift (trun armw cleanup task rts c w is).
Proof.
  intros N. induction is as [|i is IH]; intros c w; [reflexivity|]. cbn [map frun trun].
  assert (E : step (GOn c) w (FIn i) = lift (tstep armw cleanup task rts c w i)).
  { destruct i; try reflexivity. cbn [fstep tstep]. unfold ftick.
    destruct (c_phase c); try reflexivity. destruct (c_stack c); try reflexivity.
    rewrite N. destruct (_ && _)%bool; reflexivity. }
  rewrite E. destruct (tstep armw cleanup task rts c w i) as [[c1 w1] o1]. cbn [lift]. rewrite IH.
  destruct (trun armw cleanup task rts c1 w1 is) as [[c2 w2] o2]. cbn. rewrite map_app. reflexivity.
Qed.

(** ** An Interrupt from what is awaited *)
Lemma ignored_forever c w e n : c_phase c = PWait e ->
  run (GOn c) w (repeat (FFailInt RIgnore) (S n)) = (GStuck c e, w, repeat (FOut (OSame e)) (S n)).
Proof.
  intro P. cbn [repeat frun fstep]. rewrite P.
  assert (R : forall n, run (GStuck c e) w (repeat (FFailInt RIgnore) n) = (GStuck c e, w, repeat (FOut (OSame e)) n)).
  { clear. induction n as [|n IH]; [reflexivity|]. cbn [repeat frun fstep]. rewrite IH. reflexivity. }
  rewrite R. reflexivity.
Qed.
(** While it is thrown again, nothing but answers counts. *)
Lemma stuck_step c e w i : fst (fst (step (GStuck c e) w i)) = GStuck c e \/ exists a, i = FFailInt a /\ ignores a = false.
Proof. destruct i as [[| | |]| |[]]; cbn; eauto. Qed.
End P.

Lemma clean_failed V typ me t (u : surroundings V) e : failed (u_heap u) e -> snd (clean typ me t u e) = false.
Proof.
  intro F. assert (C : snd (cancel_top e (u_heap u)) = false).
  { destruct e as [i|i subs]; cbn in F; destruct F as (K & S); unfold ekind_of, estat_of in *; cbn.
    - destruct (nth_error (u_heap u) i) as [[k s]|]; [|discriminate]. injection K as ->. destruct s; try reflexivity. contradiction S; reflexivity.
    - destruct K as (a & K). destruct (nth_error (u_heap u) i) as [[k s]|]; [|discriminate]. injection K as ->. destruct s; try reflexivity.
      contradiction S; reflexivity. }
  unfold clean. destruct (astep (u_act u) (ADeactivateAll t)) as [a1 []]; try reflexivity.
  destruct (mimic_off_all typ (u_mim u) me t) as [m1 []]; try reflexivity.
  destruct (cancel_top e (u_heap u)) as [h1 b]. exact C.
Qed.

Section I.
Variable V : Type.
Variable typ : nat -> Z -> bool.
Variables me t : nat.
Variable task : body.
Variable rts : nat -> routine.
Variable raises : frame -> val -> option nat.
Notation run := (frun (@arm_sur V) (clean typ me t) task rts raises).

Lemma failed_interrupt c (u : surroundings V) e a : c_phase c = PWait e -> failed (u_heap u) e -> ignores a = false ->
  exists u' x, interrupt arm_sur (clean typ me t) rts c u a = (fail c x, u', [OFail x]).
Proof.
  intros P F A. pose proof (clean_failed V typ me t u e F) as C. unfold interrupt. rewrite P.
  destruct a; try discriminate; destruct (clean typ me t u e) as [u1 ok]; cbn in C; subst; eauto.
Qed.
Lemma over_run c x (u : surroundings V) as_ : c_phase c = PFail x ->
  exists os, run (GOn c) u (map FFailInt as_) = (GOn c, u, os) /\ Forall quiet os.
Proof.
  intro P. induction as_ as [|a l IH]; cbn [map frun].
  - exists []. auto.
  - assert (E : fstep (@arm_sur V) (clean typ me t) task rts raises (GOn c) u (FFailInt a) = (GOn c, u, [FOut OIllegal])).
    { cbn. rewrite P. unfold interrupt. rewrite P. destruct a; reflexivity. }
    rewrite E. destruct IH as (os & -> & F). exists (FOut OIllegal :: os). split; [reflexivity|]. constructor; cbn; auto.
Qed.
Lemma stuck_run c (u : surroundings V) e as_ : c_phase c = PWait e -> failed (u_heap u) e -> forallb ignores as_ = false ->
  exists c' u' x os, run (GStuck c e) u (map FFailInt as_) = (GOn c', u', os) /\ c_phase c' = PFail x /\ Forall quiet os /\ In (FOut (OFail x)) os.
Proof.
  intros P F. revert u F. induction as_ as [|a l IH]; intros u F; [discriminate|]. cbn [map frun forallb].
  destruct (ignores a) eqn:A.
  - destruct a; try discriminate. cbn [fstep andb]. intro B. destruct (IH u F B) as (c' & u' & x & os & -> & Q & Z & Y).
    exists c', u', x, (FOut (OSame e) :: os). split; [reflexivity|]. split; [exact Q|]. split; [constructor; cbn; auto|right; exact Y].
  - intros _. destruct (failed_interrupt c u e a P F A) as (u1 & x & E).
    assert (S : fstep (@arm_sur V) (clean typ me t) task rts raises (GStuck c e) u (FFailInt a) = (GOn (fail c x), u1, [FOut (OFail x)])).
    { cbn [fstep]. destruct a; try discriminate; rewrite E; reflexivity. }
    rewrite S. destruct (over_run (fail c x) x u1 l eq_refl) as (os & -> & Z).
    exists (fail c x), u1, x, (FOut (OFail x) :: os). split; [reflexivity|]. split; [reflexivity|]. split; [constructor; cbn; auto|left; reflexivity].
Qed.
Lemma interrupted_run c (u : surroundings V) e as_ : c_phase c = PWait e -> failed (u_heap u) e -> forallb ignores as_ = false ->
  exists c' u' x os, run (GOn c) u (map FFailInt as_) = (GOn c', u', os) /\ c_phase c' = PFail x /\ Forall quiet os /\ In (FOut (OFail x)) os.
Proof.
  intros P F B. destruct as_ as [|a l]; [discriminate|].
  assert (E : run (GOn c) u (map FFailInt (a :: l)) = run (GStuck c e) u (map FFailInt (a :: l))).
  { cbn [map frun fstep]. rewrite P. destruct a; reflexivity. }
  rewrite E. apply stuck_run; assumption.
Qed.
End I.
