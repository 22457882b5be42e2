From Coq Require Import Sorted.
From Verif Require Import Common ReserveModel ReserveSpec ReserveProofs ContainerModel ContainerSpec.

(** *** Recording, generically *)
Definition lhist_ok (now : Q) (q : list (Q * Q)) : Prop :=
  readings_ordered q /\ readings_distinct q /\ match q with (u, _) :: _ => u <= now | [] => False end.
Definition lext (now : Q) (q q' : list (Q * Q)) : Prop :=
  exists pre, q' = pre ++ q /\ Forall (fun p => fst p = now) pre.
Definition lgood (now : Q) (q q' : list (Q * Q)) : Prop :=
  lext now q q' /\ (lhist_ok now q -> lhist_ok now q').
Definition lcur (q : list (Q * Q)) (v : Q) : Prop := match q with (_, w) :: _ => w == v | [] => False end.

Lemma lgood_refl now q : lgood now q q.
Proof. split; [exists []; auto|auto]. Qed.
Lemma lgood_trans now a b c : lgood now a b -> lgood now b c -> lgood now a c.
Proof.
  intros [(p1 & -> & F1) H1] [(p2 & -> & F2) H2]. split; [|auto].
  exists (p2 ++ p1). rewrite app_assoc. split; [reflexivity|]. apply Forall_app. auto.
Qed.

Lemma crecord_good now lvl q : lgood now q (crecord now lvl q).
Proof.
  unfold crecord. destruct q as [|[u w] q].
  - split; [|intros (_ & _ & [])]. exists [(now, lvl)]. split; [reflexivity|]. constructor; auto.
  - destruct (Qeqb now u && Qeqb lvl w) eqn:E; [apply lgood_refl|]. split.
    + exists [(now, lvl)]. split; [reflexivity|]. constructor; auto.
    + intros (H1 & H2 & H3). split; [split; [exact H3|exact H1]|]. split; [|apply Qle_refl].
      split; [|exact H2]. intros [E1 E2]. apply Qeqb_eq in E1, E2. rewrite E1, E2 in E. discriminate.
Qed.

Lemma crecord_cur now lvl q : lcur (crecord now lvl q) lvl.
Proof.
  unfold crecord. destruct q as [|[u w] q]; [cbn; reflexivity|].
  destruct (Qeqb now u && Qeqb lvl w) eqn:E; [|cbn; reflexivity].
  apply andb_prop in E. destruct E as [_ E]. qbool. cbn. symmetry. exact E.
Qed.

Lemma level_at_now now t q v : lhist_ok now q -> lcur q v -> now <= t -> oeq (level_at t q) (Some v).
Proof.
  intros (_ & _ & H) Hc Ht. destruct q as [|[u w] q]; [destruct H|]. cbn in *.
  assert (E : Qleb u t = true) by (apply Qleb_le; lra). rewrite E. exact Hc.
Qed.
Lemma level_at_ext now t q q' : lext now q q' -> t < now -> level_at t q' = level_at t q.
Proof.
  intros (pre & -> & F) Ht. induction pre as [|[u w] pre IH]; [reflexivity|]. cbn.
  inversion F as [|? ? Hu F']; subst. cbn in *.
  assert (E : Qleb u t = false) by (apply Qleb_gt; exact Ht). rewrite E. apply IH. exact F'.
Qed.
Lemma lhist_ok_later now now' q : lhist_ok now q -> now <= now' -> lhist_ok now' q.
Proof.
  intros (H1 & H2 & H3) Hl. split; [exact H1|]. split; [exact H2|].
  destruct q as [|[u v] q]; [exact H3|lra].
Qed.

(** A system that keeps its record up to date in every step. *)
Section Gen.
Variables (S O : Type) (step1 : S -> O -> S) (clock lvl : S -> Q) (quant : S -> list (Q * Q)) (Inv : S -> Prop).
Definition I_lmon (s : S) : Prop := Inv s /\ lhist_ok (clock s) (quant s) /\ lcur (quant s) (lvl s).
Hypothesis step_mon : forall s o, I_lmon s ->
  I_lmon (step1 s o) /\ lext (clock (step1 s o)) (quant s) (quant (step1 s o)).

Lemma levels_agree : forall os s acc,
  I_lmon s -> (forall t, oeq (level_at t (quant s)) (level_at t acc)) ->
  I_lmon (fold_left step1 os s) /\
  (exists newer, quant (fold_left step1 os s) = newer ++ quant s) /\
  (forall t, oeq (level_at t (quant (fold_left step1 os s)))
                 (level_at t (true_levels S O step1 clock lvl s os acc))).
Proof.
  induction os as [|o os IH]; intros s acc HI HE; cbn [fold_left true_levels].
  - split; [exact HI|]. split; [exists []; reflexivity|exact HE].
  - destruct (step_mon s o HI) as [HI1 Hx].
    destruct (IH (step1 s o) ((clock (step1 s o), lvl (step1 s o)) :: acc) HI1) as (R1 & (nw & R2) & R3).
    + intro t. cbn [level_at]. destruct (Qleb (clock (step1 s o)) t) eqn:El.
      * qbool. destruct HI1 as (_ & Ho & Hc). eapply level_at_now; eauto.
      * qbool. rewrite (level_at_ext _ _ _ _ Hx El). apply HE.
    + split; [exact R1|]. split; [|exact R3]. destruct Hx as (pre & Ep & _).
      exists (nw ++ pre). rewrite R2, Ep, app_assoc. reflexivity.
Qed.
End Gen.

Lemma oeq_refl x : oeq x x.
Proof. destruct x; cbn; [reflexivity|exact I]. Qed.

(** *** simpy container *)
Lemma cput_loop_good cap now : forall q lvl quant q' l gr qn,
  cput_loop cap now q lvl quant = (q', l, gr, qn) -> lgood now quant qn.
Proof.
  induction q as [|[r a] q IH]; intros lvl quant q' l gr qn H; cbn [cput_loop] in H.
  - injection H as <- <- <- <-. apply lgood_refl.
  - destruct (fits cap lvl a).
    + destruct (cput_loop cap now q _ _) as [[[qq ll] g0] qn0] eqn:E. injection H as <- <- <- <-.
      eapply lgood_trans; [apply crecord_good|eapply IH; exact E].
    + injection H as <- <- <- <-. apply lgood_refl.
Qed.
Lemma cget_loop_good now : forall q lvl quant q' l gr qn,
  cget_loop now q lvl quant = (q', l, gr, qn) -> lgood now quant qn.
Proof.
  induction q as [|[r a] q IH]; intros lvl quant q' l gr qn H; cbn [cget_loop] in H.
  - injection H as <- <- <- <-. apply lgood_refl.
  - destruct (Qleb a lvl).
    + destruct (cget_loop now q _ _) as [[[qq ll] g0] qn0] eqn:E. injection H as <- <- <- <-.
      eapply lgood_trans; [apply crecord_good|eapply IH; exact E].
    + injection H as <- <- <- <-. apply lgood_refl.
Qed.

Definition cmonitored (s s' : cst) : Prop :=
  c_now s' = c_now s /\ lgood (c_now s) (c_quant s) (c_quant s') /\ lcur (c_quant s') (c_level s').

Lemma ctrig_put_mon s s' h : ctrig_put s = (s', h) -> cmonitored s s'.
Proof.
  unfold ctrig_put. destruct (cput_loop _ _ _ _ _) as [[[qq l] gr] qn] eqn:E. intro H; injection H as <- <-.
  apply cput_loop_good in E. split; [reflexivity|]. cbn. split; [|apply crecord_cur].
  eapply lgood_trans; [exact E|apply crecord_good].
Qed.
Lemma ctrig_get_mon s s' h : ctrig_get s = (s', h) -> cmonitored s s'.
Proof.
  unfold ctrig_get. destruct (cget_loop _ _ _ _) as [[[qq l] gr] qn] eqn:E. intro H; injection H as <- <-.
  apply cget_loop_good in E. split; [reflexivity|]. cbn. split; [|apply crecord_cur].
  eapply lgood_trans; [exact E|apply crecord_good].
Qed.

Definition cstep1 (s : cst) (o : cop) : cst := fst (cstep s o).
Lemma crun_fold : forall os s, fst (crun s os) = fold_left cstep1 os s.
Proof.
  induction os as [|o os IH]; intro s; cbn [crun fold_left]; [reflexivity|].
  unfold cstep1 at 2. destruct (cstep s o) as [s1 h1] eqn:E1. destruct (crun s1 os) as [s2 h2] eqn:E2.
  cbn. rewrite <- IH, E2. reflexivity.
Qed.

Lemma cstep_mon s o : I_lmon cst c_now c_level c_quant (fun _ => True) s ->
  I_lmon cst c_now c_level c_quant (fun _ => True) (cstep1 s o) /\
  lext (c_now (cstep1 s o)) (c_quant s) (c_quant (cstep1 s o)).
Proof.
  intros (_ & H1 & H2). unfold I_lmon, cstep1.
  assert (G : forall s1 s', c_now s1 = c_now s -> c_quant s1 = c_quant s -> cmonitored s1 s' ->
     (True /\ lhist_ok (c_now s') (c_quant s') /\ lcur (c_quant s') (c_level s')) /\ lext (c_now s') (c_quant s) (c_quant s')).
  { intros s1 s' E1 E2 (M1 & [Me M2] & M3). rewrite E1, E2 in *. rewrite M1. auto. }
  assert (S : (True /\ lhist_ok (c_now s) (c_quant s) /\ lcur (c_quant s) (c_level s)) /\ lext (c_now s) (c_quant s) (c_quant s)).
  { split; [auto|]. apply (proj1 (lgood_refl _ _)). }
  destruct o as [a|a|r| |t]; cbn [cstep].
  - destruct (Qleb a 0); [exact S|]. destruct (ctrig_put _) as [s' h] eqn:E. cbn.
    apply ctrig_put_mon in E. eapply G; [| |exact E]; reflexivity.
  - destruct (Qleb a 0); [exact S|]. destruct (ctrig_get _) as [s' h] eqn:E. cbn.
    apply ctrig_get_mon in E. eapply G; [| |exact E]; reflexivity.
  - cbn. split; [auto|]. apply (proj1 (lgood_refl _ _)).
  - destruct (c_agenda s) as [|e ag]; [exact S|]. destruct e as [r a|r a].
    + destruct (ctrig_get _) as [s' h] eqn:E. cbn. apply ctrig_get_mon in E. eapply G; [| |exact E]; reflexivity.
    + destruct (ctrig_put _) as [s' h] eqn:E. cbn. apply ctrig_put_mon in E. eapply G; [| |exact E]; reflexivity.
  - destruct (c_agenda s) as [|e ag]; [|exact S]. destruct (Qleb (c_now s) t) eqn:El; [|exact S]. qbool. cbn.
    split; [|apply (proj1 (lgood_refl _ _))]. split; [exact I|]. split; [eapply lhist_ok_later; eauto|exact H2].
Qed.

Lemma container_history cap lvl t0 os s h :
  crun (cinit cap lvl t0) os = (s, h) ->
  (forall t, oeq (level_at t (c_quant s))
     (level_at t (true_levels cst cop (fun s o => fst (cstep s o)) c_now c_level (cinit cap lvl t0) os [(t0, lvl)]))) /\
  readings_ordered (c_quant s) /\ readings_distinct (c_quant s) /\
  (exists u v rest, c_quant s = (u, v) :: rest /\ v == c_level s /\ u <= c_now s) /\
  (exists newer, c_quant s = newer ++ [(t0, lvl)]).
Proof.
  intro H. assert (E : s = fold_left cstep1 os (cinit cap lvl t0)) by (rewrite <- crun_fold, H; reflexivity).
  assert (I0 : I_lmon cst c_now c_level c_quant (fun _ => True) (cinit cap lvl t0)).
  { split; [exact I|]. cbn. split; [split; [exact I|split; [exact I|lra]]|reflexivity]. }
  destruct (levels_agree cst cop cstep1 c_now c_level c_quant (fun _ => True) cstep_mon os _ [(t0, lvl)] I0
             (fun t => oeq_refl _)) as ((_ & (T & D & L) & C) & N & V).
  rewrite <- E in *. split; [exact V|]. split; [exact T|]. split; [exact D|]. split; [|exact N].
  destruct (c_quant s) as [|[u v] q]; [destruct L|]. exists u, v, q. auto.
Qed.

(** *** Conservation, bounds, order *)
Lemma amounts_app l1 l2 : amounts (l1 ++ l2) == amounts l1 + amounts l2.
Proof. unfold amounts. rewrite map_app. apply Qsum_app. Qed.
Lemma amounts_cons r a l : amounts ((r, a) :: l) == a + amounts l.
Proof. unfold amounts. cbn. reflexivity. Qed.

Lemma c_in_app h1 h2 : c_in (h1 ++ h2) = c_in h1 ++ c_in h2.
Proof. apply flat_map_app. Qed.
Lemma c_out_app h1 h2 : c_out (h1 ++ h2) = c_out h1 ++ c_out h2.
Proof. apply flat_map_app. Qed.
Lemma c_in_map gr : c_in (map (fun p : nat * Q => CIn (fst p) (snd p)) gr) = gr.
Proof. induction gr as [|[r x] gr IH]; cbn; [reflexivity|]. unfold c_in in IH. rewrite IH. reflexivity. Qed.
Lemma c_out_map gr : c_out (map (fun p : nat * Q => COut (fst p) (snd p)) gr) = gr.
Proof. induction gr as [|[r x] gr IH]; cbn; [reflexivity|]. unfold c_out in IH. rewrite IH. reflexivity. Qed.
Lemma c_in_map0 gr : c_in (map (fun p : nat * Q => COut (fst p) (snd p)) gr) = [].
Proof. induction gr as [|[r x] gr IH]; cbn; auto. Qed.
Lemma c_out_map0 gr : c_out (map (fun p : nat * Q => CIn (fst p) (snd p)) gr) = [].
Proof. induction gr as [|[r x] gr IH]; cbn; auto. Qed.

Definition all_pos (q : list (nat * Q)) : Prop := Forall (fun p => 0 < snd p) q.

Lemma cput_loop_spec cap now : forall q lvl quant q' l gr qn,
  cput_loop cap now q lvl quant = (q', l, gr, qn) ->
  q = gr ++ q' /\ l == lvl + amounts gr /\
  (q' = [] \/ exists r a q2, q' = (r, a) :: q2 /\ fits cap l a = false) /\
  (cap_ok cap lvl -> all_pos q -> cap_ok cap l).
Proof.
  induction q as [|[r a] q IH]; intros lvl quant q' l gr qn H; cbn [cput_loop] in H.
  - injection H as <- <- <- <-. split; [reflexivity|]. split; [unfold amounts; cbn; lra|]. auto.
  - destruct (fits cap lvl a) eqn:Ef.
    + destruct (cput_loop cap now q _ _) as [[[qq ll] g0] qn0] eqn:E. injection H as <- <- <- <-.
      apply IH in E. destruct E as (E1 & E2 & E3 & E4). split; [cbn; congruence|].
      split; [rewrite amounts_cons, E2; lra|]. split; [exact E3|]. intros Hc Hp. inversion Hp; subst.
      apply E4; [|assumption]. unfold fits, cap_ok in *. destruct cap; [|exact I]. qbool. lra.
    + injection H as <- <- <- <-. split; [reflexivity|]. split; [unfold amounts; cbn; lra|].
      split; [right; eauto|auto].
Qed.

Lemma cget_loop_spec now : forall q lvl quant q' l gr qn,
  cget_loop now q lvl quant = (q', l, gr, qn) ->
  q = gr ++ q' /\ l == lvl - amounts gr /\
  (q' = [] \/ exists r a q2, q' = (r, a) :: q2 /\ l < a) /\
  (0 <= lvl -> 0 <= l).
Proof.
  induction q as [|[r a] q IH]; intros lvl quant q' l gr qn H; cbn [cget_loop] in H.
  - injection H as <- <- <- <-. split; [reflexivity|]. split; [unfold amounts; cbn; lra|]. auto.
  - destruct (Qleb a lvl) eqn:Ef; qbool.
    + destruct (cget_loop now q _ _) as [[[qq ll] g0] qn0] eqn:E. injection H as <- <- <- <-.
      apply IH in E. destruct E as (E1 & E2 & E3 & E4). split; [cbn; congruence|].
      split; [rewrite amounts_cons, E2; lra|]. split; [exact E3|]. intro Hc. apply E4. lra.
    + injection H as <- <- <- <-. split; [reflexivity|]. split; [unfold amounts; cbn; lra|].
      split; [right; eauto|auto].
Qed.

Lemma amounts_nonneg q : all_pos q -> 0 <= amounts q.
Proof.
  intro H. apply Qsum_nonneg. intros x Hx. apply in_map_iff in Hx. destruct Hx as ([r a] & <- & Hin).
  unfold all_pos in H. rewrite Forall_forall in H. specialize (H _ Hin). cbn in *. lra.
Qed.

Lemma cput_put_head s s' h : ctrig_put s = (s', h) ->
  exists gr, c_putq s = gr ++ c_putq s' /\ h = map (fun p => CIn (fst p) (snd p)) gr /\
    c_level s' == c_level s + amounts gr /\ c_cap s' = c_cap s /\ c_getq s' = c_getq s /\
    c_next s' = c_next s /\ c_gone s' = c_gone s /\
    c_agenda s' = c_agenda s ++ map (fun p => CEPut (fst p) (snd p)) gr /\
    (c_putq s' = [] \/ exists r a q2, c_putq s' = (r, a) :: q2 /\ fits (c_cap s) (c_level s') a = false) /\
    (cap_ok (c_cap s) (c_level s) -> all_pos (c_putq s) -> cap_ok (c_cap s) (c_level s')).
Proof.
  unfold ctrig_put. destruct (cput_loop _ _ _ _ _) as [[[qq l] gr] qn] eqn:E. intro H; injection H as <- <-.
  apply cput_loop_spec in E. destruct E as (E1 & E2 & E3 & E4). exists gr. cbn.
  repeat (split; [first [exact E1|exact E2|exact E3|reflexivity]|]). exact E4.
Qed.
Lemma cget_get_head s s' h : ctrig_get s = (s', h) ->
  exists gr, c_getq s = gr ++ c_getq s' /\ h = map (fun p => COut (fst p) (snd p)) gr /\
    c_level s' == c_level s - amounts gr /\ c_cap s' = c_cap s /\ c_putq s' = c_putq s /\
    c_next s' = c_next s /\ c_gone s' = c_gone s /\
    c_agenda s' = c_agenda s ++ map (fun p => CEGet (fst p) (snd p)) gr /\
    (c_getq s' = [] \/ exists r a q2, c_getq s' = (r, a) :: q2 /\ c_level s' < a) /\
    (0 <= c_level s -> 0 <= c_level s').
Proof.
  unfold ctrig_get. destruct (cget_loop _ _ _ _) as [[[qq l] gr] qn] eqn:E. intro H; injection H as <- <-.
  apply cget_loop_spec in E. destruct E as (E1 & E2 & E3 & E4). exists gr. cbn.
  repeat (split; [first [exact E1|exact E2|exact E3|reflexivity]|]). exact E4.
Qed.

(** The combined invariant. *)
Definition CI (lvl0 : Q) (cap0 : option Q) (s : cst) (h : list chap) : Prop :=
  c_cap s = cap0 /\
  c_level s == lvl0 + amounts (c_in h) - amounts (c_out h) /\
  0 <= c_level s /\ cap_ok cap0 (c_level s) /\
  all_pos (c_putq s) /\ all_pos (c_getq s).

Lemma all_pos_app_r l1 l2 : all_pos (l1 ++ l2) -> all_pos l1 /\ all_pos l2.
Proof. unfold all_pos. intro H. apply Forall_app in H. exact H. Qed.

Lemma CI_put lvl0 cap0 s h s' h' : CI lvl0 cap0 s h -> ctrig_put s = (s', h') -> CI lvl0 cap0 s' (h ++ h').
Proof.
  intros (I1 & I2 & I3 & I4 & I5 & I6) H. apply cput_put_head in H.
  destruct H as (gr & E1 & -> & E3 & E4 & E5 & _ & _ & _ & _ & E6). unfold CI.
  rewrite c_in_app, c_out_app, c_in_map, c_out_map0, app_nil_r, amounts_app.
  rewrite E1 in I5. destruct (all_pos_app_r _ _ I5) as [P1 P2]. pose proof (amounts_nonneg gr P1).
  split; [congruence|]. split; [rewrite E3, I2; lra|]. split; [lra|].
  split; [rewrite I1 in *; apply E6; [exact I4|rewrite E1; exact I5]|]. split; [exact P2|congruence].
Qed.
Lemma CI_get lvl0 cap0 s h s' h' : CI lvl0 cap0 s h -> ctrig_get s = (s', h') -> CI lvl0 cap0 s' (h ++ h').
Proof.
  intros (I1 & I2 & I3 & I4 & I5 & I6) H. apply cget_get_head in H.
  destruct H as (gr & E1 & -> & E3 & E4 & E5 & _ & _ & _ & _ & E6). unfold CI.
  rewrite c_in_app, c_out_app, c_in_map0, c_out_map, app_nil_r, amounts_app.
  rewrite E1 in I6. destruct (all_pos_app_r _ _ I6) as [P1 P2]. pose proof (amounts_nonneg gr P1).
  split; [congruence|]. split; [rewrite E3, I2; lra|]. split; [auto|].
  split; [|split; [congruence|exact P2]]. unfold cap_ok in *. destruct cap0; [lra|exact I].
Qed.

Lemma CI_same lvl0 cap0 s h s' h' :
  CI lvl0 cap0 s h -> c_cap s' = c_cap s -> c_level s' = c_level s -> c_in h' = [] -> c_out h' = [] ->
  all_pos (c_putq s') -> all_pos (c_getq s') -> CI lvl0 cap0 s' (h ++ h').
Proof.
  intros (I1 & I2 & I3 & I4 & I5 & I6) E1 E2 E3 E4 P1 P2. unfold CI.
  rewrite c_in_app, c_out_app, E1, E2, E3, E4, !app_nil_r. repeat (split; [assumption|]). assumption.
Qed.

Lemma all_pos_drop r q : all_pos q -> all_pos (cdrop r q).
Proof.
  unfold all_pos, cdrop. rewrite !Forall_forall. intros H x Hx. apply filter_In in Hx. apply H. tauto.
Qed.

Lemma CI_step lvl0 cap0 s h o s' h' : CI lvl0 cap0 s h -> cstep s o = (s', h') -> CI lvl0 cap0 s' (h ++ h').
Proof.
  intros HI H. pose proof HI as (I1 & I2 & I3 & I4 & I5 & I6).
  destruct o as [a|a|r| |t]; cbn [cstep] in H.
  - destruct (Qleb a 0) eqn:Ea; qbool.
    + injection H as <- <-. apply (CI_same _ _ s); auto.
    + eapply CI_put; [|exact H]. unfold CI. cbn. repeat (split; [assumption|]). split; [|assumption].
      apply Forall_app. split; [exact I5|]. constructor; [exact Ea|constructor].
  - destruct (Qleb a 0) eqn:Ea; qbool.
    + injection H as <- <-. apply (CI_same _ _ s); auto.
    + eapply CI_get; [|exact H]. unfold CI. cbn. repeat (split; [assumption|]).
      apply Forall_app. split; [exact I6|]. constructor; [exact Ea|constructor].
  - injection H as <- <-. apply (CI_same _ _ s); auto; try (destruct (_ || _); reflexivity);
      cbn; apply all_pos_drop; assumption.
  - destruct (c_agenda s) as [|e ag].
    { injection H as <- <-. apply (CI_same _ _ s); auto. }
    destruct e as [r a|r a].
    + destruct (ctrig_get _) as [s2 h2] eqn:E. injection H as <- <-.
      eapply CI_get in E; [|exact HI]. rewrite app_assoc. eapply CI_same; [exact E|reflexivity|reflexivity|reflexivity|reflexivity|apply E|apply E].
    + destruct (ctrig_put _) as [s2 h2] eqn:E. injection H as <- <-.
      eapply CI_put in E; [|exact HI]. rewrite app_assoc.
      eapply CI_same; [exact E|reflexivity|reflexivity| | |apply E|apply E]; destruct (existsb _ _); reflexivity.
  - destruct (c_agenda s) as [|e ag].
    + destruct (Qleb (c_now s) t); injection H as <- <-; apply (CI_same _ _ s); auto.
    + injection H as <- <-. apply (CI_same _ _ s); auto.
Qed.

Lemma crun_inv (I : cst -> list chap -> Prop) s0 :
  I s0 [] -> (forall s h o s' h', I s h -> cstep s o = (s', h') -> I s' (h ++ h')) ->
  forall os s h, crun s0 os = (s, h) -> I s h.
Proof.
  intros H0 Hs.
  assert (G : forall os s h s' h', I s h -> crun s os = (s', h') -> I s' (h ++ h')).
  { induction os as [|o os IH]; intros s h s' h' HI Hr; cbn [crun] in Hr.
    - injection Hr as <- <-. rewrite app_nil_r. exact HI.
    - destruct (cstep s o) as [s1 h1] eqn:Es. destruct (crun s1 os) as [s2 h2] eqn:Er.
      injection Hr as <- <-. rewrite app_assoc. eapply IH; [|exact Er]. eapply Hs; eauto. }
  intros os s h Hr. apply (G _ _ [] _ _ H0 Hr).
Qed.

Lemma container_conserves cap lvl t0 os s h :
  0 <= lvl -> cap_ok cap lvl -> crun (cinit cap lvl t0) os = (s, h) ->
  c_level s == lvl + amounts (c_in h) - amounts (c_out h) /\ 0 <= c_level s /\ cap_ok cap (c_level s).
Proof.
  intros H1 H2 H. apply (crun_inv (CI lvl cap)) in H.
  - destruct H as (_ & A & B & C & _). auto.
  - unfold CI. cbn. split; [reflexivity|]. split; [unfold amounts; cbn; lra|].
    split; [exact H1|]. split; [exact H2|]. split; constructor.
  - intros; eapply CI_step; eauto.
Qed.

(** *** Order of service *)
Definition below (n : nat) (l : list nat) := Forall (fun r => r < n)%nat l.
Definition CO (s : cst) (h : list chap) : Prop :=
  StronglySorted lt (map fst (c_in h) ++ map fst (c_putq s)) /\ below (c_next s) (map fst (c_in h) ++ map fst (c_putq s)) /\
  StronglySorted lt (map fst (c_out h) ++ map fst (c_getq s)) /\ below (c_next s) (map fst (c_out h) ++ map fst (c_getq s)).

Lemma CO_put s h s' h' : CO s h -> ctrig_put s = (s', h') -> CO s' (h ++ h').
Proof.
  intros (A & B & C & D) H. apply cput_put_head in H.
  destruct H as (gr & E1 & -> & _ & _ & E5 & E6 & _). unfold CO.
  rewrite c_in_app, c_out_app, c_in_map, c_out_map0, app_nil_r, E5, E6.
  rewrite E1, map_app, app_assoc in A, B. rewrite map_app. auto.
Qed.
Lemma CO_get s h s' h' : CO s h -> ctrig_get s = (s', h') -> CO s' (h ++ h').
Proof.
  intros (A & B & C & D) H. apply cget_get_head in H.
  destruct H as (gr & E1 & -> & _ & _ & E5 & E6 & _). unfold CO.
  rewrite c_in_app, c_out_app, c_in_map0, c_out_map, app_nil_r, E5, E6.
  rewrite E1, map_app, app_assoc in C, D. rewrite map_app. auto.
Qed.

Lemma sorted_snoc l n : StronglySorted lt l -> below n l -> StronglySorted lt (l ++ [n]).
Proof.
  induction l as [|x l IH]; cbn; intros H1 H2; [repeat constructor|].
  inversion H1; subst. inversion H2; subst. constructor; [auto|]. apply Forall_app. split; [assumption|].
  constructor; [assumption|constructor].
Qed.
Lemma below_S n l : below n l -> below (S n) l.
Proof. apply Forall_impl. intros; lia. Qed.
Lemma below_snoc n l : below n l -> below (S n) (l ++ [n]).
Proof. intro H. apply Forall_app. split; [apply below_S; exact H|]. constructor; [lia|constructor]. Qed.

Lemma cdrop_map r q : map fst (cdrop r q) = filter (fun n => negb (Nat.eqb n r)) (map fst q).
Proof.
  unfold cdrop. induction q as [|[n b] q IH]; cbn; [reflexivity|].
  destruct (Nat.eqb n r); cbn; rewrite IH; reflexivity.
Qed.
Lemma sorted_app_filter (f : nat -> bool) l1 l2 :
  StronglySorted lt (l1 ++ l2) -> StronglySorted lt (l1 ++ filter f l2).
Proof.
  induction l1 as [|x l1 IH]; cbn; intro H.
  - induction l2 as [|y l2 IH2]; cbn; [constructor|]. inversion H; subst. destruct (f y); [|auto].
    constructor; [auto|]. rewrite Forall_forall in *. intros z Hz. apply filter_In in Hz. intuition.
  - inversion H; subst. constructor; [auto|]. rewrite Forall_app in *. split; [tauto|].
    destruct H3 as [_ H3]. rewrite Forall_forall in *. intros z Hz. apply filter_In in Hz. intuition.
Qed.
Lemma below_app_filter n (f : nat -> bool) l1 l2 : below n (l1 ++ l2) -> below n (l1 ++ filter f l2).
Proof.
  unfold below. rewrite !Forall_app, !Forall_forall. intros [H1 H2]. split; [exact H1|].
  intros z Hz. apply filter_In in Hz. intuition.
Qed.

Lemma CO_same s h s' h' : CO s h -> c_in h' = [] -> c_out h' = [] ->
  c_putq s' = c_putq s -> c_getq s' = c_getq s -> c_next s' = c_next s -> CO s' (h ++ h').
Proof.
  unfold CO. intros H E1 E2 E3 E4 E5. rewrite c_in_app, c_out_app, E1, E2, E3, E4, E5, !app_nil_r. exact H.
Qed.

Lemma CO_step s h o s' h' : CO s h -> cstep s o = (s', h') -> CO s' (h ++ h').
Proof.
  intros HI H. destruct o as [a|a|r| |t]; cbn [cstep] in H.
  - destruct (Qleb a 0).
    + injection H as <- <-. eapply CO_same; eauto.
    + eapply CO_put; [|exact H]. destruct HI as (A & B & C & D). unfold CO. cbn.
      rewrite map_app, app_assoc. cbn. split; [apply sorted_snoc; assumption|].
      split; [apply below_snoc; assumption|]. split; [exact C|apply below_S; exact D].
  - destruct (Qleb a 0).
    + injection H as <- <-. eapply CO_same; eauto.
    + eapply CO_get; [|exact H]. destruct HI as (A & B & C & D). unfold CO. cbn.
      rewrite map_app, app_assoc. cbn. split; [exact A|]. split; [apply below_S; exact B|].
      split; [apply sorted_snoc; assumption|apply below_snoc; assumption].
  - injection H as <- <-. destruct HI as (A & B & C & D). unfold CO. cbn [c_putq c_getq c_next].
    rewrite c_in_app, c_out_app.
    assert (X : forall b : bool, c_in (if b then [CCancelled r] else []) = [] /\ c_out (if b then [CCancelled r] else []) = [])
      by (intros []; auto).
    destruct (X (existsb (fun p => Nat.eqb (fst p) r) (c_putq s) || existsb (fun p => Nat.eqb (fst p) r) (c_getq s))) as [-> ->].
    rewrite !app_nil_r, !cdrop_map.
    split; [apply sorted_app_filter; exact A|]. split; [apply below_app_filter; exact B|].
    split; [apply sorted_app_filter; exact C|apply below_app_filter; exact D].
  - destruct (c_agenda s) as [|e ag].
    { injection H as <- <-. eapply CO_same; eauto. }
    destruct e as [r a|r a].
    + destruct (ctrig_get _) as [s2 h2] eqn:E. injection H as <- <-. rewrite app_assoc.
      eapply CO_same; [eapply CO_get; [|exact E]; exact HI|reflexivity|reflexivity|reflexivity|reflexivity|reflexivity].
    + destruct (ctrig_put _) as [s2 h2] eqn:E. injection H as <- <-. rewrite app_assoc.
      eapply CO_same; [eapply CO_put; [|exact E]; exact HI| | |reflexivity|reflexivity|reflexivity];
        destruct (existsb _ _); reflexivity.
  - destruct (c_agenda s) as [|e ag].
    + destruct (Qleb (c_now s) t); injection H as <- <-; eapply CO_same; eauto.
    + injection H as <- <-. eapply CO_same; eauto.
Qed.

Lemma container_order cap lvl t0 os s h :
  crun (cinit cap lvl t0) os = (s, h) ->
  StronglySorted lt (map fst (c_in h) ++ map fst (c_putq s)) /\
  StronglySorted lt (map fst (c_out h) ++ map fst (c_getq s)).
Proof.
  intro H. apply (crun_inv CO) in H.
  - destruct H as (A & _ & B & _). auto.
  - unfold CO. cbn. repeat split; constructor.
  - intros; eapply CO_step; eauto.
Qed.

(** *** Nobody waits needlessly *)
Definition pend_get (s : cst) : Prop := exists r a, In (CEGet r a) (c_agenda s).
Definition pend_put (s : cst) : Prop := exists r a, In (CEPut r a) (c_agenda s).
Definition put_blocked (s : cst) : Prop :=
  c_putq s = [] \/ exists r a q2, c_putq s = (r, a) :: q2 /\ fits (c_cap s) (c_level s) a = false.
Definition get_blocked (s : cst) : Prop :=
  c_getq s = [] \/ exists r a q2, c_getq s = (r, a) :: q2 /\ c_level s < a.
Definition CL (s : cst) : Prop := (pend_get s \/ put_blocked s) /\ (pend_put s \/ get_blocked s) /\
  all_pos (c_putq s) /\ all_pos (c_getq s).

Lemma CL_put s s' h' :
  all_pos (c_putq s) -> all_pos (c_getq s) -> (pend_put s \/ get_blocked s) -> ctrig_put s = (s', h') -> CL s'.
Proof.
  intros P1 P2 HG H. apply cput_put_head in H.
  destruct H as (gr & E1 & _ & E3 & E4 & E5 & _ & _ & Ea & Hor & _).
  rewrite E1 in P1. apply all_pos_app_r in P1. destruct P1 as [Pa Pb]. unfold CL, put_blocked.
  rewrite E4, E5. split; [right; exact Hor|]. split; [|split; assumption].
  destruct gr as [|[r a] gr].
  - destruct HG as [(r & a & Hin)|HG]; [left; exists r, a; rewrite Ea, app_nil_r; exact Hin|right].
    unfold get_blocked in *. rewrite E5. destruct HG as [HG|(r & a & q2 & HG & Hl)]; [left; exact HG|right].
    exists r, a, q2. split; [exact HG|]. unfold amounts in E3. cbn in E3. lra.
  - left. exists r, a. rewrite Ea. apply in_or_app. right. left. reflexivity.
Qed.
Lemma fits_less cap l l' a : fits cap l a = false -> l <= l' -> fits cap l' a = false.
Proof. unfold fits. destruct cap; [|discriminate]. intros H Hl. qbool. apply Qleb_gt. lra. Qed.
Lemma CL_get s s' h' :
  all_pos (c_putq s) -> all_pos (c_getq s) -> (pend_get s \/ put_blocked s) -> ctrig_get s = (s', h') -> CL s'.
Proof.
  intros P1 P2 HG H. apply cget_get_head in H.
  destruct H as (gr & E1 & _ & E3 & E4 & E5 & _ & _ & Ea & Hor & _).
  rewrite E1 in P2. apply all_pos_app_r in P2. destruct P2 as [Pa Pb]. unfold CL, get_blocked.
  rewrite E5. split; [|split; [right; exact Hor|split; assumption]].
  destruct gr as [|[r a] gr].
  - destruct HG as [(r & a & Hin)|HG]; [left; exists r, a; rewrite Ea, app_nil_r; exact Hin|right].
    unfold put_blocked in *. rewrite E4, E5. destruct HG as [HG|(r & a & q2 & HG & Hl)]; [left; exact HG|right].
    exists r, a, q2. split; [exact HG|]. unfold amounts in E3. cbn in E3.
    eapply fits_less; [exact Hl|]. lra.
  - left. exists r, a. rewrite Ea. apply in_or_app. right. left. reflexivity.
Qed.

Lemma CL_step s o s' h' : CL s -> (forall r, o <> CCancel r) -> cstep s o = (s', h') -> CL s'.
Proof.
  intros HI Hn H. pose proof HI as (A & B & P1 & P2). destruct o as [a|a|r| |t]; cbn [cstep] in H.
  - destruct (Qleb a 0) eqn:Ea; qbool; [injection H as <- <-; exact HI|].
    eapply CL_put; [| | |exact H]; cbn; [|exact P2|].
    + apply Forall_app. split; [exact P1|]. constructor; [exact Ea|constructor].
    + destruct B as [B|B]; [left; exact B|right; exact B].
  - destruct (Qleb a 0) eqn:Ea; qbool; [injection H as <- <-; exact HI|].
    eapply CL_get; [| | |exact H]; cbn; [exact P1| |].
    + apply Forall_app. split; [exact P2|]. constructor; [exact Ea|constructor].
    + destruct A as [A|A]; [left; exact A|right; exact A].
  - exfalso. apply (Hn r). reflexivity.
  - destruct (c_agenda s) as [|e ag] eqn:Ea; [injection H as <- <-; exact HI|].
    destruct e as [r a|r a].
    + destruct (ctrig_get _) as [s2 h2] eqn:E. injection H as <- <-. eapply CL_get; [| | |exact E]; auto.
      unfold pend_get, put_blocked in *. cbn. destruct A as [(n & b & Hin)|A]; [left|right; exact A].
      rewrite Ea in Hin. destruct Hin as [Hin|Hin]; [discriminate|eauto].
    + destruct (ctrig_put _) as [s2 h2] eqn:E. injection H as <- <-. eapply CL_put; [| | |exact E]; auto.
      unfold pend_put, get_blocked in *. cbn. destruct B as [(n & b & Hin)|B]; [left|right; exact B].
      rewrite Ea in Hin. destruct Hin as [Hin|Hin]; [discriminate|eauto].
  - destruct (c_agenda s) as [|e ag] eqn:Ea; [|injection H as <- <-; exact HI].
    destruct (Qleb (c_now s) t); injection H as <- <-; [|exact HI].
    unfold CL, pend_get, pend_put, put_blocked, get_blocked in *. cbn. rewrite Ea in A, B. auto.
Qed.

Lemma container_no_idle cap lvl t0 os s h :
  (forall r, ~ In (CCancel r) os) -> crun (cinit cap lvl t0) os = (s, h) -> c_agenda s = [] ->
  (forall r a q, c_putq s = (r, a) :: q -> fits (c_cap s) (c_level s) a = false) /\
  (forall r a q, c_getq s = (r, a) :: q -> c_level s < a).
Proof.
  intros Hn H Hq. assert (HI : CL s).
  { assert (G : forall os s s' h', CL s -> (forall r, ~ In (CCancel r) os) -> crun s os = (s', h') -> CL s').
    { clear. induction os as [|o os IH]; intros s s' h' HI Hn Hr; cbn [crun] in Hr.
      - injection Hr as <- <-. exact HI.
      - destruct (cstep s o) as [s1 h1] eqn:Es. destruct (crun s1 os) as [s2 h2] eqn:Er.
        injection Hr as <- <-. eapply IH; [| |exact Er].
        + eapply CL_step; [exact HI| |exact Es]. intros r ->. apply (Hn r). left. reflexivity.
        + intros r Hin. apply (Hn r). right. exact Hin. }
    eapply G; [|exact Hn|exact H]. unfold CL, put_blocked, get_blocked, all_pos. cbn. auto. }
  destruct HI as (A & B & _). split.
  - intros r a q E. destruct A as [(n & b & Hin)|A]; [rewrite Hq in Hin; destruct Hin|].
    destruct A as [A|(n & b & q2 & A & F)]; congruence.
  - intros r a q E. destruct B as [(n & b & Hin)|B]; [rewrite Hq in Hin; destruct Hin|].
    destruct B as [B|(n & b & q2 & B & F)]; [congruence|]. rewrite B in E. injection E as <- <- <-. exact F.
Qed.

(** *** Reserve container record *)
Section RMP.
Variable keyof : Z -> Z.
Local Notation RS := (st * list (Q * Q))%type.

Definition rm_step1 (sq : RS) (o : op) : RS := fst (rm_step keyof sq o).
Definition rm_clock (sq : RS) : Q := now (fst sq).
Definition rm_level (sq : RS) : Q := real_level (fst sq).
Definition rclk (sq : RS) : Prop := ClkInv (fst sq).

Lemma rm_run_fold os : forall sq, rm_run keyof sq os = fold_left rm_step1 os sq.
Proof. induction os as [|o os IH]; intro sq; cbn; [reflexivity|]. apply IH. Qed.

Lemma do_cancel_real s q s' p : do_cancel keyof s q = (s', p) -> real_level s' = real_level s.
Proof.
  unfold do_cancel. destruct (lookup keyof q (queued s)); [|intro H; inversion H; subst; auto].
  destruct (identical q (queued s)); intro H; inversion H; subst; auto.
Qed.

Lemma real_level_change s o s' r : step keyof s o = (s', r) ->
  (exists q a, o = Take q /\ r = OTaken a) \/ (exists a ci, o = Put a ci /\ r = OPut) \/
  (real_level s' = real_level s /\ match o, r with Take _, OTaken _ => False | Put _ _, OPut => False | _, _ => True end).
Proof.
  destruct o as [q amt ex|q|q|a ci| |t]; cbn [ReserveModel.step].
  - unfold do_reserve. destruct (Qltb (level s) amt); [intro H; inversion H; subst; clear H; auto|].
    destruct (lookup keyof q (queued s)); intro H; inversion H; subst; clear H; auto.
  - unfold do_cancel. destruct (lookup keyof q (queued s)); [|intro H; inversion H; subst; clear H; auto].
    destruct (identical q (queued s)); intro H; inversion H; subst; clear H; auto.
  - unfold do_take. destruct (lookup keyof q (queued s)); intro H; inversion H; subst; clear H; [left; eauto|auto].
  - unfold do_put. destruct (_ && _); intro H; inversion H; subst; clear H; [auto|right; left; eauto].
  - unfold do_fire. destruct (timers s) as [|t ts]; [intro H; inversion H; subst; clear H; auto|].
    destruct (do_cancel keyof _ (t_req t)) as [s2 [o2 rel]] eqn:Ec. apply do_cancel_real in Ec. cbn in Ec.
    intro H; inversion H; subst; clear H; auto.
  - unfold do_wait. destruct (Qltb t (now s)); [intro H; inversion H; subst; clear H; auto|].
    destruct (timers s) as [|x l]; [intro H; inversion H; subst; clear H; auto|].
    destruct (Qltb (t_at x) t); intro H; inversion H; subst; clear H; auto.
Qed.

Lemma lext_later now q q' : lext now q q' -> q' = q -> forall n, lext n q q'.
Proof. intros _ -> n. exists []. auto. Qed.

Lemma rm_step_mon sq o : I_lmon RS rm_clock rm_level snd rclk sq ->
  I_lmon RS rm_clock rm_level snd rclk (rm_step1 sq o) /\
  lext (rm_clock (rm_step1 sq o)) (snd sq) (snd (rm_step1 sq o)).
Proof.
  destruct sq as [s q]. intros (HC & HO & Hc). unfold rclk, rm_clock, rm_level in *. cbn [fst snd] in *.
  unfold I_lmon, rm_step1, rm_step, rclk, rm_clock, rm_level. cbn [fst snd].
  destruct (step keyof s o) as [s' r] eqn:Es. cbn [fst snd].
  destruct (step_clk keyof _ _ _ _ HC Es) as [HC' Hn].
  assert (HO' : lhist_ok (now s') q) by (eapply lhist_ok_later; eauto).
  pose proof (crecord_good (now s') (real_level s') q) as [Gx Gh].
  assert (R : (ClkInv s' /\ lhist_ok (now s') (rm_record s' q) /\ lcur (rm_record s' q) (real_level s')) /\
              lext (now s') q (rm_record s' q)).
  { split; [|exact Gx]. split; [exact HC'|]. split; [apply Gh; exact HO'|apply crecord_cur]. }
  destruct (real_level_change _ _ _ _ Es) as [(x & a & -> & ->)|[(a & ci & -> & ->)|[E Hm]]]; [exact R|exact R|].
  assert (K : (ClkInv s' /\ lhist_ok (now s') q /\ lcur q (real_level s')) /\ lext (now s') q q).
  { split; [|exists []; auto]. split; [exact HC'|]. split; [exact HO'|]. rewrite E. exact Hc. }
  destruct o; try exact K; destruct r; try exact K; destruct Hm.
Qed.

Lemma reserve_history lvl cap t0 os s q :
  rm_run keyof (rm_init lvl cap t0) os = (s, q) ->
  (forall t, oeq (level_at t q)
     (level_at t (true_levels RS op (fun sq o => fst (rm_step keyof sq o)) (fun sq => now (fst sq)) (fun sq => real_level (fst sq))
                   (rm_init lvl cap t0) os [(t0, lvl)]))) /\
  readings_ordered q /\ readings_distinct q /\
  (exists u v rest, q = (u, v) :: rest /\ v == real_level s /\ u <= now s) /\
  (exists newer, q = newer ++ [(t0, lvl)]).
Proof.
  rewrite rm_run_fold. intro E.
  assert (I0 : I_lmon RS rm_clock rm_level snd rclk (rm_init lvl cap t0)).
  { split; [split; cbn; [exact I|intros ? []]|]. cbn. split; [split; [exact I|split; [exact I|unfold rm_clock; cbn; lra]]|reflexivity]. }
  destruct (levels_agree RS op rm_step1 rm_clock rm_level snd rclk rm_step_mon os _ [(t0, lvl)] I0
             (fun t => oeq_refl _)) as ((_ & (T & D & L) & C) & N & V).
  rewrite E in *. cbn [snd] in *. split; [exact V|]. split; [exact T|]. split; [exact D|]. split; [|exact N].
  destruct q as [|[u v] q]; [destruct L|]. exists u, v, q. auto.
Qed.
End RMP.
