(** Proofs about breadth first search and hop selection. *)
From Verif Require Import Common RouteModel RouteSpec.

Lemma memb_In x l : memb x l = true <-> In x l.
Proof.
  unfold memb. rewrite existsb_exists. split; [intros (y & H & E); apply Nat.eqb_eq in E; subst; exact H|].
  intro H. exists x. split; [exact H|apply Nat.eqb_refl].
Qed.
Lemma memb_not x l : memb x l = false <-> ~ In x l.
Proof. rewrite <- memb_In. destruct (memb x l); split; congruence. Qed.

Lemma nodup_add (l new : list nat) : NoDup l -> NoDup new -> (forall y, In y new -> ~ In y l) -> NoDup (l ++ new).
Proof.
  intros NL Q3 DJ. induction l as [|a l IH]; cbn; [exact Q3|]. inversion NL; subst. constructor.
  - rewrite in_app_iff. intros [H|H]; [contradiction|]. apply (DJ a H). left. reflexivity.
  - apply IH; [assumption|]. intros y Hy Hl. apply (DJ y Hy). right. exact Hl.
Qed.

Section BFS.
Variable net : network.
Variable goal : nat.
Variable start : nat.
Local Notation E := (connected net).

Lemma walk_snoc x p y z : walk E x p y -> E y z -> walk E x (p ++ [z]) z.
Proof. induction 1; intro H1; cbn; econstructor; eauto. constructor. Qed.
Lemma walk_last x p z : walk E x p z -> p <> [] -> exists p' y, p = p' ++ [z] /\ walk E x p' y /\ E y z.
Proof.
  induction 1 as [x|x y p z H1 H2 IH]; [congruence|]. intros _. destruct p as [|w p].
  - inversion H2; subst. exists [], x. split; [reflexivity|]. split; [constructor|exact H1].
  - destruct IH as (p' & u & -> & W & H); [discriminate|]. exists (y :: p'), u. split; [reflexivity|]. split; [econstructor; eauto|exact H].
Qed.

(** Queue entries hold the path from the start, the start included. *)
Definition entry_ok (e : nat * list nat) : Prop := exists p, snd e = start :: p /\ walk E start p (fst e).
Definition depth (e : nat * list nat) : nat := length (snd e).
Inductive level : list (nat * list nat) -> Prop :=
| level_nil : level []
| level_cons e q : level q -> (forall e', In e' q -> (depth e <= depth e' <= S (depth e))%nat) -> level (e :: q).
Record BI (visited : list nat) (queue dn : list (nat * list nat)) : Prop := mkBI {
  bi_vis : forall x, In x visited <-> In x (map fst (dn ++ queue));
  bi_nodup : NoDup (map fst (dn ++ queue));
  bi_start : exists p, In (start, p) (dn ++ queue) /\ depth (start, p) = 1%nat;
  bi_ok : forall e, In e (dn ++ queue) -> entry_ok e;
  bi_level : level queue;
  bi_old : forall e e', In e dn -> In e' queue -> (depth e <= depth e')%nat;
  bi_done : forall e y, In e dn -> E (fst e) y -> y <> goal /\ exists e', In e' (dn ++ queue) /\ fst e' = y /\ (depth e' <= S (depth e))%nat }.

Lemma level_app_one q e : level q -> (forall e', In e' q -> (depth e' <= depth e <= S (depth e'))%nat) -> level (q ++ [e]).
Proof.
  induction 1 as [|a q L IH B]; intro H; cbn.
  - constructor; [constructor|intros ? []].
  - constructor; [apply IH; intros; apply H; right; assumption|]. intros e' I. apply in_app_or in I. destruct I as [I|[<-|[]]]; [apply B; exact I|].
    apply H. left. reflexivity.
Qed.
(** One node's loop. *)
Lemma expand_found ns : forall path visited queue p, expand goal path ns visited queue = inl p -> In goal ns /\ p = path ++ [goal].
Proof.
  induction ns as [|n ns IH]; intros path visited queue p H; cbn in H; [discriminate|].
  destruct (Nat.eqb n goal) eqn:G; [apply Nat.eqb_eq in G; subst; injection H as <-; split; [left|]; reflexivity|].
  destruct (memb n visited); apply IH in H; split; try apply H; right; apply H.
Qed.
Lemma expand_more ns : forall path visited queue v q, expand goal path ns visited queue = inr (v, q) ->
  ~ In goal ns /\ exists new, q = queue ++ map (fun y => (y, path ++ [y])) new /\ (forall x, In x v <-> In x visited \/ In x new) /\
    NoDup new /\ (forall y, In y new -> In y ns /\ ~ In y visited) /\ (forall y, In y ns -> In y visited \/ In y new).
Proof.
  induction ns as [|n ns IH]; intros path visited queue v q H; cbn in H.
  - injection H as <- <-. split; [intros []|]. exists []. rewrite app_nil_r. cbn. split; [reflexivity|]. split; [tauto|]. split; [constructor|]. split; intros ? [].
  - destruct (Nat.eqb n goal) eqn:G; [discriminate|]. apply Nat.eqb_neq in G. destruct (memb n visited) eqn:V.
    + apply memb_In in V. apply IH in H. destruct H as (N & new & Q1 & Q2 & Q3 & Q4 & Q5). split; [intros [H|H]; [congruence|exact (N H)]|].
      exists new. split; [exact Q1|]. split; [exact Q2|]. split; [exact Q3|]. split; [intros y Hy; split; [right|]; apply Q4; exact Hy|].
      intros y [->|Hy]; [left; exact V|apply Q5; exact Hy].
    + apply memb_not in V. apply IH in H. destruct H as (N & new & Q1 & Q2 & Q3 & Q4 & Q5). split; [intros [H|H]; [congruence|exact (N H)]|].
      exists (n :: new). split; [rewrite Q1, <- app_assoc; reflexivity|]. split; [intro x; rewrite Q2; cbn; tauto|]. split.
      { constructor; [|exact Q3]. intro Hn. apply Q4 in Hn. destruct Hn as [_ Hn]. apply Hn. left. reflexivity. }
      split.
      * intros y [->|Hy]; [split; [left; reflexivity|exact V]|]. apply Q4 in Hy. destruct Hy as [Hy Hv]. split; [right; exact Hy|]. intro H. apply Hv. right. exact H.
      * intros y [->|Hy]; [right; left; reflexivity|]. apply Q5 in Hy. destruct Hy as [[->|Hy]|Hy]; [right; left; reflexivity|left; exact Hy|right; right; exact Hy].
Qed.
Lemma BI_step visited x path q dn v q' : BI visited ((x, path) :: q) dn -> expand goal path (neighbours net x) visited q = inr (v, q') ->
  BI v q' (dn ++ [(x, path)]).
Proof.
  intros [V N ST OK L O D] H. apply expand_more in H. destruct H as (NG & new & -> & Q2 & Q3 & Q4 & Q5).
  inversion L as [|? ? L' B]; subst.
  set (add := map (fun y => (y, path ++ [y])) new).
  assert (RE : (dn ++ [(x, path)]) ++ q ++ add = (dn ++ (x, path) :: q) ++ add) by (rewrite <- !app_assoc; reflexivity).
  assert (FA : map fst add = new) by (unfold add; rewrite map_map; cbn; apply map_id).
  assert (DA : forall e, In e add -> depth e = S (depth (x, path))).
  { intros e He. unfold add in He. apply in_map_iff in He. destruct He as (y & <- & _). unfold depth. cbn. rewrite app_length. cbn. lia. }
  assert (BX : forall e', In e' q -> (depth (x, path) <= depth e' <= S (depth (x, path)))%nat) by exact B.
  constructor.
  - intro y. rewrite RE, Q2, map_app, FA, in_app_iff, V. tauto.
  - rewrite RE, map_app, FA. apply nodup_add; [exact N|exact Q3|]. intros y Hy Hl. apply Q4 in Hy. apply Hy. apply V. exact Hl.
  - rewrite RE. destruct ST as (p & I & P). exists p. split; [apply in_or_app; left; exact I|exact P].
  - intros e He. rewrite RE in He. apply in_app_or in He. destruct He as [He|He]; [apply OK; exact He|].
    unfold add in He. apply in_map_iff in He. destruct He as (y & <- & Hy). destruct (OK (x, path)) as (p & P1 & P2); [apply in_or_app; right; left; reflexivity|].
    cbn in P1, P2. subst path. exists (p ++ [y]). split; [reflexivity|]. cbn. eapply walk_snoc; [exact P2|]. apply Q4. exact Hy.
  - assert (G : forall l, (forall e, In e l -> depth e = S (depth (x, path))) -> level (q ++ l)).
    { intro l. induction l as [|e l IH] using rev_ind; intro H; [rewrite app_nil_r; exact L'|]. rewrite app_assoc. apply level_app_one.
      - apply IH. intros e' He. apply H. apply in_or_app. auto.
      - intros e' He. rewrite (H e) by (apply in_or_app; right; left; reflexivity). apply in_app_or in He. destruct He as [He|He]; [apply BX in He; lia|].
        rewrite (H e') by (apply in_or_app; auto). lia. }
    apply G. exact DA.
  - intros e e' He He'. apply in_app_or in He. assert (X1 : (depth e <= depth (x, path))%nat).
    { destruct He as [He|[<-|[]]]; [apply O; [exact He|left; reflexivity]|lia]. }
    apply in_app_or in He'. destruct He' as [He'|He']; [apply BX in He'; lia|]. rewrite (DA e' He'). lia.
  - intros e y He Ey. rewrite RE. apply in_app_or in He. destruct He as [He|[<-|[]]].
    + destruct (D e y He Ey) as (A & e' & I & F & Dp). split; [exact A|]. exists e'. split; [apply in_or_app; left; exact I|auto].
    + cbn [fst] in Ey. split; [intros ->; exact (NG Ey)|]. destruct (Q5 y Ey) as [H|H].
      * apply V in H. apply in_map_iff in H. destruct H as (e' & F & I). exists e'. split; [apply in_or_app; left; exact I|]. split; [exact F|].
        apply in_app_or in I. destruct I as [I|[<-|I]]; [pose proof (O e' (x, path) I (or_introl eq_refl)); lia|lia|apply BX in I; lia].
      * exists (y, path ++ [y]). split; [apply in_or_app; right; unfold add; apply in_map_iff; exists y; auto|]. split; [reflexivity|].
        unfold depth. cbn. rewrite app_length. cbn. lia.
Qed.
(** A walk is either all done, or passes through the queue no later than the queue's depth. *)
Lemma frontier visited queue dn p y : BI visited queue dn -> walk E start p y ->
  (exists e, In e dn /\ fst e = y /\ (depth e <= S (length p))%nat) \/ (exists e, In e queue /\ (depth e <= S (length p))%nat).
Proof.
  intros B. revert y. induction p as [|z p IH] using rev_ind; intros y W.
  - inversion W; subst. destruct (bi_start _ _ _ B) as (p & I & D). apply in_app_or in I. destruct I as [I|I]; [left|right]; exists (start, p); rewrite D; cbn; auto.
  - destruct (walk_last _ _ _ W) as (p' & u & EQ & W' & EU); [destruct p; discriminate|]. apply app_inj_tail in EQ. destruct EQ as [-> ->].
    rewrite app_length. cbn [length]. destruct (IH u W') as [(e & I & F & D)|(e & I & D)]; [|right; exists e; split; [exact I|lia]].
    rewrite <- F in EU. destruct (bi_done _ _ _ B e y I EU) as (_ & e' & I' & F' & D'). apply in_app_or in I'.
    destruct I' as [I'|I']; [left|right]; exists e'; repeat split; try assumption; lia.
Qed.
Lemma search_ok fuel : forall visited queue dn, BI visited queue dn ->
  match search fuel net goal visited queue with
  | Some [] => no_way E start goal
  | Some (s :: p) => s = start /\ shortest E start p goal
  | None => True
  end.
Proof.
  induction fuel as [|fuel IH]; intros visited queue dn B.
  - cbn. destruct queue as [|e q]; [|exact I]. intros p W. destruct p as [|z p]; [reflexivity|]. exfalso.
    destruct (walk_last _ _ _ W) as (p' & u & _ & W' & EU); [discriminate|].
    destruct (frontier _ _ _ _ _ B W') as [(e & I & F & _)|(e & [] & _)]. rewrite <- F in EU. apply (bi_done _ _ _ B e goal I EU). reflexivity.
  - cbn [search]. destruct queue as [|[x path] q].
    { intros p W. destruct p as [|z p]; [reflexivity|]. exfalso.
      destruct (walk_last _ _ _ W) as (p' & u & _ & W' & EU); [discriminate|].
      destruct (frontier _ _ _ _ _ B W') as [(e & I & F & _)|(e & [] & _)]. rewrite <- F in EU. apply (bi_done _ _ _ B e goal I EU). reflexivity. }
    destruct (expand goal path (neighbours net x) visited q) as [p|[v q']] eqn:X.
    + apply expand_found in X. destruct X as [G ->]. destruct (bi_ok _ _ _ B (x, path)) as (p & P1 & P2); [apply in_or_app; right; left; reflexivity|].
      cbn in P1, P2. subst path. cbn [app]. split; [reflexivity|]. split; [eapply walk_snoc; [exact P2|exact G]|]. split; [destruct p; discriminate|].
      intros p' W NE. destruct (walk_last _ _ _ W NE) as (p2 & u & -> & W' & EU). rewrite !app_length. cbn [length].
      destruct (frontier _ _ _ _ _ B W') as [(e & I & F & _)|(e & I & D)].
      * exfalso. rewrite <- F in EU. apply (bi_done _ _ _ B e goal I EU). reflexivity.
      * assert (DD : (depth (x, start :: p) <= depth e)%nat).
        { pose proof (bi_level _ _ _ B) as L. inversion L as [|? ? _ LB]; subst. destruct I as [<-|I]; [lia|apply LB; exact I]. }
        unfold depth in DD at 1. cbn in DD. lia.
    + apply (IH v q' (dn ++ [(x, path)])). eapply BI_step; eauto.
Qed.
Lemma BI_init : BI [start] [(start, [start])] [].
Proof.
  constructor; cbn [app map fst].
  - intro x. tauto.
  - constructor; [intros []|constructor].
  - exists [start]. split; [left; reflexivity|reflexivity].
  - intros e [<-|[]]. exists []. split; [reflexivity|constructor].
  - constructor; [constructor|intros ? []].
  - intros e e' [].
  - intros e y [].
Qed.
(** The fuel is enough: the nodes queued are different nodes of the network. *)
Definition universe : list nat := start :: flat_map snd net.
Lemma neighbours_universe x y : In y (neighbours net x) -> In y universe.
Proof.
  unfold universe. intro H. right. induction net as [|[k l] n IH]; [destruct H|]. cbn in H |- *. apply in_or_app.
  destruct (Nat.eqb k x); [left; exact H|right; apply IH; exact H].
Qed.
Lemma search_fuel fuel : forall visited queue dn, BI visited queue dn -> (forall e, In e (dn ++ queue) -> In (fst e) universe) ->
  (length universe < fuel + length dn)%nat -> search fuel net goal visited queue <> None.
Proof.
  induction fuel as [|fuel IH]; intros visited queue dn B U F.
  - exfalso. assert (L : (length (map fst (dn ++ queue)) <= length universe)%nat).
    { apply NoDup_incl_length; [apply B|]. intros y Hy. apply in_map_iff in Hy. destruct Hy as (e & <- & He). apply U. exact He. }
    rewrite map_length, app_length in L. lia.
  - cbn [search]. destruct queue as [|[x path] q]; [discriminate|].
    destruct (expand goal path (neighbours net x) visited q) as [p|[v q']] eqn:X; [discriminate|].
    apply (IH v q' (dn ++ [(x, path)])).
    + eapply BI_step; eauto.
    + apply expand_more in X. destruct X as (_ & new & -> & _ & _ & Q4 & _). intros e He. rewrite <- app_assoc in He. cbn [app] in He.
      apply in_app_or in He. destruct He as [He|[<-|He]].
      * apply U. apply in_or_app. auto.
      * apply U. apply in_or_app. right. left. reflexivity.
      * apply in_app_or in He. destruct He as [He|He]; [apply U; apply in_or_app; right; right; exact He|].
        apply in_map_iff in He. destruct He as (y & <- & Hy). cbn. eapply neighbours_universe. apply Q4. exact Hy.
    + rewrite app_length. cbn [length]. lia.
Qed.
Lemma shortest_path_ok :
  match shortest_path net start goal with
  | Some [] => no_way E start goal
  | Some (s :: p) => s = start /\ shortest E start p goal
  | None => False
  end.
Proof.
  unfold shortest_path. pose proof (search_ok (bfs_fuel net) _ _ _ BI_init) as H.
  pose proof (search_fuel (bfs_fuel net) _ _ _ BI_init) as F.
  destruct (search (bfs_fuel net) net goal [start] [(start, [start])]); [exact H|].
  apply F; [|unfold bfs_fuel, universe; cbn; lia|reflexivity]. intros e [<-|[]]. left. reflexivity.
Qed.
End BFS.

Lemma without_usable ignore net x y : wf_net net -> connected (without ignore net) x y <-> usable net ignore x y.
Proof.
  unfold connected, usable, connected, without, wf_net. induction net as [|[k l] n IH]; intro W; [cbn; tauto|].
  cbn [map] in W. inversion W as [|? ? W1 W2]; subst. cbn [filter fst]. cbn [neighbours].
  destruct (memb k ignore) eqn:K; cbn [negb].
  - rewrite (IH W2). destruct (Nat.eqb k x) eqn:EX; [|reflexivity]. apply Nat.eqb_eq in EX. subst x. apply memb_In in K. tauto.
  - apply memb_not in K. cbn [map neighbours fst snd]. destruct (Nat.eqb k x) eqn:EX; [|apply IH; exact W2]. apply Nat.eqb_eq in EX. subst x.
    rewrite filter_In, negb_true_iff, memb_not. tauto.
Qed.
Lemma walk_ext (E F : nat -> nat -> Prop) x p y : (forall a b, E a b <-> F a b) -> walk E x p y <-> walk F x p y.
Proof. intro H. split; induction 1; econstructor; try eassumption; apply H; assumption. Qed.
Lemma shortest_ext (E F : nat -> nat -> Prop) x p y : (forall a b, E a b <-> F a b) -> shortest E x p y <-> shortest F x p y.
Proof.
  intro H. unfold shortest. rewrite (walk_ext E F _ _ _ H). split; intros (A & B & C); (split; [exact A|]); (split; [exact B|]); intros p' W; apply C; apply (walk_ext E F _ _ _ H); exact W.
Qed.
Lemma has_key_no net x : has_key net x = false -> neighbours net x = [].
Proof.
  induction net as [|[k l] n IH]; [reflexivity|]. cbn. intro H. apply orb_false_elim in H. destruct H as [-> H]. apply IH. exact H.
Qed.
