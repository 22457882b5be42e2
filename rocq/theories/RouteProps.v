(** C38: hops are first hops of shortest paths. *)
From Verif Require Import Common RouteModel RouteSpec RouteProofs.

(** _shortest_path: a shortest way if there is one, [] if there is none; it
    always ends.  For every order in which the sets of neighbours are read. *)
Theorem C38_shortest_path net start goal :
  (exists p, shortest_path net start goal = Some (start :: p) /\ shortest (connected net) start p goal) \/
  (shortest_path net start goal = Some [] /\ no_way (connected net) start goal).
Proof.
  pose proof (shortest_path_ok net goal start) as H. destruct (shortest_path net start goal) as [[|s p]|].
  - right. auto.
  - left. destruct H as [-> H]. exists p. auto.
  - destruct H.
Qed.

(** The hop chosen when the destination is not ignored: the first node of a shortest path over the connections between nodes
    not ignored; none if there is no such path.  The current node must not be ignored. *)
Theorem C38_hop_partial net source dest ignore : wf_net net -> ~ In source ignore -> ~ In dest ignore ->
  (exists h p, select_hop net source dest ignore = Some (Some h) /\ shortest (usable net ignore) source (h :: p) dest) \/
  (select_hop net source dest ignore = Some None /\ no_way (usable net ignore) source dest).
Proof.
  intros W NS ND. unfold select_hop. destruct (has_key net source) eqn:K; cbn [negb].
  2:{ right. split; [reflexivity|]. intros p WK. inversion WK as [|? y ? ? [H _] _]; subst; [reflexivity|]. unfold connected in H. rewrite (has_key_no _ _ K) in H. destruct H. }
  destruct (memb dest (neighbours net source)) eqn:M.
  - left. exists dest, []. split; [reflexivity|]. apply memb_In in M. split; [|split; [discriminate|]].
    + econstructor; [split; [exact M|auto]|constructor].
    + intros p' _ NE. destruct p'; [congruence|cbn; lia].
  - destruct (C38_shortest_path (without ignore net) source dest) as [(p & E & S)|[E S]]; rewrite E.
    + left. apply (shortest_ext _ (usable net ignore)) in S; [|intros; apply without_usable; exact W].
      destruct p as [|h p]; [exfalso; apply S; reflexivity|]. exists h, p. split; [reflexivity|exact S].
    + right. split; [reflexivity|]. intros p WK. apply S. apply (walk_ext _ (usable net ignore)); [|exact WK]. intros. apply without_usable. exact W.
Qed.
(** A neighbour is always reached directly, whatever is ignored. *)
Theorem C38_direct net source dest ignore : connected net source dest -> select_hop net source dest ignore = Some (Some dest).
Proof.
  unfold connected, select_hop. intro H. destruct (has_key net source) eqn:K; [|rewrite (has_key_no _ _ K) in H; destruct H]. cbn [negb].
  rewrite (proj2 (memb_In _ _) H). reflexivity.
Qed.
(** In every case: a hop is a connection, and if it is not the destination it is not ignored. *)
Theorem C38_hop_connected net source dest ignore h : wf_net net ->
  select_hop net source dest ignore = Some (Some h) -> connected net source h /\ (h = dest \/ ~ In h ignore /\ ~ In source ignore).
Proof.
  intros W. unfold select_hop. destruct (has_key net source); cbn [negb]; [|discriminate].
  destruct (memb dest (neighbours net source)) eqn:M; [intro H; injection H as <-; split; [apply memb_In; exact M|auto]|].
  destruct (C38_shortest_path (without ignore net) source dest) as [(p & E & S)|[E S]]; rewrite E; [|discriminate].
  destruct p as [|y p]; [exfalso; apply S; reflexivity|]. cbn. intro H. injection H as <-. destruct S as (S & _).
  inversion S as [|? ? ? ? C _]; subst. apply without_usable in C; [|exact W]. destruct C as (C & N1 & N2). auto.
Qed.
(** It always answers. *)
Theorem C38_total net source dest ignore : select_hop net source dest ignore <> None.
Proof.
  unfold select_hop. destruct (negb _); [discriminate|]. destruct (memb _ _); [discriminate|].
  destruct (C38_shortest_path (without ignore net) source dest) as [(p & -> & _)|[-> _]]; discriminate.
Qed.

(** The connections are those made with connect_nodes. *)
Definition made (cs : list (nat * nat * bool)) (x y : nat) : Prop := exists b, In (x, y, b) cs \/ (In (y, x, b) cs /\ b = true).
Definition connect_all (cs : list (nat * nat * bool)) : network :=
  fold_left (fun net c => match connect_nodes (fun _ => true) net (fst (fst c)) (snd (fst c)) (snd c) with Some n => n | None => net end) cs [].
Lemma net_add_connected net u v x y : connected (net_add net u v) x y <-> connected net x y \/ (x = u /\ y = v).
Proof.
  unfold connected. induction net as [|[k l] n IH]; cbn.
  - destruct (Nat.eqb u x) eqn:E; [apply Nat.eqb_eq in E; subst; cbn; intuition|]. apply Nat.eqb_neq in E. cbn. intuition congruence.
  - destruct (Nat.eqb k u) eqn:E; cbn.
    + apply Nat.eqb_eq in E. subst k. destruct (Nat.eqb u x) eqn:E2; [apply Nat.eqb_eq in E2; subst x|apply Nat.eqb_neq in E2; intuition congruence].
      destruct (memb v l) eqn:M; [apply memb_In in M; intuition congruence|]. rewrite in_app_iff. cbn. intuition.
    + destruct (Nat.eqb k x) eqn:E2; [|exact IH]. apply Nat.eqb_eq in E2. apply Nat.eqb_neq in E. subst k. intuition congruence.
Qed.
Lemma net_add_keys net u v : exists l, map fst (net_add net u v) = l /\ (l = map fst net \/ (l = map fst net ++ [u] /\ ~ In u (map fst net))).
Proof.
  eexists. split; [reflexivity|]. induction net as [|[k l] n IH]; cbn.
  - right. split; [reflexivity|auto].
  - destruct (Nat.eqb k u) eqn:E; cbn; [auto|]. apply Nat.eqb_neq in E. destruct IH as [-> |[-> N]]; [auto|]. right. split; [reflexivity|]. intros [H|H]; [congruence|contradiction].
Qed.
Lemma net_add_wf net u v : wf_net net -> wf_net (net_add net u v).
Proof.
  unfold wf_net. intro W. destruct (net_add_keys net u v) as (l & -> & [-> |[-> N]]); [exact W|]. apply nodup_add; [exact W|constructor; [intros []|constructor]|].
  intros y [<-|[]]. exact N.
Qed.
Theorem C38_network cs : wf_net (connect_all cs) /\ forall x y, connected (connect_all cs) x y <-> made cs x y.
Proof.
  assert (G : forall net, wf_net net -> wf_net (fold_left (fun net c => match connect_nodes (fun _ => true) net (fst (fst c)) (snd (fst c)) (snd c) with Some n => n | None => net end) cs net) /\
    forall x y, connected (fold_left (fun net c => match connect_nodes (fun _ => true) net (fst (fst c)) (snd (fst c)) (snd c) with Some n => n | None => net end) cs net) x y <-> connected net x y \/ made cs x y).
  { induction cs as [|[[u v] b] cs IH]; intros net W; cbn [fold_left].
    - split; [exact W|]. intros x y. unfold made. split; [auto|]. intros [H|(b & [[]|[[] _]])]; exact H.
    - cbn [fst snd connect_nodes andb]. set (n1 := if b then net_add (net_add net u v) v u else net_add net u v).
      assert (W1 : wf_net n1) by (unfold n1; destruct b; repeat apply net_add_wf; exact W).
      destruct (IH n1 W1) as [I1 I2]. split; [exact I1|]. intros x y. rewrite I2.
      assert (C : connected n1 x y <-> connected net x y \/ (x = u /\ y = v) \/ (b = true /\ x = v /\ y = u)).
      { unfold n1. destruct b; rewrite !net_add_connected; intuition congruence. }
      rewrite C. unfold made. split.
      + intros [[H|[[-> ->]|(-> & -> & ->)]]|(b' & H)]; [auto| | |].
        * right. exists b. left. left. reflexivity.
        * right. exists true. right. split; [left; reflexivity|reflexivity].
        * right. exists b'. destruct H as [H|[H1 H2]]; [left; right; exact H|right; split; [right; exact H1|exact H2]].
      + intros [H|(b' & [[H|H]|[[H|H] H2]])]; [auto| | | |].
        * inversion H; subst. left. right. tauto.
        * right. exists b'. auto.
        * inversion H; subst. left. right. tauto.
        * right. exists b'. auto. }
  destruct (G [] ltac:(constructor)) as [G1 G2]. split; [exact G1|]. intros x y. unfold connect_all. rewrite G2. unfold connected at 1. cbn. tauto.
Qed.
(** A node without a store is refused. *)
Theorem C38_no_store has_store net u v b : has_store u = false \/ has_store v = false -> connect_nodes has_store net u v b = None.
Proof. unfold connect_nodes. intros [-> | ->]; [reflexivity|]. rewrite andb_false_r. reflexivity. Qed.

(** Example: the network of the class documentation, A=0 ... H=7. *)
Definition docs : network := connect_all [(0,1,false);(1,2,false);(0,3,false);(3,4,false);(4,5,false);(5,6,false);(6,7,false);(7,2,false);(4,1,false)]%nat.
Example docs_hop : select_hop docs 0 2 [] = Some (Some 1%nat) /\ select_hop docs 0 2 [1%nat] = Some (Some 3%nat) /\
  select_hop docs 4 2 [] = Some (Some 1%nat) /\ select_hop docs 2 0 [] = Some None.
Proof. vm_compute. auto. Qed.
Example docs_path : shortest_path (without [1%nat] docs) 0 2 = Some [0; 3; 4; 5; 6; 7; 2]%nat.
Proof. reflexivity. Qed.
(** An ignored destination is still chosen when it is a neighbour. *)
Theorem C38_ignored_destination_refuted : select_hop docs 1 2 [2%nat] = Some (Some 2%nat) /\ ~ usable docs [2%nat] 1 2.
Proof. split; [reflexivity|]. intros (_ & _ & H). apply H. left. reflexivity. Qed.

Print Assumptions C38_shortest_path.
Print Assumptions C38_hop_partial.
Print Assumptions C38_direct.
Print Assumptions C38_hop_connected.
Print Assumptions C38_total.
Print Assumptions C38_network.
Print Assumptions C38_no_store.
Print Assumptions C38_ignored_destination_refuted.
