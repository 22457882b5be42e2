From Verif Require Import Common StateModel StateProofs KnowledgeModel KnowledgeSpec.

Section P.
Variable V : Type.
Notation dict := (list (key * kval V)).

Lemma kget_kdel k n (d : dict) : kget k (kdel n d) = if Z.eqb k n then None else kget k d.
Proof.
  induction d as [|[j x] d IH]; cbn [kdel filter kget fst]; [destruct (Z.eqb k n); reflexivity|].
  destruct (Z.eqb j n) eqn:E; cbn [negb].
  - unfold kdel in IH. rewrite IH. destruct (Z.eqb k n) eqn:E2; [reflexivity|].
    apply Z.eqb_eq in E. subst j. rewrite Z.eqb_sym, E2. reflexivity.
  - cbn [kget]. unfold kdel in IH. rewrite IH. destruct (Z.eqb j k) eqn:E2; [|reflexivity].
    apply Z.eqb_eq in E2. subst j. rewrite E. reflexivity.
Qed.
Lemma set_know_spec (d : dict) n v ow d' ok : set_know d n v ow = (d', ok) ->
  (ok = true /\ (kget n d = None \/ ow = true) /\ forall k, kget k d' = if Z.eqb n k then Some v else kget k d) \/
  (ok = false /\ d' = d /\ ow = false /\ kget n d <> None).
Proof.
  unfold set_know, kmem. destruct (kget n d) eqn:E; destruct ow; cbn; intro H; injection H as <- <-; auto.
  - left. split; [auto|]. split; [auto|]. intro. apply kget_kset.
  - right. repeat split; auto; congruence.
  - left. split; [auto|]. split; [auto|]. intro. apply kget_kset.
  - left. split; [auto|]. split; [auto|]. intro. apply kget_kset.
Qed.
Lemma clear_know_spec (d : dict) n d' ok : clear_know d n = (d', ok) ->
  (ok = true /\ kget n d <> None /\ forall k, kget k d' = if Z.eqb k n then None else kget k d) \/
  (ok = false /\ d' = d /\ kget n d = None).
Proof.
  unfold clear_know, kmem. destruct (kget n d) eqn:E; cbn; intro H; injection H as <- <-; auto.
  left. split; [auto|]. split; [congruence|]. intro. apply kget_kdel.
Qed.

Notation lk := (fun (d : dict) (n : key) => kget n d).

Lemma set_bulk_spec ow : forall l (d : dict) d' ok, NoDup (map fst l) -> set_bulk d l ow = (d', ok) ->
  (ok = true /\ filled (lk d) (lk d') l /\ (ow = false -> forall n, In n (map fst l) -> kget n d = None)) \/
  (ok = false /\ ow = false /\ exists l1 n v l2, l = l1 ++ (n, v) :: l2 /\ kget n d <> None /\
     (forall k, In k (map fst l1) -> kget k d = None) /\ filled (lk d) (lk d') l1).
Proof.
  induction l as [|[n v] l IH]; intros d d' ok Hn H; cbn [set_bulk] in H.
  - injection H as <- <-. left. split; [reflexivity|]. split; [split; [intros ? ? []|reflexivity]|]. intros _ ? [].
  - cbn [map fst] in Hn. inversion Hn as [|? ? Hnl Hn']; subst.
    destruct (set_know d n v ow) as [d1 ok1] eqn:E. apply set_know_spec in E.
    destruct E as [(-> & Hp & Hd1)|(-> & -> & -> & Hp)].
    + apply IH in H; [|exact Hn'].
      assert (Hfill : forall l1, ~ In n (map fst l1) -> filled (lk d1) (lk d') l1 -> filled (lk d) (lk d') ((n, v) :: l1)).
      { intros l1 Hnl1 [F1 F2]. split.
        - intros k w [E|Hin]; [|apply F1; exact Hin]. injection E as <- <-.
          rewrite F2 by exact Hnl1. cbn. rewrite Hd1, Z.eqb_refl. reflexivity.
        - intros k Hk. cbn in Hk. rewrite F2 by tauto. cbn. rewrite Hd1.
          destruct (Z.eqb n k) eqn:E; [apply Z.eqb_eq in E; tauto|reflexivity]. }
      destruct H as [(-> & HF & Ho)|(-> & -> & l1 & m & w & l2 & -> & Hm & Hl1 & HF)].
      * left. split; [reflexivity|]. split; [apply Hfill; assumption|].
        intros Ho' k [<-|Hin]; [cbn; destruct Hp; congruence|]. specialize (Ho Ho' k Hin). cbn in Ho. rewrite Hd1 in Ho.
        destruct (Z.eqb n k) eqn:E; [discriminate|exact Ho].
      * right. split; [reflexivity|]. split; [reflexivity|]. exists ((n, v) :: l1), m, w, l2.
        rewrite map_app in Hnl. cbn in Hnl.
        assert (Hnm : n <> m) by (intros ->; apply Hnl; apply in_or_app; right; left; reflexivity).
        assert (Hn1 : ~ In n (map fst l1)) by (intro; apply Hnl; apply in_or_app; left; assumption).
        split; [reflexivity|]. split; [|split].
        -- rewrite Hd1 in Hm. destruct (Z.eqb n m) eqn:E; [apply Z.eqb_eq in E; congruence|exact Hm].
        -- intros k [<-|Hin]; [cbn; destruct Hp; congruence|]. specialize (Hl1 k Hin). rewrite Hd1 in Hl1.
           destruct (Z.eqb n k) eqn:E; [discriminate|exact Hl1].
        -- apply Hfill; assumption.
    + injection H as <- <-. right. split; [reflexivity|]. split; [reflexivity|]. exists [], n, v, l.
      split; [reflexivity|]. split; [exact Hp|]. split; [intros ? []|]. split; [intros ? ? []|reflexivity].
Qed.

Definition clears (d d' : dict) (l : list key) (ok : bool) : Prop :=
  if ok then emptied (lk d) (lk d') l /\ NoDup l /\ forall n, In n l -> kget n d <> None
  else exists l1 n l2, l = l1 ++ n :: l2 /\ NoDup l1 /\ (forall k, In k l1 -> kget k d <> None) /\
         (kget n d = None \/ In n l1) /\ emptied (lk d) (lk d') l1.

Lemma clears_cons d d1 d' n l ok :
  kget n d <> None -> (forall k, kget k d1 = if Z.eqb k n then None else kget k d) ->
  clears d1 d' l ok -> clears d d' (n :: l) ok.
Proof.
  intros Hn Hd1 H. unfold clears in *.
  assert (HE : forall l1, emptied (lk d1) (lk d') l1 -> emptied (lk d) (lk d') (n :: l1)).
  { intros l1 [F1 F2]. split.
    - intros k [<-|Hin]; [|apply F1; exact Hin]. destruct (in_dec Z.eq_dec n l1); [apply F1; assumption|].
      rewrite F2 by assumption. cbn. rewrite Hd1, Z.eqb_refl. reflexivity.
    - intros k Hk. cbn in Hk. rewrite F2 by tauto. cbn. rewrite Hd1.
      destruct (Z.eqb k n) eqn:E; [apply Z.eqb_eq in E; subst; tauto|reflexivity]. }
  assert (HP : forall l1, (forall k, In k l1 -> kget k d1 <> None) ->
     ~ In n l1 /\ forall k, In k (n :: l1) -> kget k d <> None).
  { intros l1 H1. split.
    - intro Hin. apply (H1 n Hin). rewrite Hd1, Z.eqb_refl. reflexivity.
    - intros k [<-|Hin]; [exact Hn|]. specialize (H1 k Hin). rewrite Hd1 in H1. destruct (Z.eqb k n); congruence. }
  destruct ok.
  - destruct H as (F & N & P). destruct (HP l P). split; [apply HE; exact F|]. split; [constructor; assumption|assumption].
  - destruct H as (l1 & m & l2 & -> & N & P & Hm & F). exists (n :: l1), m, l2. destruct (HP l1 P) as [A B].
    split; [reflexivity|]. split; [constructor; assumption|]. split; [exact B|]. split; [|apply HE; exact F].
    destruct Hm as [Hm|Hm]; [|right; right; exact Hm]. rewrite Hd1 in Hm. destruct (Z.eqb m n) eqn:E.
    + apply Z.eqb_eq in E. right. left. auto.
    + left. exact Hm.
Qed.

Lemma clear_bulk_spec : forall l (d : dict) d' ok, clear_bulk d l = (d', ok) -> clears d d' l ok.
Proof.
  induction l as [|n l IH]; intros d d' ok H; cbn [clear_bulk] in H.
  - injection H as <- <-. split; [split; [intros ? []|reflexivity]|]. split; [constructor|intros ? []].
  - destruct (clear_know d n) as [d1 ok1] eqn:E. apply clear_know_spec in E.
    destruct E as [(-> & Hn & Hd1)|(-> & -> & Hn)].
    + eapply clears_cons; eauto.
    + injection H as <- <-. exists [], n, l. split; [reflexivity|]. split; [constructor|]. split; [intros ? []|].
      split; [left; exact Hn|]. split; [intros ? []|reflexivity].
Qed.

Lemma kget_kset' {X} k j (x : X) l : kget k (kset j x l) = if Z.eqb j k then Some x else kget k l.
Proof. apply kget_kset. Qed.

Lemma get_bulk_spec (d : dict) must : forall l acc,
  (forall n, kget n acc <> None -> kget n acc = Some (kget n d)) ->
  match get_bulk d l must acc with
  | Some res => (must = true -> forall n, In n l -> kget n d <> None) /\
      (forall n, In n l -> kget n res = Some (kget n d)) /\ (forall n, ~ In n l -> kget n res = kget n acc)
  | None => must = true /\ exists n, In n l /\ kget n d = None
  end.
Proof.
  induction l as [|n l IH]; intros acc Ha; cbn [get_bulk].
  - split; [intros _ ? []|]. split; [intros ? []|reflexivity].
  - unfold get_know. destruct (must && negb (kmem n d)) eqn:E.
    + apply andb_prop in E. destruct E as [-> E]. split; [reflexivity|]. exists n. split; [left; reflexivity|].
      unfold kmem in E. destruct (kget n d); [discriminate|reflexivity].
    + specialize (IH (kset n (kget n d) acc)). destruct (get_bulk d l must _) as [res|].
      * destruct IH as (A & B & C).
        { intro k. rewrite kget_kset'. destruct (Z.eqb n k) eqn:E2; [|apply Ha].
          apply Z.eqb_eq in E2. subst k. reflexivity. }
        split; [|split].
        -- intros Hm k [<-|Hin]; [|apply A; assumption]. subst must. cbn in E. apply negb_false_iff in E.
           unfold kmem in E. destruct (kget n d); congruence.
        -- intros k [<-|Hin]; [|apply B; exact Hin]. destruct (in_dec Z.eq_dec n l); [apply B; assumption|].
           rewrite C by assumption. rewrite kget_kset', Z.eqb_refl. reflexivity.
        -- intros k Hk. cbn in Hk. rewrite C by tauto. rewrite kget_kset'.
           destruct (Z.eqb n k) eqn:E2; [apply Z.eqb_eq in E2; tauto|reflexivity].
      * destruct IH as (A & k & B & C).
        { intro k. rewrite kget_kset'. destruct (Z.eqb n k) eqn:E2; [|apply Ha].
          apply Z.eqb_eq in E2. subst k. reflexivity. }
        split; [exact A|]. exists k. split; [right; exact B|exact C].
Qed.

Lemma take_bulk_spec : forall l (d : dict) acc d' r, take_bulk d l acc = (d', r) ->
  clears d d' l (match r with Some _ => true | None => false end) /\
  match r with
  | Some res => (forall n, In n l -> kget n res = Some (kget n d)) /\ (forall n, ~ In n l -> kget n res = kget n acc)
  | None => True
  end.
Proof.
  induction l as [|n l IH]; intros d acc d' r H; cbn [take_bulk] in H.
  - injection H as <- <-. split; [|split; [intros ? []|reflexivity]].
    split; [split; [intros ? []|reflexivity]|]. split; [constructor|intros ? []].
  - unfold get_know in H. cbn [andb] in H. unfold kmem in H. destruct (kget n d) as [v|] eqn:E; cbn [negb] in H.
    + destruct (clear_know d n) as [d1 ok1] eqn:E1. pose proof (clear_know_spec _ _ _ _ E1) as HC.
      destruct HC as [(-> & Hn & Hd1)|(-> & _ & Hn)]; [|congruence].
      apply IH in H. destruct H as [HC HR]. split; [eapply clears_cons; eauto|].
      destruct r as [res|]; [|exact I]. destruct HR as [A B].
      assert (Hnl : ~ In n l).
      { destruct HC as (_ & _ & P). intro Hin. apply (P n Hin). rewrite Hd1, Z.eqb_refl. reflexivity. }
      split.
      * intros k [<-|Hin].
        -- rewrite B by exact Hnl. rewrite kget_kset', Z.eqb_refl, E. reflexivity.
        -- rewrite A by exact Hin. rewrite Hd1. destruct (Z.eqb k n) eqn:E2; [apply Z.eqb_eq in E2; congruence|reflexivity].
      * intros k Hk. cbn in Hk. rewrite B by tauto. rewrite kget_kset'.
        destruct (Z.eqb n k) eqn:E2; [apply Z.eqb_eq in E2; tauto|reflexivity].
    + injection H as <- <-. split; [|exact I]. exists [], n, l. split; [reflexivity|]. split; [constructor|].
      split; [intros ? []|]. split; [left; exact E|]. split; [intros ? []|reflexivity].
Qed.

Lemma step_meets (s : kst V) o s' r : wf_op o -> nstep s o = (s', r) ->
  meets (look s) o r (look s') /\ (bulk_failed (o, r) -> stops_half_way (look s) o (look s')).
Proof.
  intros Hw H. destruct o as [n must|n v ow|n|n|l ow|l|l must|l|n|n p|e p|e|e]; cbn [nstep] in H; unfold look.
  - injection H as <- <-. split; [|intros []]. split; [intro; reflexivity|].
    unfold get_know, kmem. destruct (kget n (n_dict s)), must; reflexivity.
  - destruct (set_know (n_dict s) n v ow) as [d ok] eqn:E. injection H as <- <-. apply set_know_spec in E.
    split; [|intros []]. cbn [meets n_dict with_dict].
    destruct E as [(-> & Hp & Hd)|(-> & -> & -> & Hp)].
    + assert (Hc : changed (fun n => kget n (n_dict s)) (fun n => kget n d) n (Some v)).
      { split; [cbn; rewrite Hd, Z.eqb_refl; reflexivity|]. intros k Hk. cbn. rewrite Hd.
        destruct (Z.eqb n k) eqn:E; [apply Z.eqb_eq in E; congruence|reflexivity]. }
      destruct (kget n (n_dict s)), ow; auto. destruct Hp; congruence.
    + destruct (kget n (n_dict s)) as [v0|]; [|congruence]. split; [intro; reflexivity|reflexivity].
  - destruct (clear_know (n_dict s) n) as [d ok] eqn:E. injection H as <- <-. apply clear_know_spec in E.
    split; [|intros []]. cbn [meets n_dict with_dict]. destruct E as [(-> & Hp & Hd)|(-> & -> & Hp)].
    + destruct (kget n (n_dict s)) as [v0|]; [|congruence]. split; [|reflexivity].
      split; [cbn; rewrite Hd, Z.eqb_refl; reflexivity|]. intros k Hk. cbn. rewrite Hd.
      destruct (Z.eqb k n) eqn:E; [apply Z.eqb_eq in E; congruence|reflexivity].
    + rewrite Hp. split; [intro; reflexivity|reflexivity].
  - split; [|intros []]. cbn [meets]. unfold get_know in H. cbn [andb] in H. unfold kmem in H.
    destruct (kget n (n_dict s)) as [v|] eqn:E; cbn [negb] in H.
    + destruct (clear_know (n_dict s) n) as [d ok] eqn:E1. injection H as <- <-. apply clear_know_spec in E1.
      destruct E1 as [(-> & Hp & Hd)|(-> & -> & Hp)]; [|congruence]. split; [|reflexivity].
      split; [cbn; rewrite Hd, Z.eqb_refl; reflexivity|]. intros k Hk. cbn. rewrite Hd.
      destruct (Z.eqb k n) eqn:E2; [apply Z.eqb_eq in E2; congruence|reflexivity].
    + injection H as <- <-. split; [intro; reflexivity|reflexivity].
  - destruct (set_bulk (n_dict s) l ow) as [d ok] eqn:E. injection H as <- <-.
    apply set_bulk_spec in E; [|exact Hw]. cbn [meets n_dict with_dict stops_half_way bulk_failed].
    destruct E as [(-> & F & Ho)|(-> & -> & Hx)]; (split; [auto|]); [intros []|auto].
  - destruct (clear_bulk (n_dict s) l) as [d ok] eqn:E. injection H as <- <-.
    apply clear_bulk_spec in E. cbn [meets n_dict with_dict stops_half_way bulk_failed].
    destruct ok; (split; [auto|]); [intros []|intros _; exact E].
  - injection H as <- <-. split; [|intros []]. cbn [meets]. split; [intro; reflexivity|].
    assert (HG := get_bulk_spec (n_dict s) must l [] (fun k Hk => match Hk eq_refl with end)). destruct (get_bulk (n_dict s) l must []) as [res|].
    + right. exists res. split; [reflexivity|]. destruct HG as (A & B & C). auto.
    + left. destruct HG as (A & B). auto.
  - destruct (take_bulk (n_dict s) l []) as [d r0] eqn:E. injection H as <- <-. apply take_bulk_spec in E.
    destruct E as [HC HR]. cbn [meets n_dict with_dict stops_half_way bulk_failed]. destruct r0 as [res|].
    + split; [|intros []]. left. exists res. destruct HC as (A & B & C), HR as (D & E). repeat split; auto; apply A.
    + split; [auto|]. intros _. exact HC.
  - split; [exact I|]. destruct (set_know _ _ _ _) as [d [|]]; injection H as <- <-; intros [].
  - split; [exact I|]. intros [].
  - destruct (fire (n_events s) e p); injection H as <- <-; (split; [intro; reflexivity|intros []]).
  - injection H as <- <-; (split; [intro; reflexivity|intros []]).
  - injection H as <- <-; (split; [intro; reflexivity|intros []]).
Qed.

(** Operations that do not mention a name leave it alone. *)
Lemma step_frame (s : kst V) o s' r n : wf_op o -> ~ mentions n o -> nstep s o = (s', r) ->
  look s' n = look s n.
Proof.
  intros Hw Hm H. pose proof (step_meets _ _ _ _ Hw H) as [HM HB].
  destruct o as [k must|k v ow|k|k|l ow|l|l must|l|k|k p|e p|e|e]; cbn [meets mentions stops_half_way bulk_failed] in *.
  - apply HM.
  - destruct (look s k), ow; destruct HM as [HM _]; try (apply HM; auto; fail). 
  - destruct (look s k); destruct HM as [HM _]; apply HM; auto.
  - destruct (look s k); destruct HM as [HM _]; apply HM; auto.
  - destruct HM as [(_ & HM & _)| ->]; [apply HM; exact Hm|]. destruct (HB I) as (_ & l1 & j & w & l2 & -> & _ & _ & HF).
    apply HF. intro Hin. apply Hm. rewrite map_app. apply in_or_app. left. exact Hin.
  - destruct HM as [(_ & HM & _)| ->]; [apply HM; exact Hm|]. destruct (HB I) as (l1 & j & l2 & -> & _ & _ & _ & HF).
    apply HF. intro Hin. apply Hm. apply in_or_app. left. exact Hin.
  - apply HM.
  - destruct HM as [(res & _ & HM & _)| ->]; [apply HM; exact Hm|]. destruct (HB I) as (l1 & j & l2 & -> & _ & _ & _ & HF).
    apply HF. intro Hin. apply Hm. apply in_or_app. left. exact Hin.
  - cbn [nstep] in H. destruct (set_know _ _ _ _) as [d ok] eqn:E. injection H as <- <-. apply set_know_spec in E.
    unfold look. cbn. destruct E as [(_ & _ & Hd)|(_ & -> & _)]; [|reflexivity]. rewrite Hd.
    destruct (Z.eqb k n) eqn:E; [apply Z.eqb_eq in E; congruence|reflexivity].
  - cbn [nstep] in H. destruct (kget k (n_dict s)) as [[e| |v]|]; try (injection H as <- <-; reflexivity).
    destruct (clear_know (n_dict s) k) as [d ok] eqn:E. apply clear_know_spec in E.
    assert (Hd : kget n d = kget n (n_dict s)).
    { destruct E as [(_ & _ & Hd)|(_ & -> & _)]; [|reflexivity]. rewrite Hd.
      destruct (Z.eqb n k) eqn:E; [apply Z.eqb_eq in E; congruence|reflexivity]. }
    destruct (fire (n_events s) e p); injection H as <- <-; exact Hd.
  - apply HM.
  - apply HM.
  - apply HM.
Qed.
Lemma run_frame n : forall os (s : kst V) s' tr, Forall wf_op os -> Forall (fun o => ~ mentions n o) os ->
  nrun s os = (s', tr) -> look s' n = look s n.
Proof.
  induction os as [|o os IH]; intros s s' tr Hw Hm H; cbn [nrun] in H.
  - injection H as <- <-. reflexivity.
  - destruct (nstep s o) as [s1 r] eqn:E1. destruct (nrun s1 os) as [s2 tr2] eqn:E2. injection H as <- <-.
    inversion Hw; inversion Hm; subst. rewrite (IH s1 s2 tr2) by assumption. eapply step_frame; eassumption.
Qed.

Lemma existsb_in n l : existsb (Z.eqb n) l = true <-> In n l.
Proof.
  rewrite existsb_exists. split.
  - intros (x & Hin & E). apply Z.eqb_eq in E. congruence.
  - intro. exists n. rewrite Z.eqb_refl. auto.
Qed.
Lemma kget_In n (l : dict) : NoDup (map fst l) -> forall v, In (n, v) l -> kget n l = Some v.
Proof.
  induction l as [|[k w] l IH]; intros Hn v Hin; [destruct Hin|]. cbn [kget]. inversion Hn; subst.
  destruct Hin as [E|Hin].
  - injection E as -> ->. rewrite Z.eqb_refl. reflexivity.
  - destruct (Z.eqb k n) eqn:E; [|apply IH; assumption]. apply Z.eqb_eq in E. subst k.
    exfalso. apply H1. apply in_map_iff. exists (n, v). auto.
Qed.
Lemma kget_none_notin n (l : dict) : kget n l = None -> ~ In n (map fst l).
Proof.
  induction l as [|[k w] l IH]; cbn; [auto|]. destruct (Z.eqb k n) eqn:E; [discriminate|]. apply Z.eqb_neq in E.
  intros H [H1|H1]; [congruence|]. apply (IH H H1).
Qed.
Lemma kget_some_in n (l : dict) v : kget n l = Some v -> In (n, v) l.
Proof.
  induction l as [|[k w] l IH]; cbn; [discriminate|]. destruct (Z.eqb k n) eqn:E.
  - apply Z.eqb_eq in E. subst. intro H. injection H as ->. auto.
  - intro H. right. apply IH. exact H.
Qed.

Lemma step_known n (s : kst V) o s' r : wf_op o -> ~ bulk_failed (o, r) -> nstep s o = (s', r) ->
  look s' n = known n (look s n) [(o, r)].
Proof.
  intros Hw Hb H. pose proof (step_meets _ _ _ _ Hw H) as [HM _]. cbn [known].
  assert (Hch : forall k x, changed (look s) (look s') k x -> look s' n = if Z.eqb k n then x else look s n).
  { intros k x [A B]. destruct (Z.eqb k n) eqn:E; [apply Z.eqb_eq in E; rewrite <- E; exact A|].
    apply B. intros ->. rewrite Z.eqb_refl in E. discriminate. }
  destruct o as [k must|k v ow|k|k|l ow|l|l must|l|k|k p|e p|e|e]; cbn [meets mentions bulk_failed] in *.
  - destruct HM as [HM _]. rewrite HM. destruct r; reflexivity.
  - destruct (look s k), ow; destruct HM as [HM ->]; auto. 
  - destruct (look s k); destruct HM as [HM ->]; auto.
  - destruct (look s k); destruct HM as [HM ->]; auto.
  - destruct HM as [(-> & [F1 F2] & _)| ->]; [|destruct (Hb I)].
    destruct (kget n l) as [v|] eqn:E; [apply F1; apply kget_some_in; exact E|]. apply F2. apply kget_none_notin. exact E.
  - destruct HM as [(-> & [F1 F2] & _)| ->]; [|destruct (Hb I)].
    destruct (existsb (Z.eqb n) l) eqn:E; [apply F1; apply existsb_in; exact E|]. apply F2.
    intro Hin. apply existsb_in in Hin. congruence.
  - destruct HM as [HM _]. rewrite HM. destruct r; reflexivity.
  - destruct HM as [(res & -> & [F1 F2] & _)| ->]; [|destruct (Hb I)].
    destruct (existsb (Z.eqb n) l) eqn:E; [apply F1; apply existsb_in; exact E|]. apply F2.
    intro Hin. apply existsb_in in Hin. congruence.
  - cbn [nstep] in H. destruct (set_know _ _ _ _) as [d ok] eqn:E. injection H as <- <-. apply set_know_spec in E.
    unfold look. cbn. destruct E as [(-> & _ & Hd)|(-> & -> & _)]; [|reflexivity]. rewrite Hd. reflexivity.
  - cbn [nstep] in H. destruct (kget k (n_dict s)) as [[e| |v]|] eqn:Ek; try (injection H as <- <-; reflexivity).
    destruct (clear_know (n_dict s) k) as [d ok] eqn:E. apply clear_know_spec in E.
    destruct E as [(_ & _ & Hd)|(_ & -> & Hx)]; [|congruence].
    unfold fire in H. destruct (nth_error (n_events s) e) as [[[| |] q]|]; injection H as <- <-;
      unfold look; cbn; rewrite Hd, (Z.eqb_sym k n); reflexivity.
  - rewrite HM. destruct r; reflexivity.
  - rewrite HM. destruct r; reflexivity.
  - rewrite HM. destruct r; reflexivity.
Qed.
Lemma run_known n : forall os (s : kst V) s' tr, Forall wf_op os -> nrun s os = (s', tr) ->
  Forall (fun p => ~ bulk_failed p) tr -> look s' n = known n (look s n) tr.
Proof.
  induction os as [|o os IH]; intros s s' tr Hw H Hb; cbn [nrun] in H.
  - injection H as <- <-. reflexivity.
  - destruct (nstep s o) as [s1 r] eqn:E1. destruct (nrun s1 os) as [s2 tr2] eqn:E2. injection H as <- <-.
    inversion Hw; inversion Hb; subst. rewrite (IH s1 s2 tr2) by assumption.
    rewrite (step_known n s o s1 r) by assumption. reflexivity.
Qed.

(** *** Events *)
Lemma put_spec (evs : list (kev V)) e x y : nth_error evs e = Some y ->
  nth_error (put_ev e x evs) e = Some x /\
  (forall i, i <> e -> nth_error (put_ev e x evs) i = nth_error evs i) /\ length (put_ev e x evs) = length evs.
Proof.
  intro E. unfold put_ev.
  assert (Hl : (e < length evs)%nat) by (apply nth_error_Some; congruence).
  assert (Hf : length (firstn e evs) = e) by (rewrite firstn_length; lia).
  split; [rewrite nth_error_app2, Hf, Nat.sub_diag by lia; reflexivity|].
  assert (HE : evs = firstn e evs ++ y :: skipn (S e) evs).
  { clear - E. revert e E. induction evs as [|z evs IH]; intros [|e] E; try discriminate.
    - injection E as ->. reflexivity.
    - cbn. f_equal. apply IH. exact E. }
  split.
  - intros i Hi. rewrite HE at 3. destruct (Nat.lt_ge_cases i e).
    + rewrite !nth_error_app1 by lia. reflexivity.
    + rewrite !nth_error_app2 by lia. rewrite Hf. destruct (i - e)%nat eqn:Ei; [lia|]. reflexivity.
  - rewrite HE at 3. rewrite !app_length. reflexivity.
Qed.
Lemma fire_spec (evs : list (kev V)) e p evs' r : fire evs e p = (evs', r) ->
  (forall i, i <> e -> nth_error evs' i = nth_error evs i) /\ length evs' = length evs /\
  match nth_error evs e with
  | Some (mkKE KPend _) => r = NOk /\ nth_error evs' e = Some (mkKE KTrig (Some p))
  | Some (mkKE KTrig _) => r = NRuntime /\ nth_error evs' e = Some (mkKE KTrig (Some p))
  | x => r = NComplete /\ nth_error evs' e = x
  end.
Proof.
  unfold fire. destruct (nth_error evs e) as [[[| |] q]|] eqn:E; intro H; injection H as <- <-; try (rewrite E; auto; fail).
  all: destruct (put_spec evs e (mkKE KTrig (Some p)) _ E) as (A & B & C); auto.
Qed.
Lemma reset_spec (evs : list (kev V)) e :
  (forall i, i <> e -> nth_error (reset_ev evs e) i = nth_error evs i) /\ length (reset_ev evs e) = length evs /\
  nth_error (reset_ev evs e) e = match nth_error evs e with Some x => Some (mkKE KPend (x_load x)) | None => None end.
Proof.
  unfold reset_ev. destruct (nth_error evs e) as [x|] eqn:E; [|rewrite E; auto].
  destruct (put_spec evs e (mkKE KPend (x_load x)) _ E) as (A & B & C); auto.
Qed.
Lemma processed_spec (evs : list (kev V)) e :
  (forall i, i <> e -> nth_error (processed_ev evs e) i = nth_error evs i) /\ length (processed_ev evs e) = length evs /\
  nth_error (processed_ev evs e) e = match nth_error evs e with Some (mkKE KTrig p) => Some (mkKE KDone p) | x => x end.
Proof.
  unfold processed_ev. destruct (nth_error evs e) as [[[| |] q]|] eqn:E; try (rewrite E; auto; fail).
  destruct (put_spec evs e (mkKE KDone q) _ E) as (A & B & C); auto.
Qed.
(** What an operation does to the events: it may add some, and changes only the one it is about. *)
Definition about (o : nop V) (s : kst V) (e : nat) : Prop :=
  match o with
  | NFire i _ | NReset i | NProcessed i => i = e
  | NSucceed n _ => look s n = Some (KEvent e)
  | _ => False
  end.
Lemma step_events (s : kst V) o s' r : nstep s o = (s', r) ->
  (length (n_events s) <= length (n_events s'))%nat /\
  forall e x, nth_error (n_events s) e = Some x -> ~ about o s e -> nth_error (n_events s') e = Some x.
Proof.
  intro H. destruct o as [n must|n v ow|n|n|l ow|l|l must|l|n|n p|i p|i|i]; cbn [nstep] in H; unfold about.
  - injection H as <- <-. auto.
  - destruct (set_know _ _ _ _). injection H as <- <-. auto.
  - destruct (clear_know _ _). injection H as <- <-. auto.
  - destruct (get_know _ _ _) as [[v|]|]; [destruct (clear_know _ _)| |]; injection H as <- <-; auto.
  - destruct (set_bulk _ _ _). injection H as <- <-. auto.
  - destruct (clear_bulk _ _). injection H as <- <-. auto.
  - injection H as <- <-. auto.
  - destruct (take_bulk _ _ _). injection H as <- <-. auto.
  - destruct (set_know _ _ _ _). injection H as <- <-. cbn. split; [rewrite app_length; lia|].
    intros e p He _. rewrite nth_error_app1; [exact He|]. apply nth_error_Some. congruence.
  - unfold look. destruct (kget n (n_dict s)) as [[i| |v]|]; try (injection H as <- <-; auto; fail).
    destruct (clear_know _ _). destruct (fire _ _ _) as [evs q] eqn:E; injection H as <- <-. apply fire_spec in E.
    destruct E as (A & B & _). cbn. split; [lia|]. intros e x He Ne. rewrite A; [exact He|]. intros ->. apply Ne. reflexivity.
  - destruct (fire _ _ _) as [evs q] eqn:E; injection H as <- <-. apply fire_spec in E.
    destruct E as (A & B & _). cbn. split; [lia|]. intros e x He Ne. rewrite A; [exact He|]. auto.
  - injection H as <- <-. destruct (reset_spec (n_events s) i) as (A & B & _). cbn. split; [lia|].
    intros e x He Ne. rewrite A; [exact He|]. auto.
  - injection H as <- <-. destruct (processed_spec (n_events s) i) as (A & B & _). cbn. split; [lia|].
    intros e x He Ne. rewrite A; [exact He|]. auto.
Qed.
Lemma run_grows : forall os (s : kst V) s' tr, nrun s os = (s', tr) -> (length (n_events s) <= length (n_events s'))%nat.
Proof.
  induction os as [|o os IH]; intros s s' tr H; cbn [nrun] in H.
  - injection H as <- <-. lia.
  - destruct (nstep s o) as [s1 r] eqn:E1. destruct (nrun s1 os) as [s2 tr2] eqn:E2. injection H as <- <-.
    apply step_events in E1. apply IH in E2. destruct E1. lia.
Qed.
(** A processed event is only changed by a reset. *)
Lemma step_done (s : kst V) o s' r e p : nstep s o = (s', r) -> o <> NReset e ->
  nth_error (n_events s) e = Some (mkKE KDone p) -> nth_error (n_events s') e = Some (mkKE KDone p).
Proof.
  intros H N He.
  assert (D : about o s e \/ ~ about o s e).
  { unfold about. destruct o; try tauto.
    - destruct (look s n) as [[i| |]|]; try (right; discriminate). destruct (Nat.eq_dec i e); [left|right]; congruence.
    - destruct (Nat.eq_dec e0 e); auto.
    - destruct (Nat.eq_dec e0 e); auto.
    - destruct (Nat.eq_dec e0 e); auto. }
  destruct D as [D|D]; [|exact (proj2 (step_events _ _ _ _ H) _ _ He D)].
  unfold about in D. destruct o; try contradiction.
  - unfold look in D. cbn [nstep] in H. rewrite D in H. destruct (clear_know _ _).
    destruct (fire _ _ _) as [evs q] eqn:E; injection H as <- <-. apply fire_spec in E. rewrite He in E. apply E.
  - subst e0. cbn [nstep] in H. destruct (fire _ _ _) as [evs q] eqn:E; injection H as <- <-. apply fire_spec in E. rewrite He in E. apply E.
  - congruence.
  - subst e0. injection H as <- <-. cbn. destruct (processed_spec (n_events s) e) as (_ & _ & ->). rewrite He. reflexivity.
Qed.
Lemma event_payload_stays : forall os (s : kst V) s' tr e p, nrun s os = (s', tr) -> ~ In (NReset e) os ->
  nth_error (n_events s) e = Some (mkKE KDone p) -> nth_error (n_events s') e = Some (mkKE KDone p).
Proof.
  induction os as [|o os IH]; intros s s' tr e p H N He; cbn [nrun] in H.
  - injection H as <- <-. exact He.
  - destruct (nstep s o) as [s1 r] eqn:E1. destruct (nrun s1 os) as [s2 tr2] eqn:E2. injection H as <- <-.
    apply (IH _ _ _ e p E2); [intro; apply N; right; assumption|].
    apply (step_done _ _ _ _ _ _ E1); [|exact He]. intros ->. apply N. left. reflexivity.
Qed.
(** A triggered one goes on to be processed; its payload is the last that succeed was called with. *)
Lemma event_untouched os : forall (s : kst V) s' tr e x, nrun s os = (s', tr) ->
  (forall i p, ~ In (NSucceed i p) os) -> (forall p, ~ In (NFire e p) os) -> ~ In (NReset e) os -> ~ In (NProcessed e) os ->
  nth_error (n_events s) e = Some x -> nth_error (n_events s') e = Some x.
Proof.
  induction os as [|o os IH]; intros s s' tr e x H N1 N2 N3 N4 He; cbn [nrun] in H.
  - injection H as <- <-. exact He.
  - destruct (nstep s o) as [s1 r] eqn:E1. destruct (nrun s1 os) as [s2 tr2] eqn:E2. injection H as <- <-.
    apply (IH _ _ _ e x E2).
    + intros i p Hin. apply (N1 i p). right. exact Hin.
    + intros p Hin. apply (N2 p). right. exact Hin.
    + intro. apply N3. right. assumption.
    + intro. apply N4. right. assumption.
    + apply (proj2 (step_events _ _ _ _ E1)); [exact He|]. unfold about. destruct o; auto.
      * intros _. apply (N1 n payload). left. reflexivity.
      * intros ->. apply (N2 payload). left. reflexivity.
      * intros ->. apply N3. left. reflexivity.
      * intros ->. apply N4. left. reflexivity.
Qed.

Lemma succeed_named (s : kst V) n e p s' r : look s n = Some (KEvent e) ->
  nstep s (NSucceed n p) = (s', r) ->
  look s' n = None /\ (forall k, k <> n -> look s' k = look s k) /\
  (forall i, i <> e -> nth_error (n_events s') i = nth_error (n_events s) i) /\
  match nth_error (n_events s) e with
  | Some (mkKE KPend _) => r = NOk /\ nth_error (n_events s') e = Some (mkKE KTrig (Some p))
  | Some (mkKE KTrig _) => r = NRuntime /\ nth_error (n_events s') e = Some (mkKE KTrig (Some p))
  | x => r = NComplete /\ nth_error (n_events s') e = x
  end.
Proof.
  intros Hl H. cbn [nstep] in H. unfold look in *. rewrite Hl in H.
  destruct (clear_know (n_dict s) n) as [d ok] eqn:E. apply clear_know_spec in E.
  destruct E as [(_ & _ & Hd)|(_ & -> & Hx)]; [|congruence].
  destruct (fire (n_events s) e p) as [evs q] eqn:Ef; injection H as <- <-; cbn [n_dict n_events].
  apply fire_spec in Ef. destruct Ef as (A & B & C).
  split; [rewrite Hd, Z.eqb_refl; reflexivity|]. split; [|auto]. intros k Hk. rewrite Hd.
  destruct (Z.eqb k n) eqn:E; [apply Z.eqb_eq in E; congruence|reflexivity].
Qed.

Lemma create_then_succeed (s0 : kst V) n s1 e os s2 tr p s3 r :
  nstep s0 (NCreateEvent n) = (s1, NEvent e) ->
  Forall wf_op os -> Forall (fun o => ~ mentions n o) os -> nrun s1 os = (s2, tr) ->
  nstep s2 (NSucceed n p) = (s3, r) ->
  (forall k, nth_error (n_events s0) e = Some k -> False) /\
  look s3 n = None /\
  exists x, nth_error (n_events s2) e = Some x /\
    match x_stat x with
    | KPend => r = NOk /\ nth_error (n_events s3) e = Some (mkKE KTrig (Some p))
    | KTrig => r = NRuntime /\ nth_error (n_events s3) e = Some (mkKE KTrig (Some p))
    | KDone => r = NComplete /\ nth_error (n_events s3) e = Some x
    end.
Proof.
  intros H1 Hw Hm H2 H3. cbn [nstep] in H1. destruct (set_know _ _ _ _) as [d ok] eqn:E. apply set_know_spec in E.
  destruct E as [(-> & _ & Hd)|(-> & _)]; [|discriminate]. injection H1 as <- <-.
  split.
  { intros k Hk. assert (length (n_events s0) < length (n_events s0))%nat by (apply nth_error_Some; congruence). lia. }
  pose proof (run_frame n _ _ _ _ Hw Hm H2) as HF. unfold look in HF. cbn [n_dict] in HF.
  rewrite Hd, Z.eqb_refl in HF.
  pose proof (run_grows _ _ _ _ H2) as HL. cbn [n_events] in HL. rewrite app_length in HL. cbn in HL.
  pose proof (succeed_named s2 n _ p s3 r HF H3) as (A & _ & _ & B). split; [exact A|].
  destruct (nth_error (n_events s2) (length (n_events s0))) as [x|] eqn:En.
  - exists x. split; [reflexivity|]. destruct x as [[| |] q]; exact B.
  - apply nth_error_None in En. lia.
Qed.

Lemma succeed_unnamed (s : kst V) n p s' r : (forall e, look s n <> Some (KEvent e)) ->
  nstep s (NSucceed n p) = (s', r) -> s' = s /\ r = NSimError.
Proof.
  intros H E. unfold look in H. cbn [nstep] in E. destruct (kget n (n_dict s)) as [[e| |v]|] eqn:En;
    try (injection E as <- <-; auto). exfalso. apply (H e). reflexivity.
Qed.
Lemma create_refused (s : kst V) n s' r : nstep s (NCreateEvent n) = (s', r) ->
  if n_rehearsing s then r = NEvent (length (n_events s)) /\ look s' n = Some (KEvent (length (n_events s)))
  else match look s n with
       | Some _ => r = NSimError /\ n_dict s' = n_dict s
       | None => r = NEvent (length (n_events s)) /\ look s' n = Some (KEvent (length (n_events s)))
       end.
Proof.
  intro H. cbn [nstep] in H. destruct (set_know _ _ _ _) as [d ok] eqn:E. injection H as <- <-. apply set_know_spec in E.
  unfold look. cbn. destruct E as [(-> & Hp & Hd)|(-> & -> & Ho & Hp)].
  - rewrite Hd, Z.eqb_refl. destruct (n_rehearsing s); [auto|]. destruct (kget n (n_dict s)); [|auto]. destruct Hp; congruence.
  - rewrite Ho. destruct (kget n (n_dict s)); [auto|congruence].
Qed.
End P.
