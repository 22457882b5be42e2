(** Proofs about the proxies of dictionary and dataclass states. *)
From Verif Require Import Common StateModel StateProofs ProxyModel ProxySpec.

Lemma nget_nput {A} n (x : A) l m : nget m (nput n x l) = if Nat.eqb n m then Some x else nget m l.
Proof.
  induction l as [|[j y] l IH]; cbn.
  - destruct (Nat.eqb_spec n m); reflexivity.
  - destruct (Nat.eqb_spec j n) as [->|J]; cbn.
    + destruct (Nat.eqb_spec n m); reflexivity.
    + destruct (Nat.eqb_spec j m) as [->|K]; [|exact IH].
      destruct (Nat.eqb_spec n m); [congruence|reflexivity].
Qed.
Lemma upd_length l o h : List.length (upd l o h) = List.length h.
Proof. revert l. induction h as [|x h IH]; intros [|l]; cbn; congruence. Qed.
Lemma upd_nth l o h m : nth_error (upd l o h) m = if Nat.eqb m l then (if Nat.ltb l (List.length h) then Some o else None) else nth_error h m.
Proof.
  revert l m. induction h as [|x h IH]; intros l m; cbn.
  - destruct (Nat.eqb_spec m l); [destruct m; reflexivity|reflexivity].
  - destruct l as [|l], m as [|m]; cbn; try reflexivity. rewrite IH. reflexivity.
Qed.
Lemma upd_eq l o h : (l < List.length h)%nat -> nth_error (upd l o h) l = Some o.
Proof. intro H. rewrite upd_nth, Nat.eqb_refl. apply Nat.ltb_lt in H. rewrite H. reflexivity. Qed.
Lemma upd_ne l o h m : m <> l -> nth_error (upd l o h) m = nth_error h m.
Proof. intro H. rewrite upd_nth. apply Nat.eqb_neq in H. rewrite H. reflexivity. Qed.
Lemma nth_lt {A} (h : list A) l o : nth_error h l = Some o -> (l < List.length h)%nat.
Proof. intro H. apply nth_error_Some. congruence. Qed.
Lemma nth_snoc {A} (h : list A) x m : nth_error (h ++ [x]) m = if Nat.eqb m (List.length h) then Some x else nth_error h m.
Proof.
  destruct (Nat.eqb_spec m (List.length h)) as [->|N].
  - rewrite nth_error_app2, Nat.sub_diag by lia. reflexivity.
  - destruct (Nat.lt_ge_cases m (List.length h)); [apply nth_error_app1; assumption|].
    rewrite (proj2 (nth_error_None h m)) by lia. apply nth_error_None. rewrite app_length. cbn. lia.
Qed.
Lemma nth_snoc_some {A} (h : list A) x m o : nth_error h m = Some o -> nth_error (h ++ [x]) m = Some o.
Proof. intro H. rewrite nth_error_app1; [exact H|]. eapply nth_lt; exact H. Qed.

(** ** Association lists *)
Lemma kset_keys k v (m : list (key * Z)) : map fst (kset k v m) = if existsb (Z.eqb k) (map fst m) then map fst m else map fst m ++ [k].
Proof.
  induction m as [|[j y] m IH]; cbn; [reflexivity|]. rewrite (Z.eqb_sym k j). destruct (Z.eqb_spec j k) as [->|N]; cbn; [reflexivity|].
  rewrite IH. destruct (existsb (Z.eqb k) (map fst m)); reflexivity.
Qed.
Lemma kget_existsb k (m : list (key * Z)) : existsb (Z.eqb k) (map fst m) = match kget k m with Some _ => true | None => false end.
Proof. induction m as [|[j y] m IH]; cbn; [reflexivity|]. rewrite (Z.eqb_sym k j). destruct (Z.eqb j k); [reflexivity|exact IH]. Qed.
Lemma existsb_In k (l : list key) : existsb (Z.eqb k) l = true <-> In k l.
Proof.
  rewrite existsb_exists. split; [intros (x & I & E); apply Z.eqb_eq in E; subst; exact I|]. intro I. exists k. split; [exact I|apply Z.eqb_refl].
Qed.
Lemma kset_nodup k v (m : list (key * Z)) : NoDup (map fst m) -> NoDup (map fst (kset k v m)).
Proof.
  intro N. rewrite kset_keys. destruct (existsb (Z.eqb k) (map fst m)) eqn:E; [exact N|].
  apply NoDup_rev in N. rewrite <- (rev_involutive (map fst m ++ [k])). apply NoDup_rev. rewrite rev_app_distr. cbn. constructor; [|exact N].
  rewrite <- in_rev. intro I. apply existsb_In in I. congruence.
Qed.
Lemma kdel_in k j (m : list (key * Z)) : In j (map fst (kdel k m)) -> In j (map fst m).
Proof. induction m as [|[i y] m IH]; cbn; [tauto|]. destruct (Z.eqb i k); cbn; tauto. Qed.
Lemma kdel_nodup k (m : list (key * Z)) : NoDup (map fst m) -> NoDup (map fst (kdel k m)).
Proof.
  induction m as [|[i y] m IH]; cbn; [constructor|]. intro N. inversion N as [|a b A B]; subst. destruct (Z.eqb i k); [exact B|].
  cbn. constructor; [|apply IH; exact B]. intro I. apply A. eapply kdel_in; exact I.
Qed.
Lemma fill_nodup typ l : forall acc m ok, NoDup (map fst acc) -> dict_fill Z typ l acc = (m, ok) -> NoDup (map fst m).
Proof.
  induction l as [|[k v] l IH]; intros acc m ok N; cbn; [intro H; injection H as <- <-; exact N|].
  destruct (typ v); [apply IH, kset_nodup, N|]. intro H; injection H as <- <-; exact N.
Qed.
Lemma literal_nodup l : NoDup (map fst (literal l)).
Proof.
  unfold literal. assert (H : forall acc, NoDup (map fst acc) -> NoDup (map fst (fold_left (fun m kv => kset (fst kv) (snd kv) m) l acc))).
  { induction l as [|[k v] l IH]; intros acc N; cbn; [exact N|]. apply IH, kset_nodup, N. }
  apply H. constructor.
Qed.
(** A dictionary of distinct keys, all of whose values fit, is filled as it is. *)
Lemma fill_same typ m : NoDup (map fst m) -> forallb (fun kv => typ (snd kv)) m = true -> dict_fill Z typ m [] = (m, true).
Proof.
  intros N T. assert (H : forall acc, NoDup (map fst (acc ++ m)) -> dict_fill Z typ m acc = (acc ++ m, true)).
  { clear N. induction m as [|[k v] m IH]; intros acc N; cbn; [rewrite app_nil_r; reflexivity|].
    cbn in T. apply andb_true_iff in T. destruct T as [Tv Tm]. rewrite Tv.
    rewrite map_app in N. cbn in N. pose proof (NoDup_remove_2 _ _ _ N) as NI.
    rewrite kset_new by (intro I; apply NI, in_or_app; left; exact I).
    rewrite IH; [rewrite <- app_assoc; reflexivity|exact Tm|]. rewrite <- app_assoc. rewrite map_app. exact N. }
  apply H. exact N.
Qed.
Lemma fill_fails typ m : forallb (fun kv => typ (snd kv)) m = false -> forall acc, snd (dict_fill Z typ m acc) = false.
Proof.
  induction m as [|[k v] m IH]; cbn; [discriminate|]. destruct (typ v); cbn; [intros H acc; apply IH, H|reflexivity].
Qed.
Lemma items_kget (m : list (key * Z)) : NoDup (map fst m) -> flat_map (fun k => match kget k m with Some v => [(k, v)] | None => [] end) (map fst m) = m.
Proof.
  intro N. assert (H : forall a b, m = a ++ b -> flat_map (fun k => match kget k m with Some v => [(k, v)] | None => [] end) (map fst b) = b).
  { intros a b. revert a. induction b as [|[k v] b IH]; intros a E; [reflexivity|]. cbn. rewrite (IH (a ++ [(k, v)])) by (rewrite <- app_assoc; exact E).
    assert (G : kget k m = Some v).
    { rewrite E in N. rewrite E. clear IH E. induction a as [|[j y] a IH]; cbn; [rewrite Z.eqb_refl; reflexivity|].
      cbn in N. inversion N as [|x l NI NR]; subst. destruct (Z.eqb_spec j k) as [->|]; [|apply IH, NR].
      exfalso. apply NI. rewrite map_app. apply in_or_app. right. left. reflexivity. }
    rewrite G. reflexivity. }
  apply (H [] m eq_refl).
Qed.
Lemma pd_put k v m : pd_same (pd (kset k v m)) (pput k v (pd m)).
Proof.
  split; [cbn; unfold has; cbn; apply kset_keys|]. intro j. cbn. rewrite kget_kset, Z.eqb_sym. reflexivity.
Qed.
Lemma pd_same_refl p : pd_same p p.
Proof. split; auto. Qed.
Lemma pd_same_trans p q r : pd_same p q -> pd_same q r -> pd_same p r.
Proof. intros [A B] [C D]. split; [congruence|]. intro k. rewrite B. apply D. Qed.
Lemma pput_same k v p q : pd_same p q -> pd_same (pput k v p) (pput k v q).
Proof. intros [A B]. split; cbn; unfold has; rewrite ?A; [reflexivity|]. intro j. destruct (Z.eqb j k); [reflexivity|apply B]. Qed.
Lemma pd_step_same ok p q o : pd_same p q -> pd_same (fst (pd_step ok p o)) (fst (pd_step ok q o)) /\ snd (pd_step ok p o) = snd (pd_step ok q o).
Proof.
  intros S. pose proof S as [A B]. destruct o; cbn; try (split; [exact S|reflexivity]).
  - split; [apply pput_same, S|reflexivity].
  - rewrite B. destruct (p_val q k); cbn; split; try reflexivity; [exact S|apply pput_same, S].
  - split; [exact S|]. rewrite B. reflexivity.
  - split; [exact S|]. unfold has. rewrite A. reflexivity.
  - split; [exact S|]. rewrite A. reflexivity.
  - split; [exact S|]. rewrite A. reflexivity.
  - split; [exact S|]. rewrite A. f_equal. apply flat_map_ext. intro k. rewrite B. reflexivity.
Qed.
Lemma pd_run_same ok os : forall p q, pd_same p q -> pd_same (fst (pd_run ok p os)) (fst (pd_run ok q os)) /\ snd (pd_run ok p os) = snd (pd_run ok q os).
Proof.
  induction os as [|o os IH]; intros p q S; cbn; [split; [exact S|reflexivity]|].
  destruct (pd_step_same ok p q o S) as [A B]. destruct (pd_step ok p o) as [p1 r], (pd_step ok q o) as [q1 r']. cbn in A, B. subst r'.
  destruct (IH p1 q1 A) as [C D]. destruct (pd_run ok p1 os), (pd_run ok q1 os). cbn in *. split; [exact C|congruence].
Qed.

(** ** The invariant *)
Definition good_obj (o : obj) : Prop := match o with ODict m | OData _ m => NoDup (map fst m) end.
Definition is_dict (o : obj) : bool := match o with ODict _ => true | OData _ _ => false end.
Section Inv.
Variable dec : nat -> decl.
Variable typ : nat -> Z -> bool.
Variable typc : nat -> option nat -> bool.
Variable ann : nat -> key -> option (Z -> bool).
Notation step := (step dec typ typc ann).
Notation run := (run dec typ typc ann).
Notation reach := (reach dec typ typc ann).

Record Inv (w : world) : Prop := mkInv {
  i_slot : forall s l, nget s (w_slot w) = Some l -> (l < List.length (w_heap w))%nat;
  i_held : forall l, In l (w_held w) -> (l < List.length (w_heap w))%nat;
  i_prox : forall i s l, nth_error (w_prox w) i = Some (s, l) -> nget s (w_slot w) = Some l;
  i_good : forall l o, nth_error (w_heap w) l = Some o -> good_obj o;
  i_own : forall s s' l, d_data (dec s) = false -> nget s (w_slot w) = Some l -> nget s' (w_slot w) = Some l -> s <> s' -> In l (w_held w);
  i_dict : forall s l o, d_data (dec s) = false -> nget s (w_slot w) = Some l -> nth_error (w_heap w) l = Some o -> is_dict o = true;
  i_data : forall i s l o, d_data (dec s) = true -> nth_error (w_prox w) i = Some (s, l) -> nth_error (w_heap w) l = Some o -> is_dict o = false }.

Lemma inv_init t : Inv (w_init t).
Proof. constructor; cbn; try discriminate; try contradiction; intros; try (destruct l; discriminate); try (destruct i; discriminate). Qed.
Lemma inv_now w t : Inv w -> Inv (mkW t (w_heap w) (w_slot w) (w_prox w) (w_held w) (w_hist w)).
Proof. intros []. constructor; cbn; eauto. Qed.
Lemma inv_hist w s h : Inv w -> Inv (with_hist w s h).
Proof. intros []. constructor; cbn; eauto. Qed.
Lemma inv_hold w l : Inv w -> (l < List.length (w_heap w))%nat -> Inv (hold w l).
Proof. intros [] L. constructor; cbn; eauto. intros m [<-|M]; eauto. Qed.
Lemma inv_alloc w o : Inv w -> good_obj o -> Inv (alloc w o).
Proof.
  intros [A B C D E F G] Go. unfold alloc, with_heap. constructor; cbn; eauto.
  - intros s l H. rewrite app_length. cbn. specialize (A s l H). lia.
  - intros l H. rewrite app_length. cbn. specialize (B l H). lia.
  - intros l x. rewrite nth_snoc. destruct (Nat.eqb l (List.length (w_heap w))); [intro H; injection H as <-; exact Go|apply D].
  - intros s l x Ds H. rewrite nth_snoc. specialize (A s l H). destruct (Nat.eqb_spec l (List.length (w_heap w))); [lia|eauto].
  - intros i s l x Ds H. pose proof (A s l (C _ _ _ H)). rewrite nth_snoc. destruct (Nat.eqb_spec l (List.length (w_heap w))); [lia|eauto].
Qed.
Lemma inv_upd w l o o' : Inv w -> nth_error (w_heap w) l = Some o -> is_dict o' = is_dict o -> good_obj o' -> Inv (with_heap w (upd l o' (w_heap w))).
Proof.
  intros [A B C D E F G] O K Go. pose proof (nth_lt _ _ _ O) as L. unfold with_heap. constructor; cbn; eauto.
  - intros s x H. rewrite upd_length. eauto.
  - intros x H. rewrite upd_length. eauto.
  - intros m x. rewrite upd_nth. destruct (Nat.eqb_spec m l); [destruct (Nat.ltb l _); [|discriminate]; intro H; injection H as <-; exact Go|apply D].
  - intros s m x Ds H. rewrite upd_nth. destruct (Nat.eqb_spec m l) as [->|]; [|eauto].
    destruct (Nat.ltb l _); [|discriminate]. intro Q; injection Q as <-. rewrite K. eauto.
  - intros i s m x Ds H. rewrite upd_nth. destruct (Nat.eqb_spec m l) as [->|]; [|eauto].
    destruct (Nat.ltb l _); [|discriminate]. intro Q; injection Q as <-. rewrite K. eauto.
Qed.
Lemma inv_rec_one w s k v : Inv w -> Inv (rec_one dec s k v w).
Proof. intro I. unfold rec_one. destruct (d_rec (dec s)); [apply inv_hist|]; exact I. Qed.
Lemma inv_rec_all w s m : Inv w -> Inv (rec_all dec s m w).
Proof. intro I. unfold rec_all. destruct (d_rec (dec s)); [apply inv_hist|]; exact I. Qed.
(** A state is set to an object nobody refers to, or a dataclass state to one in the user's hands. *)
Lemma inv_set_slot w s l o : Inv w -> nget s (w_slot w) = None -> nth_error (w_heap w) l = Some o ->
  (d_data (dec s) = false -> is_dict o = true /\ forall s', nget s' (w_slot w) <> Some l) ->
  (d_data (dec s) = true -> In l (w_held w)) ->
  Inv (set_slot w s l).
Proof.
  intros [A B C D E F G] N O P Q. pose proof (nth_lt _ _ _ O) as L. unfold set_slot. constructor; cbn; eauto.
  - intros s0 l0. rewrite nget_nput. destruct (Nat.eqb s s0); [intro H; injection H as <-; exact L|apply A].
  - intros i s0 l0 H. rewrite nget_nput. destruct (Nat.eqb_spec s s0) as [->|]; [|eauto]. specialize (C _ _ _ H). congruence.
  - intros s0 s1 l0 Ds. rewrite !nget_nput. destruct (Nat.eqb_spec s s0) as [E0|N0]; [subst s0|]; destruct (Nat.eqb_spec s s1) as [E1|N1]; try (intros; congruence).
    + intros H1 H2 _. injection H1 as <-. destruct (P Ds) as [_ R]. elim (R s1 H2).
    + intros H1 H2 _. injection H2 as <-. destruct (d_data (dec s)) eqn:Dd; [apply Q; reflexivity|]. destruct (P eq_refl) as [_ R]. elim (R s0 H1).
    + intros; eauto.
  - intros s0 l0 x Ds. rewrite nget_nput. destruct (Nat.eqb_spec s s0) as [->|]; [|eauto]. intros H Hx. injection H as <-. destruct (P Ds). congruence.
Qed.
Lemma mine_some w l o : mine l w = Some o -> In l (w_held w) /\ nth_error (w_heap w) l = Some o.
Proof.
  unfold mine. destruct (existsb (Nat.eqb l) (w_held w)) eqn:E; [|discriminate]. intro H. split; [|exact H].
  apply existsb_exists in E. destruct E as (x & I & X). apply Nat.eqb_eq in X. subst. exact I.
Qed.
Lemma proxied_some w i s l o : proxied w i = Some (s, l, o) -> nth_error (w_prox w) i = Some (s, l) /\ nth_error (w_heap w) l = Some o.
Proof.
  unfold proxied. destruct (nth_error (w_prox w) i) as [[s' l']|]; [|discriminate]. destruct (nth_error (w_heap w) l') eqn:E; [|discriminate].
  intro H. injection H as -> -> ->. auto.
Qed.
Lemma inv_setitem w s l m k v : Inv w -> nth_error (w_heap w) l = Some (ODict m) -> Inv (fst (setitem dec typ s l m k v w)).
Proof.
  intros I O. unfold setitem. assert (J : Inv (with_heap w (upd l (ODict (kset k v m)) (w_heap w)))).
  { eapply inv_upd; [exact I|exact O|reflexivity|]. cbn. apply kset_nodup. exact (i_good _ I _ _ O). }
  destruct (typ s v); cbn; [apply inv_rec_one|]; exact J.
Qed.
Lemma inv_through w i o : Inv w -> Inv (fst (through dec typ ann i o w)).
Proof.
  intro I. unfold through. destruct (proxied w i) as [[[s l] [m|c m]]|] eqn:P; [| |exact I].
  - apply proxied_some in P. destruct P as [P O]. destruct o; cbn; try exact I.
    + apply inv_setitem; assumption.
    + destruct (kget k m); [exact I|]. pose proof (inv_setitem w s l m k v I O) as J. destruct (setitem dec typ s l m k v w). exact J.
    + destruct o; [destruct (nth_error (w_prox w) j); exact I|]. destruct (existsb _ _); [|exact I]. destruct (nth_error (w_heap w) l0) as [[]|]; exact I.
    + apply inv_hold; [exact I|]. eapply nth_lt; exact O.
  - apply proxied_some in P. destruct P as [P O]. destruct o; cbn; try exact I.
    + destruct o; [destruct (proxied w j) as [[[? ?] []]|]; exact I|]. destruct (existsb _ _); [|exact I]. destruct (nth_error (w_heap w) l0) as [[]|]; exact I.
    + apply inv_hold; [exact I|]. eapply nth_lt; exact O.
    + destruct (kget f m); [|exact I]. destruct (ann c f) as [ok|]; [|exact I]. destruct (ok v); [|exact I]. cbn. apply inv_rec_one.
      eapply inv_upd; [exact I|exact O|reflexivity|]. cbn. apply kset_nodup. exact (i_good _ I _ _ O).
Qed.
Lemma inv_give w s l : Inv w -> In l (w_held w) -> Inv (fst (give dec typ typc s l w)).
Proof.
  intros I H. unfold give. destruct (nget s (w_slot w)) as [x|] eqn:N; [exact I|]. destruct (nth_error (w_heap w) l) as [o|] eqn:O; [|exact I].
  destruct (d_data (dec s)) eqn:D.
  - destruct (typc s _); [|exact I].
    assert (J : Inv (set_slot w s l)) by (eapply inv_set_slot; [exact I|exact N|exact O|congruence|intro; exact H]).
    destruct o; cbn; [destruct (d_rec (dec s)); exact J|apply inv_rec_all; exact J].
  - assert (K : forall m, NoDup (map fst m) -> Inv (set_slot (alloc w (ODict m)) s (List.length (w_heap w)))).
    { intros m Nm. eapply inv_set_slot; [apply inv_alloc; [exact I|exact Nm]|exact N| | |congruence].
      - cbn. rewrite nth_snoc, Nat.eqb_refl. reflexivity.
      - intros _. split; [reflexivity|]. intros s' E. cbn in E. apply (i_slot _ I) in E. lia. }
    destruct o as [m|c m].
    + destruct (dict_fill Z (typ s) m []) as [m' ok] eqn:Fi. assert (Nm : NoDup (map fst m')) by (eapply fill_nodup; [|exact Fi]; constructor).
      destruct ok; cbn; [apply inv_rec_all|]; apply K, Nm.
    + apply K. constructor.
Qed.
Lemma inv_look w s : Inv w -> Inv (fst (look dec s w)).
Proof.
  intro I. unfold look. destruct (nget s (w_slot w)) as [l|] eqn:N; [|exact I].
  assert (G : (d_data (dec s) = true -> forall o, nth_error (w_heap w) l = Some o -> is_dict o = false) ->
     Inv (mkW (w_now w) (w_heap w) (w_slot w) (w_prox w ++ [(s, l)]) (w_held w) (w_hist w))).
  { intro G. destruct I as [A B C D E F G']. constructor; cbn; eauto.
    - intros i s0 l0. rewrite nth_snoc. destruct (Nat.eqb i _); [intro H; injection H as <- <-; exact N|apply C].
    - intros i s0 l0 x Ds. rewrite nth_snoc. destruct (Nat.eqb i _); [intro H; injection H as <- <-; apply G, Ds|eauto]. }
  destruct (d_data (dec s)) eqn:D; [|apply G; discriminate]. destruct (nth_error (w_heap w) l) as [[m|c m]|] eqn:O; [exact I| |].
  - apply G. intros _ o Q. injection Q as <-. reflexivity.
  - apply G. discriminate.
Qed.
Lemma inv_step w o : Inv w -> Inv (fst (step w o)).
Proof.
  intro I. destruct o; cbn [ProxyModel.step]; try (apply inv_through; exact I).
  - cbn. apply inv_hold; [apply inv_alloc; [exact I|apply literal_nodup]|]. cbn. rewrite app_length. cbn. lia.
  - cbn. apply inv_hold; [apply inv_alloc; [exact I|apply literal_nodup]|]. cbn. rewrite app_length. cbn. lia.
  - destruct (mine l w) as [o|] eqn:M; [|exact I]. apply mine_some in M. apply inv_give; [exact I|apply M].
  - apply inv_look; exact I.
  - destruct (mine l w) as [[m|c m]|] eqn:M; try exact I. apply mine_some in M. cbn. eapply inv_upd; [exact I|apply M|reflexivity|].
    cbn. apply kset_nodup. exact (i_good _ I _ _ (proj2 M)).
  - destruct (mine l w) as [[m|c m]|] eqn:M; try exact I. apply mine_some in M. destruct (kget k m); [|exact I]. cbn.
    eapply inv_upd; [exact I|apply M|reflexivity|]. cbn. apply kdel_nodup. exact (i_good _ I _ _ (proj2 M)).
  - destruct (mine l w) as [[m|c m]|] eqn:M; try exact I. apply mine_some in M. destruct (kget f m); [|exact I]. cbn.
    eapply inv_upd; [exact I|apply M|reflexivity|]. cbn. apply kset_nodup. exact (i_good _ I _ _ (proj2 M)).
  - destruct (Qleb (w_now w) t); [apply inv_now|]; exact I.
Qed.
Lemma inv_run os : forall w, Inv w -> Inv (fst (run w os)).
Proof.
  induction os as [|o os IH]; intros w I; [exact I|]. cbn. pose proof (inv_step w o I) as J. destruct (step w o) as [w1 r]. cbn in J.
  specialize (IH w1 J). destruct (run w1 os). exact IH.
Qed.
Lemma inv_reach w : reach w -> Inv w.
Proof. intros (t & os & ->). apply inv_run, inv_init. Qed.

(** ** Proxies are never forgotten *)
Definition longer (w w' : world) : Prop := exists more, w_prox w' = w_prox w ++ more.
Lemma longer_refl w : longer w w.
Proof. exists []. rewrite app_nil_r. reflexivity. Qed.
Lemma longer_trans a b c : longer a b -> longer b c -> longer a c.
Proof. intros [x X] [y Y]. exists (x ++ y). rewrite Y, X, app_assoc. reflexivity. Qed.
Lemma longer_same w w' : w_prox w' = w_prox w -> longer w w'.
Proof. intro H. exists []. rewrite H, app_nil_r. reflexivity. Qed.
Lemma longer_slot w w' i s : longer w w' -> slot_of w i = Some s -> slot_of w' i = Some s.
Proof.
  intros [m M]. unfold slot_of. rewrite M. destruct (nth_error (w_prox w) i) as [[a b]|] eqn:E; [|discriminate].
  rewrite nth_error_app1 by (eapply nth_lt; exact E). rewrite E. auto.
Qed.
Lemma rec_one_prox s k v w : w_prox (rec_one dec s k v w) = w_prox w.
Proof. unfold rec_one. destruct (d_rec (dec s)); reflexivity. Qed.
Lemma rec_all_prox s m w : w_prox (rec_all dec s m w) = w_prox w.
Proof. unfold rec_all. destruct (d_rec (dec s)); reflexivity. Qed.
Lemma setitem_prox s l m k v w : w_prox (fst (setitem dec typ s l m k v w)) = w_prox w.
Proof. unfold setitem. destruct (typ s v); cbn; [rewrite rec_one_prox|]; reflexivity. Qed.
Lemma through_prox i o w : w_prox (fst (through dec typ ann i o w)) = w_prox w.
Proof.
  unfold through. destruct (proxied w i) as [[[s l] [m|c m]]|]; [| |reflexivity].
  - destruct o; cbn; try reflexivity.
    + apply setitem_prox.
    + destruct (kget k m); [reflexivity|]. pose proof (setitem_prox s l m k v w) as P. destruct (setitem dec typ s l m k v w). exact P.
    + destruct o; [destruct (nth_error (w_prox w) j); reflexivity|]. destruct (existsb _ _); [|reflexivity]. destruct (nth_error (w_heap w) l0) as [[]|]; reflexivity.
  - destruct o; cbn; try reflexivity.
    + destruct o; [destruct (proxied w j) as [[[? ?] []]|]; reflexivity|]. destruct (existsb _ _); [|reflexivity]. destruct (nth_error (w_heap w) l0) as [[]|]; reflexivity.
    + destruct (kget f m); [|reflexivity]. destruct (ann c f) as [ok|]; [|reflexivity]. destruct (ok v); [|reflexivity]. cbn. rewrite rec_one_prox. reflexivity.
Qed.
Lemma give_prox s l w : w_prox (fst (give dec typ typc s l w)) = w_prox w.
Proof.
  unfold give. destruct (nget s (w_slot w)); [reflexivity|]. destruct (nth_error (w_heap w) l) as [o|]; [|reflexivity].
  destruct (d_data (dec s)).
  - destruct (typc s _); [|reflexivity]. destruct o; cbn; [destruct (d_rec (dec s)); reflexivity|rewrite rec_all_prox; reflexivity].
  - destruct o; [|reflexivity]. destruct (dict_fill Z (typ s) m []) as [m' []]; cbn; [rewrite rec_all_prox|]; reflexivity.
Qed.
Lemma step_longer w o : longer w (fst (step w o)).
Proof.
  destruct o; cbn [ProxyModel.step]; try (apply longer_same, through_prox); try (apply longer_same; reflexivity).
  - destruct (mine l w); [|apply longer_refl]. apply longer_same, give_prox.
  - unfold look. destruct (nget s (w_slot w)) as [l|]; [|apply longer_refl].
    destruct (d_data (dec s)), (nth_error (w_heap w) l) as [[]|]; try apply longer_refl; exists [(s, l)]; reflexivity.
  - destruct (mine l w) as [[]|]; apply longer_same; reflexivity.
  - destruct (mine l w) as [[]|]; try (apply longer_same; reflexivity). destruct (kget k m); apply longer_same; reflexivity.
  - destruct (mine l w) as [[]|]; try (apply longer_same; reflexivity). destruct (kget f m); apply longer_same; reflexivity.
  - destruct (Qleb (w_now w) t); apply longer_same; reflexivity.
Qed.
Lemma run_longer os : forall w, longer w (fst (run w os)).
Proof.
  induction os as [|o os IH]; intro w; [apply longer_refl|]. cbn. pose proof (step_longer w o) as L. destruct (step w o) as [w1 r]. cbn in L.
  specialize (IH w1). destruct (run w1 os). eapply longer_trans; eassumption.
Qed.

(** ** One state among the others *)
Lemma hist_same w s s' h : s' <> s -> hist (with_hist w s' h) s = hist w s.
Proof. intro N. unfold hist, with_hist. cbn. rewrite nget_nput. apply Nat.eqb_neq in N. rewrite N. reflexivity. Qed.
Lemma hist_new w s h : hist (with_hist w s h) s = h.
Proof. unfold hist, with_hist. cbn. rewrite nget_nput, Nat.eqb_refl. reflexivity. Qed.
Lemma rec_one_other w s s' k v : s' <> s -> hist (rec_one dec s' k v w) s = hist w s.
Proof. intro N. unfold rec_one. destruct (d_rec (dec s')); [apply hist_same, N|reflexivity]. Qed.
Lemma rec_all_other w s s' m : s' <> s -> hist (rec_all dec s' m w) s = hist w s.
Proof. intro N. unfold rec_all. destruct (d_rec (dec s')); [apply hist_same, N|reflexivity]. Qed.
Lemma rec_one_rest s k v w : w_heap (rec_one dec s k v w) = w_heap w /\ w_slot (rec_one dec s k v w) = w_slot w /\ w_held (rec_one dec s k v w) = w_held w /\ w_now (rec_one dec s k v w) = w_now w.
Proof. unfold rec_one. destruct (d_rec (dec s)); auto. Qed.
Lemma rec_all_rest s m w : w_heap (rec_all dec s m w) = w_heap w /\ w_slot (rec_all dec s m w) = w_slot w /\ w_held (rec_all dec s m w) = w_held w /\ w_now (rec_all dec s m w) = w_now w.
Proof. unfold rec_all. destruct (d_rec (dec s)); auto. Qed.

(** What matters of the dictionary state [s], whose object is [l] *)
Definition at_dict (s l : nat) (m : list (key * Z)) (h : list (key * list (Q * Z))) (t : Q) (w : world) : Prop :=
  nget s (w_slot w) = Some l /\ nth_error (w_heap w) l = Some (ODict m) /\ ~ In l (w_held w) /\ hist w s = h /\ w_now w = t.
Definition kd (s : nat) : kvdef Z := mkKD (d_rec (dec s)) false [].
Notation kvrun1 s := (kvrun Z Z.eqb (typ s) (kd s)).

Lemma setitem_dict w s l m k v : (l < List.length (w_heap w))%nat ->
  let '(w', r) := setitem dec typ s l m k v w in
  nth_error (w_heap w') l = Some (ODict (kset k v m)) /\ w_slot w' = w_slot w /\ w_held w' = w_held w /\ w_now w' = w_now w /\
  r = (if typ s v then Done else TypeErr) /\ 
  hist w' s = kv_hist (fst (set_item Z Z.eqb (typ s) (kd s) k v m (mkKV (w_now w) (Some m) (hist w s)))).
Proof.
  intro L. unfold setitem, set_item. destruct (typ s v).
  - destruct (rec_one_rest s k v (with_heap w (upd l (ODict (kset k v m)) (w_heap w)))) as (A & B & C & D). rewrite A, B, C, D. cbn. rewrite upd_eq by exact L.
    repeat (split; [reflexivity|]). unfold rec_one, record_key. cbn. destruct (d_rec (dec s)); [apply hist_new|reflexivity].
  - cbn. rewrite upd_eq by exact L. repeat (split; [reflexivity|]). reflexivity.
Qed.
Lemma setitem_other w s s' l l' m m' k v : l' <> l -> s' <> s -> nth_error (w_heap w) l = Some (ODict m) ->
  let w' := fst (setitem dec typ s' l' m' k v w) in
  nth_error (w_heap w') l = Some (ODict m) /\ w_slot w' = w_slot w /\ w_held w' = w_held w /\ w_now w' = w_now w /\ hist w' s = hist w s.
Proof.
  intros L N O. unfold setitem. destruct (typ s' v); cbn.
  - destruct (rec_one_rest s' k v (with_heap w (upd l' (ODict (kset k v m')) (w_heap w)))) as (A & B & C & D). rewrite A, B, C, D. cbn.
    rewrite upd_ne by auto. rewrite rec_one_other by exact N. auto.
  - rewrite upd_ne by auto. auto.
Qed.
(** A proxy of the state *)
Lemma through_on w s l m h t i o : Inv w -> d_data (dec s) = false -> at_dict s l m h t w -> nth_error (w_prox w) i = Some (s, l) -> via o = Some i -> (forall j, o <> PRaw j) ->
  exists m', at_dict s l m' (hist (fst (through dec typ ann i o w)) s) t (fst (through dec typ ann i o w)) /\
    (is_eq o = false -> pd_same (pd m') (fst (pd_step (typ s) (pd m) o)) /\ snd (through dec typ ann i o w) = snd (pd_step (typ s) (pd m) o)) /\
    (is_eq o = true -> m' = m) /\
    mkKV t (Some m') (hist (fst (through dec typ ann i o w)) s) =
      fst (kvrun1 s (mkKV t (Some m) h) (match o with PSet _ k v => [KSetItem k v] | PSetDefault _ k v => [KSetDefault k v] | _ => [] end)).
Proof.
  intros I D (A1 & A2 & A3 & A4 & A5) P V NR. pose proof (i_good _ I _ _ A2) as ND. cbn in ND.
  assert (PX : proxied w i = Some (s, l, ODict m)) by (unfold proxied; rewrite P, A2; reflexivity).
  unfold through. rewrite PX. pose proof (nth_lt _ _ _ A2) as L.
  assert (Z0 : at_dict s l m (hist w s) t w) by (unfold at_dict; subst; auto).
  destruct o; try discriminate; cbn [via] in V; injection V as ->; cbn [on_dict is_eq].
  - (* PSet *) pose proof (setitem_dict w s l m k v L) as S. destruct (setitem dec typ s l m k v w) as [w' r]. cbn [fst snd]. destruct S as (S1 & S2 & S3 & S4 & S5 & S6).
    exists (kset k v m). split; [unfold at_dict; rewrite S1, S2, S3, S4; auto|]. split; [intros _; split; [apply pd_put|exact S5]|]. split; [discriminate|].
    rewrite S6, A5, A4. cbn. unfold set_item, record_key. destruct (typ s v); cbn; [destruct (d_rec (dec s))|]; reflexivity.
  - (* PSetDefault *) cbn [pd_step pd p_val fst snd kvrun kvstep kv_dict]. destruct (kget k m) as [x|] eqn:G.
    + exists m. cbn [fst snd]. split; [exact Z0|]. split; [intros _; split; [apply pd_same_refl|reflexivity]|]. split; [discriminate|]. rewrite A4. reflexivity.
    + pose proof (setitem_dict w s l m k v L) as S. destruct (setitem dec typ s l m k v w) as [w' r]. cbn [fst snd]. destruct S as (S1 & S2 & S3 & S4 & S5 & S6).
      exists (kset k v m). split; [unfold at_dict; rewrite S1, S2, S3, S4; auto|]. split; [intros _; split; [apply (pd_put k v m)|rewrite S5; destruct (typ s v); reflexivity]|].
      split; [discriminate|]. rewrite S6, A5, A4. cbn. unfold set_item, record_key. destruct (typ s v); cbn; [destruct (d_rec (dec s))|]; reflexivity.
  - exists m. cbn. split; [exact Z0|]. split; [intros _; split; [apply pd_same_refl|reflexivity]|]. split; [discriminate|]. rewrite A4. reflexivity.
  - exists m. cbn. split; [exact Z0|]. split; [intros _; split; [apply pd_same_refl|]|]. { unfold has. cbn. rewrite kget_existsb. reflexivity. } split; [discriminate|]. rewrite A4. reflexivity.
  - exists m. cbn. split; [exact Z0|]. split; [intros _; split; [apply pd_same_refl|]|]. { rewrite map_length. reflexivity. } split; [discriminate|]. rewrite A4. reflexivity.
  - exists m. cbn. split; [exact Z0|]. split; [intros _; split; [apply pd_same_refl|reflexivity]|]. split; [discriminate|]. rewrite A4. reflexivity.
  - exists m. cbn. split; [exact Z0|]. split; [intros _; split; [apply pd_same_refl|]|]. { rewrite items_kget by exact ND. reflexivity. } split; [discriminate|]. rewrite A4. reflexivity.
  - exists m. assert (E : fst (match o with
        | OtherProxy j => match nth_error (w_prox w) j with Some _ => (w, IsBool false) | None => (w, Illegal) end
        | OtherRef l' => if existsb (Nat.eqb l') (w_held w) then match nth_error (w_heap w) l' with
             | Some (ODict m') => (w, IsBool (dict_eq m' m)) | Some (OData _ _) => (w, IsBool false) | None => (w, Illegal) end else (w, Illegal) end) = w).
    { destruct o; [destruct (nth_error (w_prox w) j); reflexivity|]. destruct (existsb _ _); [|reflexivity]. destruct (nth_error (w_heap w) l0) as [[]|]; reflexivity. }
    rewrite E. split; [exact Z0|]. split; [discriminate|]. split; [reflexivity|]. rewrite A4. reflexivity.
  - elim (NR i eq_refl).
  - exists m. cbn. split; [exact Z0|]. split; [intros _; split; [apply pd_same_refl|reflexivity]|]. split; [discriminate|]. rewrite A4. reflexivity.
  - exists m. cbn. split; [exact Z0|]. split; [intros _; split; [apply pd_same_refl|reflexivity]|]. split; [discriminate|]. rewrite A4. reflexivity.
Qed.
(** Any other proxy *)
Lemma through_off w s l m h t i o : Inv w -> d_data (dec s) = false -> at_dict s l m h t w -> slot_of w i <> Some s ->
  at_dict s l m h t (fst (through dec typ ann i o w)).
Proof.
  intros I D (A1 & A2 & A3 & A4 & A5) P. assert (Z0 : at_dict s l m h t w) by (unfold at_dict; auto).
  unfold through. destruct (proxied w i) as [[[s' l'] ob]|] eqn:PX; [|exact Z0].
  apply proxied_some in PX. destruct PX as [PI PO].
  assert (NS : s' <> s) by (intros ->; apply P; unfold slot_of; rewrite PI; reflexivity).
  assert (NL : l' <> l) by (intros ->; apply A3; apply (i_own _ I s s' l D A1 (i_prox _ I _ _ _ PI)); auto).
  destruct ob as [m'|c m'].
  - destruct o; try exact Z0.
    + cbn [on_dict]. pose proof (setitem_other w s s' l l' m m' k v NL NS A2) as (S1 & S2 & S3 & S4 & S5).
      unfold at_dict. cbn zeta in *. rewrite S1, S2, S3, S4, S5. auto.
    + cbn [on_dict]. destruct (kget k m'); [exact Z0|]. pose proof (setitem_other w s s' l l' m m' k v NL NS A2) as (S1 & S2 & S3 & S4 & S5).
      destruct (setitem dec typ s' l' m' k v w) as [w' r]. cbn in *. unfold at_dict. rewrite S1, S2, S3, S4, S5. auto.
    + cbn [on_dict]. destruct o; [destruct (nth_error (w_prox w) j); exact Z0|]. destruct (existsb _ _); [|exact Z0]. destruct (nth_error (w_heap w) l0) as [[]|]; exact Z0.
    + cbn. unfold at_dict. cbn. split; [exact A1|]. split; [exact A2|]. split; [|auto]. intros [X|X]; [congruence|auto].
  - destruct o; try exact Z0.
    + cbn [on_data]. destruct o; [destruct (proxied w j) as [[[? ?] []]|]; exact Z0|]. destruct (existsb _ _); [|exact Z0]. destruct (nth_error (w_heap w) l0) as [[]|]; exact Z0.
    + cbn. unfold at_dict. cbn. split; [exact A1|]. split; [exact A2|]. split; [|auto]. intros [X|X]; [congruence|auto].
    + cbn [on_data]. destruct (kget f m'); [|exact Z0]. destruct (ann c f) as [ok|]; [|exact Z0]. destruct (ok v); [|exact Z0]. cbn [fst].
      unfold at_dict. destruct (rec_one_rest s' f v (with_heap w (upd l' (OData c (kset f v m')) (w_heap w)))) as (R1 & R2 & R3 & R4). rewrite R1, R2, R3, R4.
      rewrite rec_one_other by exact NS. cbn. rewrite upd_ne by auto. auto.
Qed.
Lemma user_off w s l m h t l' o' : at_dict s l m h t w -> In l' (w_held w) -> at_dict s l m h t (with_heap w (upd l' o' (w_heap w))).
Proof.
  intros (A1 & A2 & A3 & A4 & A5) H. unfold at_dict. cbn. rewrite upd_ne by (intros ->; contradiction). auto.
Qed.
Lemma alloc_off w s l m h t o : Inv w -> at_dict s l m h t w -> at_dict s l m h t (hold (alloc w o) (List.length (w_heap w))).
Proof.
  intros I (A1 & A2 & A3 & A4 & A5). unfold at_dict. cbn. split; [exact A1|]. split; [apply nth_snoc_some; exact A2|]. split; [|auto].
  intros [X|X]; [|auto]. apply nth_lt in A2. lia.
Qed.
Lemma give_off w s l m h t s' l' : Inv w -> at_dict s l m h t w -> at_dict s l m h t (fst (give dec typ typc s' l' w)).
Proof.
  intros I (A1 & A2 & A3 & A4 & A5). assert (Z0 : at_dict s l m h t w) by (unfold at_dict; auto).
  unfold give. destruct (nget s' (w_slot w)) eqn:N; [exact Z0|]. assert (NS : s' <> s) by congruence.
  assert (NB : Nat.eqb s' s = false) by (apply Nat.eqb_neq; exact NS).
  destruct (nth_error (w_heap w) l') as [ob|]; [|exact Z0]. destruct (d_data (dec s')).
  - destruct (typc s' _); [|exact Z0].
    assert (Z1 : at_dict s l m h t (set_slot w s' l')) by (unfold at_dict; cbn; rewrite nget_nput, NB; auto).
    destruct ob as [m1|c m1]; cbn; [destruct (d_rec (dec s')); exact Z1|]. destruct Z1 as (Y1 & Y2 & Y3 & Y4 & Y5).
    unfold at_dict. destruct (rec_all_rest s' m1 (set_slot w s' l')) as (R1 & R2 & R3 & R4). rewrite R1, R2, R3, R4. rewrite rec_all_other by exact NS. auto.
  - assert (Z1 : forall o, at_dict s l m h t (set_slot (alloc w o) s' (List.length (w_heap w)))).
    { intro o. unfold at_dict. cbn. rewrite nget_nput, NB. split; [exact A1|]. split; [apply nth_snoc_some; exact A2|auto]. }
    destruct ob as [m1|c m1]; [|apply Z1]. destruct (dict_fill Z (typ s') m1 []) as [m2 []]; cbn; [|apply Z1].
    destruct (Z1 (ODict m2)) as (Y1 & Y2 & Y3 & Y4 & Y5).
    unfold at_dict. destruct (rec_all_rest s' m2 (set_slot (alloc w (ODict m2)) s' (List.length (w_heap w)))) as (R1 & R2 & R3 & R4). rewrite R1, R2, R3, R4. rewrite rec_all_other by exact NS. auto.
Qed.
(** A step that is not through a proxy of [s] *)
Lemma step_off w s l m h t o : Inv w -> d_data (dec s) = false -> at_dict s l m h t w -> (forall i, via o = Some i -> slot_of w i <> Some s) -> 
  at_dict s l m h (w_now (fst (step w o))) (fst (step w o)).
Proof.
  intros I D A V. assert (TI : forall i oo, w_now (fst (through dec typ ann i oo w)) = w_now w).
  { intros i oo. unfold through. destruct (proxied w i) as [[[s' l'] [m'|c m']]|]; [| |reflexivity].
    - destruct oo; try reflexivity; cbn [on_dict].
      + unfold setitem. destruct (typ s' v); cbn; [rewrite (proj2 (proj2 (proj2 (rec_one_rest _ _ _ _))))|]; reflexivity.
      + destruct (kget k m'); [reflexivity|]. unfold setitem. destruct (typ s' v); cbn; [rewrite (proj2 (proj2 (proj2 (rec_one_rest _ _ _ _))))|]; reflexivity.
      + destruct o0; [destruct (nth_error (w_prox w) j); reflexivity|]. destruct (existsb _ _); [|reflexivity]. destruct (nth_error (w_heap w) l0) as [[]|]; reflexivity.
    - destruct oo; try reflexivity; cbn [on_data].
      + destruct o0; [destruct (proxied w j) as [[[? ?] []]|]; reflexivity|]. destruct (existsb _ _); [|reflexivity]. destruct (nth_error (w_heap w) l0) as [[]|]; reflexivity.
      + destruct (kget f m'); [|reflexivity]. destruct (ann c f) as [ok|]; [|reflexivity]. destruct (ok v); [|reflexivity]. cbn. rewrite (proj2 (proj2 (proj2 (rec_one_rest _ _ _ _)))). reflexivity. }
  assert (T : w_now w = t) by apply A.
  destruct o; cbn [ProxyModel.step]; try (rewrite TI, T; apply through_off; [exact I|exact D|exact A|apply V; reflexivity]).
  - cbn [fst]. replace (w_now _) with t by (cbn; congruence). apply alloc_off; assumption.
  - cbn [fst]. replace (w_now _) with t by (cbn; congruence). apply alloc_off; assumption.
  - destruct (mine l0 w) as [ob|]; [|cbn [fst]; rewrite T; exact A]. pose proof (give_off w s l m h t s0 l0 I A) as G. rewrite (proj2 (proj2 (proj2 (proj2 G)))). exact G.
  - unfold look. destruct (nget s0 (w_slot w)) as [l'|]; [|cbn; rewrite T; exact A].
    destruct A as (A1 & A2 & A3 & A4 & A5). destruct (d_data (dec s0)), (nth_error (w_heap w) l') as [[]|]; unfold at_dict; cbn; auto.
  - destruct (mine l0 w) as [[]|] eqn:M; try (cbn; rewrite T; exact A). apply mine_some in M. cbn [fst]. replace (w_now _) with t by (cbn; congruence). apply user_off; [exact A|apply M].
  - destruct (mine l0 w) as [[]|] eqn:M; try (cbn; rewrite T; exact A). apply mine_some in M. destruct (kget k m0); cbn [fst]; [|rewrite T; exact A]. replace (w_now _) with t by (cbn; congruence). apply user_off; [exact A|apply M].
  - destruct (mine l0 w) as [[]|] eqn:M; try (cbn; rewrite T; exact A). apply mine_some in M. destruct (kget f m0); cbn [fst]; [|rewrite T; exact A]. replace (w_now _) with t by (cbn; congruence). apply user_off; [exact A|apply M].
  - destruct (Qleb (w_now w) t0); [|cbn; rewrite T; exact A]. destruct A as (A1 & A2 & A3 & A4 & A5). unfold at_dict. cbn. auto.
Qed.

(** ** Runs *)
Lemma kvrun_cat ty d os1 : forall x os2, fst (kvrun Z Z.eqb ty d x (os1 ++ os2)) = fst (kvrun Z Z.eqb ty d (fst (kvrun Z Z.eqb ty d x os1)) os2).
Proof.
  induction os1 as [|o os1 IH]; intros x os2; [reflexivity|]. cbn. destruct (kvstep Z Z.eqb ty d x o) as [x1 r]. specialize (IH x1 os2).
  destruct (kvrun Z Z.eqb ty d x1 (os1 ++ os2)), (kvrun Z Z.eqb ty d x1 os1). cbn in *. exact IH.
Qed.
Lemma via_step w o i : via o = Some i -> step w o = through dec typ ann i o w.
Proof. destruct o; cbn; try discriminate; intro H; injection H as <-; reflexivity. Qed.
Lemma through_none w i o : nth_error (w_prox w) i = None -> through dec typ ann i o w = (w, Illegal).
Proof. intro N. unfold through, proxied. rewrite N. reflexivity. Qed.
Lemma of_slot_illegal w s o : of_slot w s (o, Illegal) = false.
Proof. reflexivity. Qed.
Lemma tick_now w o : w_now (fst (step w o)) = w_now w \/ exists t, o = Tick t /\ snd (step w o) = Done /\ w_now (fst (step w o)) = t /\ Qleb (w_now w) t = true.
Proof.
  destruct o as [| |s l|s|i k v|i k v|i k|i k|i|i|i|i o|i|i f|i f v|l k v|l k|l f v|t]; cbn [ProxyModel.step]; try (left; reflexivity);
    try (left; unfold through; destruct (proxied w i) as [[[s' l'] [m'|c m']]|]; try reflexivity; cbn [on_dict on_data]).
  - left. destruct (mine l w); [|reflexivity]. unfold give. destruct (nget s (w_slot w)); [reflexivity|]. destruct (nth_error (w_heap w) l) as [ob|]; [|reflexivity].
    destruct (d_data (dec s)); [destruct (typc s _); [|reflexivity]; destruct ob; cbn; [destruct (d_rec (dec s)); reflexivity|rewrite (proj2 (proj2 (proj2 (rec_all_rest _ _ _)))); reflexivity]|].
    destruct ob; [|reflexivity]. destruct (dict_fill Z (typ s) m []) as [m' []]; cbn; [rewrite (proj2 (proj2 (proj2 (rec_all_rest _ _ _))))|]; reflexivity.
  - left. unfold look. destruct (nget s (w_slot w)) as [l|]; [|reflexivity]. destruct (d_data (dec s)), (nth_error (w_heap w) l) as [[]|]; reflexivity.
  - unfold setitem. destruct (typ s' v); cbn; [rewrite (proj2 (proj2 (proj2 (rec_one_rest _ _ _ _))))|]; reflexivity.
  - destruct (kget k m'); [reflexivity|]. unfold setitem. destruct (typ s' v); cbn; [rewrite (proj2 (proj2 (proj2 (rec_one_rest _ _ _ _))))|]; reflexivity.
  - destruct o; [destruct (nth_error (w_prox w) j); reflexivity|]. destruct (existsb _ _); [|reflexivity]. destruct (nth_error (w_heap w) l) as [[]|]; reflexivity.
  - destruct o; [destruct (proxied w j) as [[[? ?] []]|]; reflexivity|]. destruct (existsb _ _); [|reflexivity]. destruct (nth_error (w_heap w) l) as [[]|]; reflexivity.
  - destruct (kget f m'); [|reflexivity]. destruct (ann c f) as [ok|]; [|reflexivity]. destruct (ok v); [|reflexivity]. cbn. rewrite (proj2 (proj2 (proj2 (rec_one_rest _ _ _ _)))). reflexivity.
  - left. destruct (mine l w) as [[]|]; reflexivity.
  - left. destruct (mine l w) as [[]|]; try reflexivity. destruct (kget k m); reflexivity.
  - left. destruct (mine l w) as [[]|]; try reflexivity. destruct (kget f m); reflexivity.
  - destruct (Qleb (w_now w) t) eqn:Q; [right; exists t; auto|left; reflexivity].
Qed.
Lemma step_dict w wf s l m h t o : Inv w -> longer (fst (step w o)) wf -> d_data (dec s) = false -> at_dict s l m h t w ->
  (forall i, o = PRaw i -> slot_of wf i <> Some s) ->
  exists m' h' t', at_dict s l m' h' t' (fst (step w o)) /\
    (if of_slot wf s (o, snd (step w o)) then pd_same (pd m') (fst (pd_step (typ s) (pd m) o)) /\ snd (step w o) = snd (pd_step (typ s) (pd m) o) else m' = m) /\
    fst (kvrun1 s (mkKV t (Some m) h) (as_kv wf s (o, snd (step w o)))) = mkKV t' (Some m') h'.
Proof.
  intros I L D A NR. assert (LW : longer w wf) by (eapply longer_trans; [apply step_longer|exact L]).
  assert (OFF : (forall i, via o = Some i -> slot_of w i <> Some s) ->
     exists m' h' t', at_dict s l m' h' t' (fst (step w o)) /\
      (if of_slot wf s (o, snd (step w o)) then pd_same (pd m') (fst (pd_step (typ s) (pd m) o)) /\ snd (step w o) = snd (pd_step (typ s) (pd m) o) else m' = m) /\
      fst (kvrun1 s (mkKV t (Some m) h) (as_kv wf s (o, snd (step w o)))) = mkKV t' (Some m') h').
  { intro V. exists m, h, (w_now (fst (step w o))). split; [eapply step_off; eassumption|].
    assert (F : of_slot wf s (o, snd (step w o)) = false).
    { unfold of_slot. cbn [fst snd]. destruct (via o) as [i|] eqn:Vi; [|apply andb_false_r].
      destruct (slot_of w i) as [s'|] eqn:Si.
      - rewrite (longer_slot _ _ _ _ LW Si). assert (N : s' <> s) by (intros ->; apply (V i eq_refl), Si). apply Nat.eqb_neq in N. rewrite N. apply andb_false_r.
      - rewrite (via_step _ _ _ Vi), through_none; [reflexivity|]. unfold slot_of in Si. destruct (nth_error (w_prox w) i); [discriminate|reflexivity]. }
    rewrite F. split; [reflexivity|].
    destruct (tick_now w o) as [E|(t1 & -> & R & E & Q)].
    - rewrite E. destruct A as (_ & _ & _ & _ & A5). rewrite A5. destruct o; try reflexivity.
      + unfold as_kv. rewrite F. reflexivity.
      + unfold as_kv. rewrite F. reflexivity.
      + cbn [ProxyModel.step] in *. destruct (Qleb (w_now w) t0) eqn:Q; [|reflexivity]. cbn [fst snd as_kv]. cbn. rewrite A5 in Q. rewrite Q.
        cbn in E. rewrite E in *. rewrite A5. reflexivity.
    - rewrite R, E. destruct A as (_ & _ & _ & _ & A5). rewrite A5 in Q. cbn. rewrite Q. reflexivity. }
  destruct (via o) as [i|] eqn:Vi; [|apply OFF; intros; discriminate].
  destruct (slot_of w i) as [s'|] eqn:Si; [|apply OFF; intros j J; injection J as <-; congruence].
  destruct (Nat.eq_dec s' s) as [->|N]; [|apply OFF; intros j J; injection J as <-; congruence].
  clear OFF. pose proof Si as Si'. unfold slot_of in Si'. destruct (nth_error (w_prox w) i) as [[sx lx]|] eqn:P; [|discriminate]. injection Si' as ->.
  assert (lx = l) by (pose proof (i_prox _ I _ _ _ P); destruct A as (A1 & _); congruence). subst lx.
  rewrite (via_step _ _ _ Vi). rewrite (via_step _ _ _ Vi) in L.
  destruct (through_on w s l m h t i o I D A P Vi) as (m' & A' & E1 & E2 & E3).
  { intros j ->. injection Vi as ->. apply (NR i eq_refl). eapply longer_slot; eassumption. }
  exists m', (hist (fst (through dec typ ann i o w)) s), t. split; [exact A'|].
  pose proof (longer_slot _ _ _ _ LW Si) as Sf.
  destruct (illegal (snd (through dec typ ann i o w))) eqn:IL.
  { assert (SI : snd (through dec typ ann i o w) = Illegal) by (destruct (snd (through dec typ ann i o w)); try discriminate; reflexivity).
    rewrite SI, of_slot_illegal. destruct (is_eq o) eqn:EQ.
    - split; [apply E2; reflexivity|]. rewrite E3. destruct o; try discriminate. reflexivity.
    - destruct (E1 eq_refl) as [_ R]. rewrite SI in R. destruct o; cbn in R; try discriminate.
      + destruct (typ s v); discriminate.
      + destruct (kget k m); [discriminate|]. cbn in R. destruct (typ s v); discriminate.
      + destruct (kget k m); discriminate.
      + injection Vi as ->. elim (NR i eq_refl Sf).
      + pose proof E3 as X. cbn in X. injection X as X _. split; [exact X|symmetry; exact E3].
      + pose proof E3 as X. cbn in X. injection X as X _. split; [exact X|symmetry; exact E3]. }
  assert (OF : of_slot wf s (o, snd (through dec typ ann i o w)) = negb (is_eq o)).
  { unfold of_slot. cbn [fst snd]. rewrite Vi, Sf, Nat.eqb_refl, IL. cbn. rewrite andb_true_r. reflexivity. }
  rewrite OF. split; [destruct (is_eq o) eqn:EQ; cbn; auto|].
  rewrite E3. destruct o; try reflexivity; try discriminate; unfold as_kv; rewrite OF; reflexivity.
Qed.
Lemma run_dict os : forall w w' tr s l m h t, Inv w -> run w os = (w', tr) -> d_data (dec s) = false -> at_dict s l m h t w -> no_raw w' s tr ->
  exists m' h' t', at_dict s l m' h' t' w' /\
    pd_same (pd m') (fst (pd_run (typ s) (pd m) (map fst (ops_of w' s tr)))) /\
    map snd (ops_of w' s tr) = snd (pd_run (typ s) (pd m) (map fst (ops_of w' s tr))) /\
    fst (kvrun1 s (mkKV t (Some m) h) (flat_map (as_kv w' s) tr)) = mkKV t' (Some m') h'.
Proof.
  induction os as [|o os IH]; intros w w' tr s l m h t I R D A NR.
  - cbn in R. injection R as <- <-. exists m, h, t. split; [exact A|]. split; [apply pd_same_refl|]. split; reflexivity.
  - cbn in R. pose proof (inv_step w o I) as J. pose proof (run_longer os (fst (step w o))) as LG.
    pose proof (step_dict w w' s l m h t o I) as SD. destruct (step w o) as [w1 r]. cbn [fst snd] in *.
    destruct (run w1 os) as [w2 tr2] eqn:R2. cbn in LG. injection R as <- <-.
    destruct (SD LG D A) as (m1 & h1 & t1 & A1 & P1 & K1).
    { intros i ->. apply (NR i r). left. reflexivity. }
    destruct (IH w1 w2 tr2 s l m1 h1 t1 J R2 D A1) as (m2 & h2 & t2 & A2 & P2 & Q2 & K2).
    { intros i x X. apply (NR i x). right. exact X. }
    exists m2, h2, t2. split; [exact A2|]. unfold ops_of in *. cbn [filter flat_map]. 
    rewrite kvrun_cat, K1. destruct (of_slot w2 s (o, r)).
    + destruct P1 as [P1 ->]. cbn [map fst snd pd_run]. destruct (pd_step (typ s) (pd m) o) as [p1 r1]. cbn [fst snd] in *.
      destruct (pd_run_same (typ s) (map fst (filter (of_slot w2 s) tr2)) _ _ P1) as [S1 S2].
      destruct (pd_run (typ s) p1 (map fst (filter (of_slot w2 s) tr2))) as [pa ra]. cbn [fst snd] in *.
      split; [eapply pd_same_trans; eassumption|]. split; [congruence|exact K2].
    + subst m1. auto.
Qed.

(** ** Frames *)
Lemma heap_frame w o l ob : Inv w -> nth_error (w_heap w) l = Some ob -> (forall s, writes_to w s o -> nget s (w_slot w) <> Some l) -> ~ user_writes o l ->
  nth_error (w_heap (fst (step w o))) l = Some ob.
Proof.
  intros I O W U.
  assert (PW : forall i s l', nth_error (w_prox w) i = Some (s, l') -> writes_to w s o -> l <> l').
  { intros i s l' P X ->. apply (W s X). exact (i_prox _ I _ _ _ P). }
  assert (SL : forall i s l', nth_error (w_prox w) i = Some (s, l') -> slot_of w i = Some s) by (intros i s l' P; unfold slot_of; rewrite P; reflexivity).
  destruct o as [| |s l'|s|i k v|i k v|i k|i k|i|i|i|i o|i|i f|i f v|l' k v|l' k|l' f v|t]; cbn [ProxyModel.step];
    try (unfold through; destruct (proxied w i) as [[[s' l'] [m'|c m']]|] eqn:P; try exact O; apply proxied_some in P; destruct P as [P1 P2]; cbn [on_dict on_data]; try exact O).
  - cbn. apply nth_snoc_some, O.
  - cbn. apply nth_snoc_some, O.
  - destruct (mine l' w); [|exact O]. unfold give. destruct (nget s (w_slot w)); [exact O|]. destruct (nth_error (w_heap w) l') as [ob'|]; [|exact O].
    destruct (d_data (dec s)); [destruct (typc s _); [|exact O]; destruct ob'; cbn; [destruct (d_rec (dec s)); exact O|rewrite (proj1 (rec_all_rest _ _ _)); exact O]|].
    destruct ob'; [|cbn; apply nth_snoc_some, O]. destruct (dict_fill Z (typ s) m []) as [m' []]; cbn; [rewrite (proj1 (rec_all_rest _ _ _))|]; cbn; apply nth_snoc_some, O.
  - unfold look. destruct (nget s (w_slot w)) as [l'|]; [|exact O]. destruct (d_data (dec s)), (nth_error (w_heap w) l') as [[]|]; exact O.
  - unfold setitem. assert (l <> l') by (eapply PW; [exact P1|exact (SL _ _ _ P1)]). destruct (typ s' v); cbn; [rewrite (proj1 (rec_one_rest _ _ _ _)); cbn|]; rewrite upd_ne by assumption; exact O.
  - destruct (kget k m'); [exact O|]. unfold setitem. assert (l <> l') by (eapply PW; [exact P1|exact (SL _ _ _ P1)]). destruct (typ s' v); cbn; [rewrite (proj1 (rec_one_rest _ _ _ _)); cbn|]; rewrite upd_ne by assumption; exact O.
  - destruct o; [destruct (nth_error (w_prox w) j); exact O|]. destruct (existsb _ _); [|exact O]. destruct (nth_error (w_heap w) l0) as [[]|]; exact O.
  - destruct o; [destruct (proxied w j) as [[[? ?] []]|]; exact O|]. destruct (existsb _ _); [|exact O]. destruct (nth_error (w_heap w) l0) as [[]|]; exact O.
  - destruct (kget f m'); [|exact O]. destruct (ann c f) as [ok|]; [|exact O]. destruct (ok v); [|exact O]. cbn. rewrite (proj1 (rec_one_rest _ _ _ _)). cbn. rewrite upd_ne; [exact O|]. eapply PW; [exact P1|exact (SL _ _ _ P1)].
  - destruct (mine l' w) as [[]|]; try exact O. cbn. rewrite upd_ne; [exact O|]. intros ->. apply U. reflexivity.
  - destruct (mine l' w) as [[]|]; try exact O. destruct (kget k m); [|exact O]. cbn. rewrite upd_ne; [exact O|]. intros ->. apply U. reflexivity.
  - destruct (mine l' w) as [[]|]; try exact O. destruct (kget f m); [|exact O]. cbn. rewrite upd_ne; [exact O|]. intros ->. apply U. reflexivity.
  - destruct (Qleb (w_now w) t); exact O.
Qed.
Lemma hist_frame w o s : ~ writes_to w s o -> (forall l, o <> Give s l) -> hist (fst (step w o)) s = hist w s.
Proof.
  intros W G.
  assert (SL : forall i s l', nth_error (w_prox w) i = Some (s, l') -> slot_of w i = Some s) by (intros i s1 l' P; unfold slot_of; rewrite P; reflexivity).
  destruct o as [| |s0 l'|s0|i k v|i k v|i k|i k|i|i|i|i o|i|i f|i f v|l' k v|l' k|l' f v|t]; cbn [ProxyModel.step]; try reflexivity;
    try (unfold through; destruct (proxied w i) as [[[s' l'] [m'|c m']]|] eqn:P; try reflexivity; apply proxied_some in P; destruct P as [P1 P2]; cbn [on_dict on_data]; try reflexivity).
  - destruct (mine l' w); [|reflexivity]. assert (N : s0 <> s) by (intros ->; apply (G l'); reflexivity).
    unfold give. destruct (nget s0 (w_slot w)); [reflexivity|]. destruct (nth_error (w_heap w) l') as [ob'|]; [|reflexivity].
    destruct (d_data (dec s0)); [destruct (typc s0 _); [|reflexivity]; destruct ob'; cbn; [destruct (d_rec (dec s0)); reflexivity|rewrite rec_all_other by exact N; reflexivity]|].
    destruct ob'; [|reflexivity]. destruct (dict_fill Z (typ s0) m []) as [m' []]; cbn; [rewrite rec_all_other by exact N|]; reflexivity.
  - unfold look. destruct (nget s0 (w_slot w)) as [l'|]; [|reflexivity]. destruct (d_data (dec s0)), (nth_error (w_heap w) l') as [[]|]; reflexivity.
  - unfold setitem. assert (s' <> s) by (intros ->; apply W; exact (SL _ _ _ P1)). destruct (typ s' v); cbn; [rewrite rec_one_other by assumption|]; reflexivity.
  - destruct (kget k m'); [reflexivity|]. unfold setitem. assert (s' <> s) by (intros ->; apply W; exact (SL _ _ _ P1)). destruct (typ s' v); cbn; [rewrite rec_one_other by assumption|]; reflexivity.
  - destruct o; [destruct (nth_error (w_prox w) j); reflexivity|]. destruct (existsb _ _); [|reflexivity]. destruct (nth_error (w_heap w) l) as [[]|]; reflexivity.
  - destruct o; [destruct (proxied w j) as [[[? ?] []]|]; reflexivity|]. destruct (existsb _ _); [|reflexivity]. destruct (nth_error (w_heap w) l) as [[]|]; reflexivity.
  - destruct (kget f m'); [|reflexivity]. destruct (ann c f) as [ok|]; [|reflexivity]. destruct (ok v); [|reflexivity]. cbn. rewrite rec_one_other; [reflexivity|]. intros ->; apply W; exact (SL _ _ _ P1).
  - destruct (mine l' w) as [[]|]; reflexivity.
  - destruct (mine l' w) as [[]|]; try reflexivity. destruct (kget k m); reflexivity.
  - destruct (mine l' w) as [[]|]; try reflexivity. destruct (kget f m); reflexivity.
  - destruct (Qleb (w_now w) t); reflexivity.
Qed.
Lemma slot_kept w o s l : nget s (w_slot w) = Some l -> nget s (w_slot (fst (step w o))) = Some l.
Proof.
  intro S. destruct o as [| |s0 l'|s0|i k v|i k v|i k|i k|i|i|i|i o|i|i f|i f v|l' k v|l' k|l' f v|t]; cbn [ProxyModel.step]; try exact S;
    try (unfold through; destruct (proxied w i) as [[[s' l'] [m'|c m']]|] eqn:P; try exact S; cbn [on_dict on_data]; try exact S).
  - destruct (mine l' w); [|exact S]. unfold give. destruct (nget s0 (w_slot w)) eqn:N; [exact S|]. destruct (nth_error (w_heap w) l') as [ob'|]; [|exact S].
    assert (NB : Nat.eqb s0 s = false) by (apply Nat.eqb_neq; congruence).
    destruct (d_data (dec s0)); [destruct (typc s0 _); [|exact S]; destruct ob'; cbn; [destruct (d_rec (dec s0)); cbn; rewrite nget_nput, NB; exact S|rewrite (proj1 (proj2 (rec_all_rest _ _ _))); cbn; rewrite nget_nput, NB; exact S]|].
    destruct ob'; [|cbn; rewrite nget_nput, NB; exact S]. destruct (dict_fill Z (typ s0) m []) as [m' []]; cbn; [rewrite (proj1 (proj2 (rec_all_rest _ _ _)))|]; cbn; rewrite nget_nput, NB; exact S.
  - unfold look. destruct (nget s0 (w_slot w)) as [l'|]; [|exact S]. destruct (d_data (dec s0)), (nth_error (w_heap w) l') as [[]|]; exact S.
  - unfold setitem. destruct (typ s' v); cbn; [rewrite (proj1 (proj2 (rec_one_rest _ _ _ _)))|]; exact S.
  - destruct (kget k m'); [exact S|]. unfold setitem. destruct (typ s' v); cbn; [rewrite (proj1 (proj2 (rec_one_rest _ _ _ _)))|]; exact S.
  - destruct o; [destruct (nth_error (w_prox w) j); exact S|]. destruct (existsb _ _); [|exact S]. destruct (nth_error (w_heap w) l0) as [[]|]; exact S.
  - destruct o; [destruct (proxied w j) as [[[? ?] []]|]; exact S|]. destruct (existsb _ _); [|exact S]. destruct (nth_error (w_heap w) l0) as [[]|]; exact S.
  - destruct (kget f m'); [|exact S]. destruct (ann c f) as [ok|]; [|exact S]. destruct (ok v); [|exact S]. cbn. rewrite (proj1 (proj2 (rec_one_rest _ _ _ _))). exact S.
  - destruct (mine l' w) as [[]|]; exact S.
  - destruct (mine l' w) as [[]|]; try exact S. destruct (kget k m); exact S.
  - destruct (mine l' w) as [[]|]; try exact S. destruct (kget f m); exact S.
  - destruct (Qleb (w_now w) t); exact S.
Qed.

(** ** Equality *)
Lemma kget_in k v (m : list (key * Z)) : NoDup (map fst m) -> (In (k, v) m <-> kget k m = Some v).
Proof.
  induction m as [|[j y] m IH]; cbn; intro N; [split; [contradiction|discriminate]|]. inversion N as [|x l NI NR]; subst.
  destruct (Z.eqb_spec j k) as [->|J].
  - split; [intros [H|H]; [congruence|]|intro H; left; congruence]. exfalso. apply NI. apply in_map_iff. exists (k, v). auto.
  - rewrite <- IH by exact NR. split; [intros [H|H]; [congruence|exact H]|tauto].
Qed.
Lemma dict_eq_iff a b : NoDup (map fst a) -> NoDup (map fst b) -> (dict_eq a b = true <-> forall k, kget k a = kget k b).
Proof.
  intros Na Nb. unfold dict_eq. rewrite andb_true_iff, Nat.eqb_eq, forallb_forall. split.
  - intros [L F] k.
    assert (IA : incl (map fst a) (map fst b)).
    { intros x X. apply in_map_iff in X. destruct X as ([k0 v0] & <- & X). specialize (F _ X). cbn in F. cbn. destruct (kget k0 b) eqn:G; [|discriminate].
      apply kget_in in G; [|exact Nb]. apply in_map_iff. exists (k0, z). auto. }
    destruct (kget k a) as [v|] eqn:G.
    + apply kget_in in G; [|exact Na]. specialize (F _ G). cbn in F. destruct (kget k b); [|discriminate]. apply Z.eqb_eq in F. congruence.
    + symmetry. apply kget_notin. intro X.
      assert (IB : incl (map fst b) (map fst a)) by (apply NoDup_length_incl; [exact Na|rewrite !map_length; lia|exact IA]).
      apply IB in X. apply in_map_iff in X. destruct X as ([k0 v0] & <- & X). apply kget_in in X; [|exact Na]. cbn in G. congruence.
  - intro E. assert (I : forall c d : list (key * Z), NoDup (map fst c) -> NoDup (map fst d) -> (forall k, kget k c = kget k d) -> incl (map fst c) (map fst d)).
    { intros c d Nc Nd Q x X. apply in_map_iff in X. destruct X as ([k0 v0] & <- & X). apply kget_in in X; [|exact Nc]. rewrite Q in X. apply kget_in in X; [|exact Nd].
      apply in_map_iff. exists (k0, v0). auto. }
    split.
    + rewrite <- (map_length fst a), <- (map_length fst b). apply Nat.le_antisymm; apply NoDup_incl_length; auto.
    + intros [k v] X. apply kget_in in X; [|exact Na]. cbn. rewrite <- E, X. apply Z.eqb_refl.
Qed.
Lemma fields_eq_iff a : forall b, map fst a = map fst b -> (fields_eq a b = true <-> a = b).
Proof.
  induction a as [|[k x] a IH]; intros [|[j y] b] E; cbn in *; try discriminate; [tauto|]. injection E as -> E.
  rewrite andb_true_iff, Z.eqb_eq, (IH b E). split; [intros [-> ->]; reflexivity|intro H; injection H as -> ->; auto].
Qed.

End Inv.
