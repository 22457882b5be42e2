(** Properties C116 and C117: what the proxies of dictionary and dataclass states show. *)
From Verif Require Import Common StateModel ProxyModel ProxySpec ProxyProofs.

Section ProxyProps.
Variable dec : nat -> decl.
Variable typ : nat -> Z -> bool.
Variable typc : nat -> option nat -> bool.
Variable ann : nat -> key -> option (Z -> bool).
Notation step := (step dec typ typc ann).
Notation run := (run dec typ typc ann).
Notation reach := (reach dec typ typc ann).

(** C116.  A dictionary state is made with a dictionary of its own, holding what was
    given in the same order, that the user has no reference to; or TypeError. *)
Theorem C116_given : forall w s l m, reach w -> d_data (dec s) = false -> nget s (w_slot w) = None ->
  In l (w_held w) -> nth_error (w_heap w) l = Some (ODict m) ->
  let '(w', r) := step w (Give s l) in
  ((forall k v, kget k m = Some v -> typ s v = true) ->
     r = Done /\ object w' s = Some (ODict m) /\ kept_private w' s /\ nth_error (w_heap w') l = Some (ODict m) /\
     forall k v, d_rec (dec s) = true -> kget k m = Some v -> kget k (hist w s) = None -> kget k (hist w' s) = Some [(w_now w, v)]) /\
  ((exists k v, kget k m = Some v /\ typ s v = false) -> r = TypeErr).
Proof.
  intros w s l m R D N H O. apply inv_reach in R. pose proof (i_good _ _ R _ _ O) as ND. cbn in ND.
  cbn [ProxyModel.step]. unfold mine. rewrite (proj2 (existsb_exists (Nat.eqb l) (w_held w))) by (exists l; split; [exact H|apply Nat.eqb_refl]).
  rewrite O. unfold give. rewrite N, O, D. destruct (forallb (fun kv => typ s (snd kv)) m) eqn:F.
  - rewrite (fill_same _ _ ND F). cbn [fst snd]. split.
    + intros _. split; [reflexivity|].
      destruct (rec_all_rest dec s m (set_slot (alloc w (ODict m)) s (List.length (w_heap w)))) as (R1 & R2 & R3 & R4).
      unfold object, kept_private. rewrite R1, R2, R3. cbn. rewrite nget_nput, Nat.eqb_refl. rewrite nth_snoc, Nat.eqb_refl.
      split; [reflexivity|]. split; [intros l' E; injection E as <-; intro X; apply (i_held _ _ R) in X; lia|].
      split; [apply nth_snoc_some; exact O|]. intros k v Rc K Hk. unfold rec_all. rewrite Rc, hist_new.
      assert (G : forall l0 h, NoDup (map fst l0) -> kget k l0 = Some v -> kget k h = None -> kget k (record_all Z Z.eqb (w_now w) l0 h) = Some [(w_now w, v)]).
      { clear. induction l0 as [|[j y] l0 IH]; intros h Nd K Hk; [discriminate|]. cbn in *. inversion Nd as [|x xs NI NR]; subst.
        destruct (Z.eqb_spec j k) as [->|J].
        - injection K as ->. assert (Q : forall l1 h1, ~ In k (map fst l1) -> kget k (record_all Z Z.eqb (w_now w) l1 h1) = kget k h1).
          { clear. induction l1 as [|[a b] l1 IH]; intros h1 NI; [reflexivity|]. cbn in *. rewrite IH by tauto. unfold record_single.
            destruct (kget a h1); rewrite StateProofs.kget_kset; destruct (Z.eqb_spec a k); try reflexivity; subst; exfalso; apply NI; left; reflexivity. }
          rewrite Q by exact NI. unfold record_single. rewrite Hk, StateProofs.kget_kset, Z.eqb_refl. reflexivity.
        - apply IH; [exact NR|exact K|]. unfold record_single. destruct (kget j h); rewrite StateProofs.kget_kset; destruct (Z.eqb_spec j k); try contradiction; exact Hk. }
      apply G; [exact ND|exact K|exact Hk].
    + intros (k & v & K & T). exfalso. rewrite forallb_forall in F. specialize (F (k, v)). cbn in F. rewrite F in T; [discriminate|]. apply kget_in; assumption.
  - pose proof (fill_fails _ _ F []) as X. destruct (dict_fill Z (typ s) m []) as [m' ok]. cbn in X. subst ok. split; [|reflexivity].
    intro T. exfalso. apply Bool.not_true_iff_false in F. apply F. apply forallb_forall. intros [k v] I. apply kget_in in I; [|exact ND]. exact (T k v I).
Qed.

(** C116.  From then on, through any number of proxies, whatever else the program does:
    the answers are those of a plain dictionary, to the operations in the order in which
    they were made, and so are the contents, as long as raw_object is not asked for. *)
Theorem C116_dictionary : forall w s m, reach w -> d_data (dec s) = false -> object w s = Some (ODict m) -> kept_private w s ->
  forall os w' tr, run w os = (w', tr) -> no_raw w' s tr ->
  exists m', object w' s = Some (ODict m') /\ kept_private w' s /\
    pd_same (pd m') (fst (pd_run (typ s) (pd m) (map fst (ops_of w' s tr)))) /\
    map snd (ops_of w' s tr) = snd (pd_run (typ s) (pd m) (map fst (ops_of w' s tr))).
Proof.
  intros w s m R D O P os w' tr X NR. apply inv_reach in R. unfold object in O. destruct (nget s (w_slot w)) as [l|] eqn:S; [|discriminate].
  destruct (run_dict _ _ _ _ os w w' tr s l m (hist w s) (w_now w) R X D) as (m' & h' & t' & A & B & C & _).
  - unfold at_dict. auto.
  - exact NR.
  - destruct A as (A1 & A2 & A3 & _). exists m'. unfold object, kept_private. rewrite A1. split; [exact A2|]. split; [intros l' E; injection E as <-; exact A3|]. auto.
Qed.
(** C116.  The recorded histories are those of the model of a single state
    (StateModel.v) for the assignments and [setdefault]s made through its proxies, so
    what is proved there (C19, C20) holds here. *)
Theorem C116_history : forall w s m, reach w -> d_data (dec s) = false -> object w s = Some (ODict m) -> kept_private w s ->
  forall os w' tr, run w os = (w', tr) -> no_raw w' s tr ->
  exists m', object w' s = Some (ODict m') /\
    fst (kvrun Z Z.eqb (typ s) (mkKD (d_rec (dec s)) false []) (mkKV (w_now w) (Some m) (hist w s)) (flat_map (as_kv w' s) tr)) =
    mkKV (w_now w') (Some m') (hist w' s).
Proof.
  intros w s m R D O P os w' tr X NR. apply inv_reach in R. unfold object in O. destruct (nget s (w_slot w)) as [l|] eqn:S; [|discriminate].
  destruct (run_dict _ _ _ _ os w w' tr s l m (hist w s) (w_now w) R X D) as (m' & h' & t' & A & B & C & K).
  - unfold at_dict. auto.
  - exact NR.
  - destruct A as (A1 & A2 & A3 & A4 & A5). exists m'. unfold object. rewrite A1. split; [exact A2|]. rewrite A4, A5. exact K.
Qed.
(** C116.  All proxies of a state, however old, show the same. *)
Theorem C116_same : forall w i j s o, reach w -> slot_of w i = Some s -> slot_of w j = Some s ->
  (forall k, snd (step w (PItem i k)) = snd (step w (PItem j k)) /\ snd (step w (PIn i k)) = snd (step w (PIn j k)) /\ snd (step w (PAttr i k)) = snd (step w (PAttr j k))) /\
  snd (step w (PLen i)) = snd (step w (PLen j)) /\ snd (step w (PKeys i)) = snd (step w (PKeys j)) /\ snd (step w (PItems i)) = snd (step w (PItems j)) /\
  snd (step w (PRaw i)) = snd (step w (PRaw j)) /\ snd (step w (PEq i o)) = snd (step w (PEq j o)).
Proof.
  intros w i j s o R A B. apply inv_reach in R. unfold slot_of in A, B.
  destruct (nth_error (w_prox w) i) as [[s1 l1]|] eqn:P1; [|discriminate]. destruct (nth_error (w_prox w) j) as [[s2 l2]|] eqn:P2; [|discriminate].
  injection A as ->. injection B as ->. pose proof (i_prox _ _ R _ _ _ P1) as L1. pose proof (i_prox _ _ R _ _ _ P2) as L2. assert (l2 = l1) by congruence. subst l2.
  cbn [ProxyModel.step]. unfold through.
  assert (E : proxied w i = proxied w j) by (unfold proxied; rewrite P1, P2; reflexivity). rewrite E.
  destruct (proxied w j) as [[[a b] [m|c m]]|]; repeat split; reflexivity.
Qed.
(** C116.  actor.x always gives a proxy of the state, and its operations are all answered. *)
Theorem C116_looked : forall w s m, reach w -> d_data (dec s) = false -> object w s = Some (ODict m) ->
  exists w' i, step w (Look s) = (w', IsProxy i) /\ slot_of w' i = Some s /\ object w' s = Some (ODict m).
Proof.
  intros w s m R D O. unfold object in O. cbn [ProxyModel.step]. unfold look. rewrite D. destruct (nget s (w_slot w)) as [l|] eqn:L; [|discriminate].
  eexists _, _. split; [reflexivity|]. unfold slot_of, object. cbn. rewrite nth_snoc, Nat.eqb_refl, L. auto.
Qed.
Theorem C116_answered : forall w s m i o, reach w -> object w s = Some (ODict m) -> slot_of w i = Some s -> via o = Some i -> is_eq o = false ->
  (forall k v, o <> PAttr i k /\ o <> PSetAttr i k v) -> snd (step w o) <> Illegal.
Proof.
  intros w s m i o R O S V E N. apply inv_reach in R. unfold slot_of in S. destruct (nth_error (w_prox w) i) as [[s1 l]|] eqn:P; [|discriminate]. injection S as ->.
  unfold object in O. rewrite (i_prox _ _ R _ _ _ P) in O. rewrite (via_step dec typ typc ann w o i V). unfold through, proxied. rewrite P, O.
  destruct o; cbn in V, E; try discriminate; injection V as ->; cbn [on_dict snd]; try discriminate.
  - unfold setitem. destruct (typ s v); discriminate.
  - destruct (kget k m); [discriminate|]. unfold setitem. destruct (typ s v); discriminate.
  - destruct (kget k m); discriminate.
  - destruct (N f 0%Z) as [N1 _]. congruence.
  - destruct (N f v) as [_ N1]. congruence.
Qed.
(** C116.  Histories change only by assignments through a proxy of the state, or when it is set. *)
Theorem C116_recorded_only : forall w o s, ~ writes_to w s o -> (forall l, o <> Give s l) -> hist (fst (step w o)) s = hist w s.
Proof. intros. apply hist_frame; assumption. Qed.
(** C116.  Comparing with a dictionary in the user's hands: the same keys and values, in whatever order *)
Theorem C116_equal : forall w i s m l m', reach w -> slot_of w i = Some s -> object w s = Some (ODict m) -> In l (w_held w) -> nth_error (w_heap w) l = Some (ODict m') ->
  exists b, step w (PEq i (OtherRef l)) = (w, IsBool b) /\ (b = true <-> forall k, kget k m = kget k m').
Proof.
  intros w i s m l m' R Sl O H L. apply inv_reach in R. unfold slot_of in Sl. destruct (nth_error (w_prox w) i) as [[s1 l1]|] eqn:P; [|discriminate]. injection Sl as ->.
  pose proof (i_prox _ _ R _ _ _ P) as N. unfold object in O. rewrite N in O.
  exists (dict_eq m' m). split.
  - cbn [ProxyModel.step]. unfold through, proxied. rewrite P, O. cbn [on_dict].
    rewrite (proj2 (existsb_exists (Nat.eqb l) (w_held w))) by (exists l; split; [exact H|apply Nat.eqb_refl]). rewrite L. reflexivity.
  - rewrite dict_eq_iff; [|exact (i_good _ _ R _ _ L)|exact (i_good _ _ R _ _ O)]. split; intros Q k; symmetry; apply Q.
Qed.

(** ** C117 *)
(** The object of a state changes only by assignments through proxies of states with that
    very object, or by the user changing it directly. *)
Theorem C117_only_by_partial : forall w o s ob, reach w -> object w s = Some ob ->
  (forall s', writes_to w s' o -> nget s' (w_slot w) <> nget s (w_slot w)) ->
  (forall l, user_writes o l -> nget s (w_slot w) <> Some l) ->
  object (fst (step w o)) s = Some ob.
Proof.
  intros w o s ob R O W U. apply inv_reach in R. unfold object in *. destruct (nget s (w_slot w)) as [l|] eqn:S; [|discriminate].
  rewrite (slot_kept _ _ _ _ w o s l S). apply heap_frame; [exact R|exact O| |].
  - intros s' X. specialize (W s' X). congruence.
  - intro X. exact (U l X eq_refl).
Qed.
(** Two dataclass states are equal if class and values are. *)
Theorem C117_data_equal_partial : forall w i j s s' c c' m m', reach w -> slot_of w i = Some s -> slot_of w j = Some s' ->
  object w s = Some (OData c m) -> object w s' = Some (OData c' m') -> (c = c' -> map fst m = map fst m') ->
  exists b, step w (PEq i (OtherProxy j)) = (w, IsBool b) /\ (b = true <-> c = c' /\ m = m').
Proof.
  intros w i j s s' c c' m m' R Si Sj Oi Oj F. apply inv_reach in R. unfold slot_of in Si, Sj.
  destruct (nth_error (w_prox w) i) as [[s1 l1]|] eqn:P1; [|discriminate]. destruct (nth_error (w_prox w) j) as [[s2 l2]|] eqn:P2; [|discriminate].
  injection Si as ->. injection Sj as ->. pose proof (i_prox _ _ R _ _ _ P1) as L1. pose proof (i_prox _ _ R _ _ _ P2) as L2.
  unfold object in Oi, Oj. rewrite L1 in Oi. rewrite L2 in Oj.
  exists (Nat.eqb c c' && fields_eq m m'). split.
  - cbn [ProxyModel.step]. unfold through, proxied. rewrite P1, Oi. cbn [on_data]. unfold proxied. rewrite P2, Oj. reflexivity.
  - rewrite andb_true_iff, Nat.eqb_eq. split; intros [A B]; (split; [exact A|]).
    + apply fields_eq_iff in B; auto.
    + apply fields_eq_iff; auto.
Qed.
(** Assigning a field through a proxy of a dataclass state: a value of the declared type is
    shown by all proxies from then on and recorded, other fields stay; another value
    raises TypeError and changes nothing. *)
Theorem C117_assigned_partial : forall w i j s c m f x v ok, reach w -> slot_of w i = Some s -> slot_of w j = Some s ->
  object w s = Some (OData c m) -> kget f m = Some x -> ann c f = Some ok ->
  let '(w', r) := step w (PSetAttr i f v) in
  (ok v = true -> r = Done /\ snd (step w' (PAttr j f)) = IsVal v
     /\ (forall f', f' <> f -> snd (step w' (PAttr j f')) = snd (step w (PAttr j f')))
     /\ (d_rec (dec s) = true -> exists t l, kget f (hist w' s) = Some ((t, v) :: l) /\ t == w_now w)
     /\ (forall f', f' <> f -> kget f' (hist w' s) = kget f' (hist w s)))
  /\ (ok v = false -> w' = w /\ r = TypeErr).
Proof.
  intros w i j s c m f x v ok R Si Sj O K A. apply inv_reach in R. unfold slot_of in Si, Sj.
  destruct (nth_error (w_prox w) i) as [[s1 l1]|] eqn:P1; [|discriminate]. destruct (nth_error (w_prox w) j) as [[s2 l2]|] eqn:P2; [|discriminate].
  injection Si as ->. injection Sj as ->. pose proof (i_prox _ _ R _ _ _ P1) as L1. pose proof (i_prox _ _ R _ _ _ P2) as L2.
  assert (l2 = l1) by congruence. subst l2. unfold object in O. rewrite L1 in O.
  cbn [ProxyModel.step]. unfold through, proxied. rewrite P1, O. cbn [on_data]. rewrite K, A.
  destruct (ok v) eqn:Okv; (split; [|try discriminate]); [intros _|discriminate|auto].
  split; [reflexivity|].
  assert (forall w1, nth_error (w_prox (rec_one dec s f v w1)) j = nth_error (w_prox w1) j /\ nth_error (w_heap (rec_one dec s f v w1)) l1 = nth_error (w_heap w1) l1) as RO
    by (intros w1; unfold rec_one; destruct (d_rec (dec s)); auto).
  assert (nth_error (upd l1 (OData c (kset f v m)) (w_heap w)) l1 = Some (OData c (kset f v m))) as U.
  { revert O. generalize (w_heap w) as hp. clear. intros hp. revert l1. induction hp as [|y hp IH]; intros [|l1] O; try discriminate; [reflexivity|]. cbn. apply IH. exact O. }
  destruct (RO (with_heap w (upd l1 (OData c (kset f v m)) (w_heap w)))) as [R1 R2].
  cbn [w_prox w_heap with_heap] in R1, R2. cbn [ProxyModel.step]. unfold through, proxied. rewrite R1, P2, R2, U, O. cbn [on_data snd]. rewrite StateProofs.kget_kset, Z.eqb_refl.
  split; [reflexivity|]. split; [|split].
  - intros f' N. rewrite StateProofs.kget_kset. destruct (Z.eqb_spec f f'); [congruence|reflexivity].
  - intros Rc. unfold rec_one. rewrite Rc. unfold hist at 1, with_hist. cbn [w_hist]. rewrite nget_nput, Nat.eqb_refl. cbn [w_now with_heap].
    unfold record_single. destruct (kget f (hist _ s)) as [hl|]; rewrite StateProofs.kget_kset, Z.eqb_refl; [|do 2 eexists; split; [reflexivity|apply Qeq_refl]].
    unfold append_entry. destruct hl as [|[t0 v0] hl]; [do 2 eexists; split; [reflexivity|apply Qeq_refl]|].
    cbn [orb]. destruct (entry_eq Z Z.eqb (w_now w, v) (t0, v0)) eqn:E; cbn [negb]; [|do 2 eexists; split; [reflexivity|apply Qeq_refl]].
    unfold entry_eq in E. cbn [fst snd] in E. apply andb_true_iff in E. destruct E as [E1 E2]. apply Z.eqb_eq in E2. subst v0.
    do 2 eexists. split; [reflexivity|]. qbool. lra.
  - intros f' N. unfold rec_one. destruct (d_rec (dec s)); [|reflexivity]. unfold hist at 1, with_hist. cbn [w_hist]. rewrite nget_nput, Nat.eqb_refl.
    unfold record_single. destruct (kget f (hist _ s)) as [hl|]; rewrite StateProofs.kget_kset; destruct (Z.eqb_spec f f'); try congruence; reflexivity.
Qed.
(** A dataclass state is equal to an object in the user's hands if class and values are the
    same; to a dictionary never. *)
Theorem C117_data_with_partial : forall w i s c m l o, reach w -> slot_of w i = Some s -> object w s = Some (OData c m) ->
  In l (w_held w) -> nth_error (w_heap w) l = Some o ->
  exists b, step w (PEq i (OtherRef l)) = (w, IsBool b) /\
    match o with
    | OData c' m' => (c = c' -> map fst m = map fst m') -> (b = true <-> c = c' /\ m = m')
    | ODict _ => b = false
    end.
Proof.
  intros w i s c m l o R Si O H L. apply inv_reach in R. unfold slot_of in Si.
  destruct (nth_error (w_prox w) i) as [[s1 l1]|] eqn:P1; [|discriminate]. injection Si as ->. pose proof (i_prox _ _ R _ _ _ P1) as L1.
  unfold object in O. rewrite L1 in O. cbn [ProxyModel.step]. unfold through, proxied. rewrite P1, O. cbn [on_data].
  rewrite (proj2 (existsb_exists (Nat.eqb l) (w_held w))) by (exists l; split; [exact H|apply Nat.eqb_refl]). rewrite L.
  destruct o as [m'|c' m']; eexists; (split; [reflexivity|]); [reflexivity|]. intros F.
  rewrite andb_true_iff, Nat.eqb_eq. split; intros [A B].
  - subst c'. split; [reflexivity|]. apply fields_eq_iff in B; [congruence|]. symmetry. apply F. reflexivity.
  - subst. split; [reflexivity|]. apply fields_eq_iff; reflexivity.
Qed.
Theorem C117_data_dictionary_partial : forall w i j s s' c m m', reach w -> slot_of w i = Some s -> slot_of w j = Some s' ->
  object w s = Some (OData c m) -> object w s' = Some (ODict m') -> step w (PEq i (OtherProxy j)) = (w, IsBool false).
Proof.
  intros w i j s s' c m m' R Si Sj Oi Oj. apply inv_reach in R. unfold slot_of in Si, Sj.
  destruct (nth_error (w_prox w) i) as [[s1 l1]|] eqn:P1; [|discriminate]. destruct (nth_error (w_prox w) j) as [[s2 l2]|] eqn:P2; [|discriminate].
  injection Si as ->. injection Sj as ->. pose proof (i_prox _ _ R _ _ _ P1) as L1. pose proof (i_prox _ _ R _ _ _ P2) as L2.
  unfold object in Oi, Oj. rewrite L1 in Oi. rewrite L2 in Oj.
  cbn [ProxyModel.step]. unfold through, proxied. rewrite P1, Oi. cbn [on_data]. unfold proxied. rewrite P2, Oj. reflexivity.
Qed.
(** A dataclass state without declared types accepts a dictionary, and cannot be read then:
    TypeError when it is set if it records, and when it is read. *)
Theorem C117_no_dataclass_refuted : forall w s l m, d_data (dec s) = true -> typc s None = true -> nget s (w_slot w) = None ->
  In l (w_held w) -> nth_error (w_heap w) l = Some (ODict m) ->
  let '(w', r) := step w (Give s l) in
  r = (if d_rec (dec s) then TypeErr else Done) /\ step w' (Look s) = (w', TypeErr).
Proof.
  intros w s l m D T N H O. cbn [ProxyModel.step]. unfold mine.
  rewrite (proj2 (existsb_exists (Nat.eqb l) (w_held w))) by (exists l; split; [exact H|apply Nat.eqb_refl]).
  rewrite O. unfold give. rewrite N, O, D, T. destruct (d_rec (dec s)); (split; [reflexivity|]);
  cbn [ProxyModel.step]; unfold look; cbn; rewrite nget_nput, Nat.eqb_refl, D, O; reflexivity.
Qed.
(** A dictionary state is equal to no dictionary state, not even to itself. *)
Theorem C117_dictionaries_refuted : forall w i j s m, slot_of w i = Some s -> object w s = Some (ODict m) -> slot_of w j <> None -> reach w ->
  step w (PEq i (OtherProxy j)) = (w, IsBool false).
Proof.
  intros w i j s m Si O Sj R. apply inv_reach in R. unfold slot_of in Si, Sj.
  destruct (nth_error (w_prox w) i) as [[s1 l1]|] eqn:P1; [|discriminate]. injection Si as ->. pose proof (i_prox _ _ R _ _ _ P1) as L1.
  unfold object in O. rewrite L1 in O. cbn [ProxyModel.step]. unfold through, proxied. rewrite P1, O. cbn [on_dict].
  destruct (nth_error (w_prox w) j); [reflexivity|contradiction].
Qed.
End ProxyProps.

(** ** Example: slots 1 and 2 are recording dictionary states, 3 and 4 recording dataclass states *)
Definition xdec (s : nat) : decl := mkDecl (Nat.leb 3 s) true.
Definition xtyp (_ : nat) (v : Z) : bool := Z.ltb v 100.
Definition xtypc (_ : nat) (c : option nat) : bool := match c with Some _ => true | None => false end.
Definition xann (_ : nat) (_ : key) : option (Z -> bool) := Some (fun _ => true).
Notation xrun := (run xdec xtyp xtypc xann).
Definition xops : list op :=
  [New [(1, 5); (2, 6)]; Give 1 0; Look 1; USet 0 1 50; PSet 0 3 7; Look 1; Tick 1; PSetDefault 1 3 9; PSetDefault 1 4 8; PKeys 0; PItem 0 1; PLen 1; PSet 0 2 600; PItems 1; PIn 0 9]%Z.
Example C116_ex : let '(w, tr) := xrun (w_init 0) xops in
  map snd tr = [IsRef 0; Done; IsProxy 0; Done; Done; IsProxy 1; Done; IsVal 7; IsVal 8; IsKeys [1; 2; 3; 4]; IsVal 5; IsNat 4; TypeErr; IsItems [(1, 5); (2, 600); (3, 7); (4, 8)]; IsBool false]%Z /\
  object w 1 = Some (ODict [(1, 5); (2, 600); (3, 7); (4, 8)]%Z) /\ hist w 1 = [(1, [(0%Q, 5)]); (2, [(0%Q, 6)]); (3, [(0%Q, 7)]); (4, [(1%Q, 8)])]%Z.
Proof. vm_compute. auto. Qed.
(** The hypotheses of C116_dictionary, after the state is set *)
Example C116_ex_hypotheses : let w := fst (xrun (w_init 0) (firstn 2 xops)) in
  reach xdec xtyp xtypc xann w /\ d_data (xdec 1) = false /\ object w 1 = Some (ODict [(1, 5); (2, 6)]%Z) /\ kept_private w 1 /\
  no_raw (fst (xrun w (skipn 2 xops))) 1 (snd (xrun w (skipn 2 xops))) /\ List.length (ops_of (fst (xrun w (skipn 2 xops))) 1 (snd (xrun w (skipn 2 xops)))) = 9%nat.
Proof.
  split; [exists 0, (firstn 2 xops); reflexivity|]. split; [reflexivity|]. split; [reflexivity|]. split; [|split; [|reflexivity]].
  - intros l H. vm_compute in H. injection H as <-. vm_compute. intros [H|[]]. discriminate.
  - intros i r H. vm_compute in H. repeat (destruct H as [H|H]; [discriminate|]). contradiction.
Qed.
(** Two proxies of the same dictionary are not equal, though it is equal to a dictionary with the same items. *)
Example C117_dictionaries_ex : let '(w, tr) := xrun (w_init 0) [New [(1, 5)]; Give 1 0; Look 1; Look 1; PEq 0 (OtherProxy 1); PEq 0 (OtherRef 0); PEq 0 (OtherProxy 0)]%Z in
  map snd tr = [IsRef 0; Done; IsProxy 0; IsProxy 1; IsBool false; IsBool true; IsBool false].
Proof. vm_compute. auto. Qed.
(** A dataclass object given to two actors: assigning through one changes the other, which
    records nothing; and so does the user's own reference. *)
Theorem C117_shared_refuted : exists os w tr,
  os = [NewData 7 [(1, 5)]; Give 3 0; Give 4 0; Look 3; Look 4; PSetAttr 0 1 6; PAttr 1 1]%Z /\ xrun (w_init 0) os = (w, tr) /\
  map snd tr = [IsRef 0; Done; Done; IsProxy 0; IsProxy 1; Done; IsVal 6]%Z /\ hist w 3 = [(1, [(0%Q, 6); (0%Q, 5)])]%Z /\ hist w 4 = [(1, [(0%Q, 5)])]%Z.
Proof. do 3 eexists. split; [reflexivity|]. split; [vm_compute; reflexivity|]. vm_compute. auto. Qed.
Theorem C117_given_object_refuted : exists os w tr,
  os = [NewData 7 [(1, 5)]; Give 3 0; USetAttr 0 1 6; Look 3; PAttr 0 1]%Z /\ xrun (w_init 0) os = (w, tr) /\
  map snd tr = [IsRef 0; Done; Done; IsProxy 0; IsVal 6]%Z /\ hist w 3 = [(1, [(0%Q, 5)])]%Z.
Proof. do 3 eexists. split; [reflexivity|]. split; [vm_compute; reflexivity|]. vm_compute. auto. Qed.

Print Assumptions C116_given.
Print Assumptions C116_dictionary.
Print Assumptions C116_history.
Print Assumptions C116_same.
Print Assumptions C116_recorded_only.
Print Assumptions C116_equal.
Print Assumptions C117_only_by_partial.
Print Assumptions C117_data_equal_partial.
Print Assumptions C117_dictionaries_refuted.
Print Assumptions C117_shared_refuted.
Print Assumptions C117_given_object_refuted.

Print Assumptions C116_looked.
Print Assumptions C116_answered.

Print Assumptions C117_assigned_partial.
Print Assumptions C117_data_with_partial.
Print Assumptions C117_data_dictionary_partial.
Print Assumptions C117_no_dataclass_refuted.
