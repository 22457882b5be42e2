(** Proofs about what the stepped motion manager looks at. *)
From Coq Require Import String FinFun.
From Verif Require Import Common WatchModel WatchSpec.

Section P.
Variable L : Type.
Variable dist : L -> L -> Q.
Notation ent := (ent L). Notation st := (st L).
Notation step := (step L dist). Notation run := (run L dist).

Lemma sget_set : forall X k (x : X) d j, sget j (sset k x d) = if String.eqb k j then Some x else sget j d.
Proof.
  intros X k x d j. induction d as [|[i y] d' IH]; cbn; [destruct (String.eqb k j); reflexivity|].
  destruct (String.eqb i k) eqn:E; cbn.
  - apply String.eqb_eq in E; subst i. destruct (String.eqb k j); reflexivity.
  - destruct (String.eqb i j) eqn:E2; [|apply IH].
    apply String.eqb_eq in E2; subst i. destruct (String.eqb k j) eqn:E3; [|reflexivity].
    apply String.eqb_eq in E3; subst. rewrite String.eqb_refl in E; discriminate.
Qed.
Lemma nget_set : forall X k (x : X) d j, nget j (nset k x d) = if Nat.eqb k j then Some x else nget j d.
Proof.
  intros X k x d j. induction d as [|[i y] d' IH]; cbn; [destruct (Nat.eqb k j); reflexivity|].
  destruct (Nat.eqb i k) eqn:E; cbn.
  - apply Nat.eqb_eq in E; subst i. destruct (Nat.eqb k j); reflexivity.
  - destruct (Nat.eqb i j) eqn:E2; [|apply IH].
    apply Nat.eqb_eq in E2; subst i. rewrite Nat.eqb_sym, E. reflexivity.
Qed.
Lemma nget_del : forall X k (d : list (nat * X)) j, nget j (ndel k d) = if Nat.eqb k j then None else nget j d.
Proof.
  intros X k d j. unfold ndel. induction d as [|[i y] d' IH]; cbn; [destruct (Nat.eqb k j); reflexivity|].
  destruct (Nat.eqb i k) eqn:E; cbn.
  - apply Nat.eqb_eq in E; subst i. rewrite IH. destruct (Nat.eqb k j); reflexivity.
  - destruct (Nat.eqb i j) eqn:E2; [|apply IH].
    apply Nat.eqb_eq in E2; subst i. rewrite Nat.eqb_sym, E. reflexivity.
Qed.
Lemma nset_keys : forall X k (x : X) d, NoDup (map fst d) -> NoDup (map fst (nset k x d)) /\
  forall j, In j (map fst (nset k x d)) -> j = k \/ In j (map fst d).
Proof.
  intros X k x d. induction d as [|[i y] d' IH]; cbn; intros N.
  - split; [constructor; [intros []|constructor]|intros j [->|[]]; auto].
  - inversion N as [|a b Ni Nd]; subst. destruct (IH Nd) as [A B].
    destruct (Nat.eqb i k) eqn:E; cbn; [split; [exact N|intros j [->|J]; auto]|].
    split; [constructor; [|exact A]|intros j [->|J]; [auto|destruct (B j J); auto]].
    intros J. destruct (B i J) as [->|J']; [rewrite Nat.eqb_refl in E; discriminate|contradiction].
Qed.
Lemma ndel_keys : forall X k (d : list (nat * X)), NoDup (map fst d) -> NoDup (map fst (ndel k d)).
Proof.
  intros X k d. unfold ndel. induction d as [|[i y] d' IH]; cbn; intros N; [constructor|].
  inversion N as [|a b Ni Nd]; subst. destruct (Nat.eqb i k); cbn; [auto|].
  constructor; [|auto]. intros J. apply Ni. apply in_map_iff in J. destruct J as (p & <- & P).
  apply filter_In in P. apply in_map, (proj1 P).
Qed.
Lemma nget_in : forall X (d : list (nat * X)) k x, NoDup (map fst d) -> (nget k d = Some x <-> In (k, x) d).
Proof.
  intros X d k x. induction d as [|[i y] d' IH]; cbn; intros N; [split; [discriminate|intros []]|].
  inversion N as [|a b Ni Nd]; subst. destruct (Nat.eqb i k) eqn:E.
  - apply Nat.eqb_eq in E; subst. split; [intros [= ->]; auto|intros [[= ->]|J]; [reflexivity|]].
    exfalso. apply Ni. apply (in_map fst) in J. exact J.
  - rewrite (IH Nd). split; [auto|intros [[= -> ->]|J]; [rewrite Nat.eqb_refl in E; discriminate|exact J]].
Qed.
Lemma nget_key : forall X (d : list (nat * X)) k, nget k d <> None <-> In k (map fst d).
Proof.
  intros X d k. induction d as [|[i y] d' IH]; cbn; [split; [congruence|intros []]|].
  destruct (Nat.eqb i k) eqn:E; [apply Nat.eqb_eq in E; subst; split; [auto|discriminate]|].
  rewrite IH. split; [auto|intros [->|J]; [rewrite Nat.eqb_refl in E; discriminate|exact J]].
Qed.

(** *** Attributes *)
Lemma getattr_ok : forall (e : ent) n v, getattr L e n = Ok v <-> has L e n v.
Proof.
  intros e n v. unfold getattr, has. destruct (sget n (o_attrs L e)) as [x|] eqn:E.
  - split; intros [= ->]; reflexivity.
  - destruct (o_states L e) as [ds|]; [destruct (sget n ds)|]; split; discriminate.
Qed.
Lemma getattr_bad : forall (e : ent) n x, getattr L e n = Bad x -> x = SimulationErr \/ x = AttributeErr.
Proof.
  intros e n x. unfold getattr. destruct (sget n (o_attrs L e)); [discriminate|].
  destruct (o_states L e) as [ds|]; [destruct (sget n ds)|]; intros [= <-]; auto.
Qed.
Lemma there_dec : forall (e : ent) n, there L e n \/ ~ there L e n.
Proof.
  intros e n. unfold there, has. destruct (sget n (o_attrs L e)) as [v|]; [left; exists v; reflexivity|].
  right; intros [v V]; discriminate.
Qed.
Lemma hasattr_there : forall (e : ent) n, there L e n -> hasattr L e n = Ok true.
Proof. intros e n [v V]. apply getattr_ok in V. unfold hasattr. rewrite V. reflexivity. Qed.
Lemma hasattr_not : forall (e : ent) n, ~ there L e n -> hasattr L e n = Bad SimulationErr \/ hasattr L e n = Ok false.
Proof.
  intros e n T. unfold hasattr. destruct (getattr L e n) as [v|x] eqn:E.
  - exfalso; apply T; exists v; apply getattr_ok, E.
  - destruct (getattr_bad e n x E) as [->| ->]; auto.
Qed.
Lemma kind_eqb_eq : forall a b, kind_eqb a b = true <-> a = b.
Proof. intros [] []; cbn; split; congruence. Qed.
Lemma in_class : forall (e : ent) k n, In (n, k) (filter (fun p => kind_eqb (snd p) k) (states_of L e)) <-> of_class L e k n.
Proof.
  intros e k n. rewrite filter_In. cbn. rewrite kind_eqb_eq. unfold of_class. tauto.
Qed.
Lemma class_kind : forall (e : ent) k p, In p (filter (fun p => kind_eqb (snd p) k) (states_of L e)) -> snd p = k.
Proof. intros e k p P. apply filter_In in P. apply kind_eqb_eq, P. Qed.
Lemma filter_names : forall (f : string * skind -> bool) l, NoDup (map fst l) -> NoDup (map fst (filter f l)).
Proof.
  intros f l. induction l as [|a l IH]; cbn; intros N; [constructor|]. inversion N as [|x y Ni Nd]; subst.
  destruct (f a); cbn; [|auto]. constructor; [|auto]. intros J. apply in_map_iff in J.
  destruct J as (p & E & P). apply filter_In in P. apply Ni. rewrite <- E. apply in_map, (proj1 P).
Qed.
(** The detectability state: none, one, or too many *)
Lemma detection_cases : forall e : ent, names_once L e ->
  (detection_state L e = Ok None /\ (forall n, ~ of_class L e SDetect n))
  \/ (exists n, detection_state L e = Ok (Some n) /\ of_class L e SDetect n /\ forall m, of_class L e SDetect m -> m = n)
  \/ (detection_state L e = Bad NotImplemented /\ ~ one_detectability L e).
Proof.
  intros e N. unfold detection_state.
  pose proof (in_class e SDetect) as I. pose proof (class_kind e SDetect) as K.
  pose proof (filter_names (fun p => kind_eqb (snd p) SDetect) _ N) as D.
  destruct (filter (fun p => kind_eqb (snd p) SDetect) (states_of L e)) as [|[n k] [|[m k'] r]].
  - left. split; [reflexivity|]. intros n J. apply I in J. exact J.
  - right; left. exists n. split; [reflexivity|]. assert (k = SDetect) as -> by (apply (K (n, k)); left; reflexivity).
    split; [apply I; left; reflexivity|]. intros m J. apply I in J. destruct J as [[= ->]|[]]. reflexivity.
  - right; right. split; [reflexivity|]. intros O.
    assert (k = SDetect) as -> by (apply (K (n, k)); left; reflexivity).
    assert (k' = SDetect) as -> by (apply (K (m, k')); right; left; reflexivity).
    assert (n = m) as -> by (apply O; apply I; [left|right; left]; reflexivity).
    cbn in D. inversion D as [|x y Ni Nd]; subst. apply Ni. left; reflexivity.
Qed.
Lemma states_none : forall e : ent, o_states L e = None -> forall k n, ~ of_class L e k n.
Proof. intros e E k n. unfold of_class, states_of. rewrite E. intros []. Qed.
Lemma test_detect_ok : forall e : ent, names_once L e ->
  ((exists b, test_detect L e = Ok b) <-> one_detectability L e /\ forall n, of_class L e SDetect n -> there L e n).
Proof.
  intros e N. unfold test_detect. destruct (o_states L e) as [ds|] eqn:E.
  2:{ split; [|intros _; exists true; reflexivity]. intros _. pose proof (states_none e E SDetect) as Z.
      split; [intros n m A; destruct (Z n A)|intros n A; destruct (Z n A)]. }
  destruct (detection_cases e N) as [(-> & Z)|[(n & -> & I & U)|(-> & Z)]].
  - split; [|intros _; exists true; reflexivity]. intros _. split; [intros n m A; destruct (Z n A)|intros n A; destruct (Z n A)].
  - split.
    + intros [b B]. split; [intros x y X Y; rewrite (U x X), (U y Y); reflexivity|].
      intros m M. rewrite (U m M). destruct (getattr L e n) as [v|] eqn:G; [exists v; apply getattr_ok, G|discriminate].
    + intros [_ T]. destruct (T n I) as [v V]. apply getattr_ok in V. rewrite V. destruct v; eexists; reflexivity.
  - split; [intros [b B]; discriminate|intros [O _]; contradiction].
Qed.
Lemma test_detect_sees : forall (e : ent) b, names_once L e -> boolean L e -> test_detect L e = Ok b ->
  (b = true <-> can_be_seen L e).
Proof.
  intros e b N B. unfold test_detect. destruct (o_states L e) as [ds|] eqn:E.
  2:{ intros [= <-]. split; [intros _ n A; destruct (states_none e E SDetect n A)|reflexivity]. }
  destruct (detection_cases e N) as [(-> & Z)|[(n & -> & I & U)|(-> & Z)]].
  - intros [= <-]. split; [intros _ n A; destruct (Z n A)|reflexivity].
  - destruct (getattr L e n) as [v|] eqn:G; [|discriminate]. apply getattr_ok in G.
    destruct (B n v I G) as [c ->]. intros [= <-]. split.
    + intros -> m M. rewrite (U m M). exact G.
    + intros S. specialize (S n I). unfold has in *. congruence.
  - discriminate.
Qed.

(** *** Registrations *)
Lemma sensor_out : forall w s r l,
  (o_enter L (ents L w s) = true /\ o_exit L (ents L w s) = true /\ there L (ents L w s) r /\ there L (ents L w s) l
   /\ step w (AddSensor L s r l) = (mkW L (ents L w) (nset s (r, l) (sensors L w)) (targets L w), Did))
  \/ ((o_enter L (ents L w s) = false \/ o_exit L (ents L w s) = false)
      /\ step w (AddSensor L s r l) = (w, Raised NotImplemented))
  \/ (o_enter L (ents L w s) = true /\ o_exit L (ents L w s) = true
      /\ (~ there L (ents L w s) r \/ ~ there L (ents L w s) l)
      /\ step w (AddSensor L s r l) = (w, Raised SimulationErr)).
Proof.
  intros w s r l. cbn [step WatchModel.step]. unfold add_sensor.
  destruct (o_enter L (ents L w s)); cbn [negb]; [|right; left; split; [auto|reflexivity]].
  destruct (o_exit L (ents L w s)); cbn [negb]; [|right; left; split; [auto|reflexivity]].
  destruct (there_dec (ents L w s) r) as [T|T].
  - rewrite (hasattr_there _ _ T). destruct (there_dec (ents L w s) l) as [T2|T2].
    + rewrite (hasattr_there _ _ T2). left. repeat split; auto.
    + right; right. repeat split; auto. destruct (hasattr_not _ _ T2) as [-> | ->]; reflexivity.
  - right; right. repeat split; auto. destruct (hasattr_not _ _ T) as [-> | ->]; reflexivity.
Qed.
Definition can_register (e : ent) (l : string) : Prop :=
  there L e l /\ one_detectability L e /\ forall n, of_class L e SDetect n -> there L e n.
Lemma target_out : forall w d l q, names_once L (ents L w d) ->
  (can_register (ents L w d) l
   /\ add_target L w d l q = (mkW L (ents L w) (sensors L w) (nset d l (targets L w)), Ok tt))
  \/ (~ can_register (ents L w d) l /\ add_target L w d l q = (w, Bad SimulationErr)).
Proof.
  intros w d l q N. unfold add_target, can_register. destruct (there_dec (ents L w d) l) as [T|T].
  - rewrite (hasattr_there _ _ T). pose proof (test_detect_ok _ N) as D.
    destruct (test_detect L (ents L w d)) as [b|x].
    + left. split; [|reflexivity]. split; [exact T|]. apply D. exists b. reflexivity.
    + right. split; [|reflexivity]. intros (_ & R). apply D in R. destruct R as [b B]. discriminate.
  - right. split; [tauto|]. destruct (hasattr_not _ _ T) as [-> | ->]; reflexivity.
Qed.
Lemma find_first : forall (e : ent) k,
  match find (fun p => kind_eqb (snd p) k) (states_of L e) with
  | Some (n, k') => k' = k /\ first_of L e k n
  | None => forall n, ~ of_class L e k n
  end.
Proof.
  intros e k. unfold first_of, of_class. induction (states_of L e) as [|[n j] r IH]; cbn; [intros n []|].
  destruct (kind_eqb j k) eqn:E.
  - apply kind_eqb_eq in E; subst j. split; [reflexivity|]. exists [], r. split; [reflexivity|intros m []].
  - destruct (find _ r) as [[n' k']|].
    + destruct IH as (-> & a & b & -> & A). split; [reflexivity|]. exists ((n, j) :: a), b. split; [reflexivity|].
      intros m [[= -> ->]|J]; [|exact (A m J)]. rewrite (proj2 (kind_eqb_eq k k) eq_refl) in E. discriminate.
    + intros m [[= -> ->]|J]; [|exact (IH m J)]. rewrite (proj2 (kind_eqb_eq k k) eq_refl) in E. discriminate.
Qed.
Lemma first_class : forall (e : ent) k n, first_of L e k n -> of_class L e k n.
Proof. intros e k n (a & b & E & _). unfold of_class. rewrite E. apply in_elt. Qed.
Lemma first_one : forall (e : ent) k n m, first_of L e k n -> first_of L e k m -> n = m.
Proof.
  intros e k n m (a & b & E & A) (a' & b' & E' & A'). rewrite E in E'. clear E.
  revert a' E' A'. induction a as [|x a IH]; intros [|y a'] E' A'; cbn in E'.
  - congruence.
  - injection E' as <- _. exfalso. apply (A' n). left; reflexivity.
  - injection E' as -> _. exfalso. apply (A m). left; reflexivity.
  - injection E' as <- E'. apply (IH (fun j J => A j (or_intror J)) a' E' (fun j J => A' j (or_intror J))).
Qed.
Lemma moves_one : forall (e : ent) n m, moves_at L e n -> moves_at L e m -> n = m.
Proof.
  intros e n m [A|[Z A]] [B|[Z' B]].
  - exact (first_one e _ n m A B).
  - exfalso; exact (Z' n (first_class _ _ _ A)).
  - exfalso; exact (Z m (first_class _ _ _ B)).
  - exact (first_one e _ n m A B).
Qed.
Lemma sget_in : forall X n (x : X) l, In (n, x) l -> sget n l <> None.
Proof.
  intros X n x l. induction l as [|[j y] l IH]; cbn; intros []; [injection H as -> ->; rewrite String.eqb_refl; discriminate|].
  destruct (String.eqb j n); [discriminate|auto].
Qed.
Lemma match_class : forall (e : ent) k n, of_class L e k n ->
  (there L e n /\ match_attr L e n = Ok (Some n)) \/ (~ there L e n /\ match_attr L e n = Bad SimulationErr).
Proof.
  intros e k n C. unfold match_attr. destruct (there_dec e n) as [T|T].
  - left. rewrite (hasattr_there _ _ T). auto.
  - right. split; [exact T|]. unfold hasattr, getattr.
    destruct (sget n (o_attrs L e)) as [v|] eqn:E; [exfalso; apply T; exists v; exact E|].
    unfold of_class, states_of in C. destruct (o_states L e) as [ds|]; [|destruct C].
    destruct (sget n ds) eqn:E2; [reflexivity|]. destruct (sget_in _ _ _ _ C E2).
Qed.
Lemma matching_cases : forall (e : ent) k,
  (exists n, first_of L e k n /\ there L e n /\ matching_state L e k = Ok (Some n))
  \/ (exists n, first_of L e k n /\ ~ there L e n /\ matching_state L e k = Bad SimulationErr)
  \/ ((forall n, ~ of_class L e k n) /\ matching_state L e k = Ok None).
Proof.
  intros e k. unfold matching_state. pose proof (find_first e k) as F.
  destruct (find _ (states_of L e)) as [[n k']|].
  - destruct F as [-> F]. destruct (match_class e k n (first_class _ _ _ F)) as [[T E]|[T E]].
    + left. exists n. auto.
    + right; left. exists n. auto.
  - right; right. auto.
Qed.
(** Starting a mover that is not registered *)
Definition can_start (e : ent) (n : string) : Prop :=
  moves_at L e n /\ can_register e n /\ forall m, first_of L e SGeo m \/ first_of L e SCart m -> there L e m.
Lemma start_out : forall w m, names_once L (ents L w m) -> nget m (targets L w) = None ->
  (exists n, can_start (ents L w m) n
   /\ start_mover L w m = (mkW L (ents L w) (sensors L w) (nset m n (targets L w)), Ok tt))
  \/ ((forall n, ~ can_start (ents L w m) n) /\ start_mover L w m = (w, Bad SimulationErr)).
Proof.
  intros w m N E. unfold start_mover. rewrite E. unfold can_start.
  destruct (matching_cases (ents L w m) SGeo) as [(n & F & T & ->)|[(n & F & T & ->)|(Z & ->)]].
  - destruct (matching_cases (ents L w m) SCart) as [(n' & F' & T' & ->)|[(n' & F' & T' & ->)|(Z' & ->)]].
    + destruct (target_out w m n None N) as [(R & ->)|(R & ->)].
      * left. exists n. split; [|reflexivity]. split; [left; exact F|]. split; [exact R|].
        intros k [K|K]; [rewrite (first_one _ _ _ _ K F)|rewrite (first_one _ _ _ _ K F')]; assumption.
      * right. split; [|reflexivity]. intros k (M & C & _). apply R.
        rewrite (moves_one _ _ _ (or_introl F : moves_at L _ n) M). exact C.
    + right. split; [|reflexivity]. intros k (_ & _ & A). apply T', A. right; exact F'.
    + destruct (target_out w m n None N) as [(R & ->)|(R & ->)].
      * left. exists n. split; [|reflexivity]. split; [left; exact F|]. split; [exact R|].
        intros k [K|K]; [rewrite (first_one _ _ _ _ K F); exact T|destruct (Z' k (first_class _ _ _ K))].
      * right. split; [|reflexivity]. intros k (M & C & _). apply R.
        rewrite (moves_one _ _ _ (or_introl F : moves_at L _ n) M). exact C.
  - right. split; [|reflexivity]. intros k (_ & _ & A). apply T, A. left; exact F.
  - destruct (matching_cases (ents L w m) SCart) as [(n' & F' & T' & ->)|[(n' & F' & T' & ->)|(Z' & ->)]].
    + destruct (target_out w m n' None N) as [(R & ->)|(R & ->)].
      * left. exists n'. split; [|reflexivity]. split; [right; split; [exact Z|exact F']|]. split; [exact R|].
        intros k [K|K]; [destruct (Z k (first_class _ _ _ K))|rewrite (first_one _ _ _ _ K F'); exact T'].
      * right. split; [|reflexivity]. intros k (M & C & _). apply R.
        rewrite (moves_one _ _ _ (or_intror (conj Z F') : moves_at L _ n') M). exact C.
    + right. split; [|reflexivity]. intros k (_ & _ & A). apply T', A. right; exact F'.
    + right. split; [|reflexivity]. intros k (M & _ & _).
      destruct M as [M|[_ M]]; [exact (Z k (first_class _ _ _ M))|exact (Z' k (first_class _ _ _ M))].
Qed.

(** *** Histories *)
(** [after es h w]: the manager is at [w] after [h] (newest first), entities first being [es] *)
Inductive after (es : nat -> ent) : list (op L * out) -> st -> Prop :=
| after_nil : after es [] (init L es)
| after_step : forall h w o, after es h w -> after es ((o, snd (step w o)) :: h) (fst (step w o)).
Lemma run_after : forall es os h w, after es h w -> after es (rev (snd (run w os)) ++ h) (fst (run w os)).
Proof.
  intros es os. induction os as [|o os IH]; intros h w A; [exact A|].
  cbn [run WatchModel.run]. pose proof (after_step es h w o A) as A1.
  destruct (step w o) as [w1 x]. cbn [fst snd] in A1. specialize (IH _ _ A1).
  destruct (run w1 os) as [w2 tr]. cbn [fst snd rev] in *. rewrite <- app_assoc. exact IH.
Qed.
Record inv (es : nat -> ent) (h : list (op L * out)) (w : st) : Prop := {
  i_states : forall k, o_states L (ents L w k) = o_states L (es k);
  i_sens : forall s, nget s (sensors L w) = sensing L s h;
  i_targ : forall d n, nget d (targets L w) = Some n <-> watched L es d h n;
  i_skeys : NoDup (map fst (sensors L w));
  i_tkeys : NoDup (map fst (targets L w));
  i_sthere : forall s r l, nget s (sensors L w) = Some (r, l) -> there L (ents L w s) r /\ there L (ents L w s) l;
  i_tthere : forall d n, nget d (targets L w) = Some n -> can_register (ents L w d) n }.
Lemma same_classes : forall (e e' : ent), o_states L e = o_states L e' -> states_of L e = states_of L e'.
Proof. intros e e' E. unfold states_of. rewrite E. reflexivity. Qed.
Lemma moves_same : forall (e e' : ent) n, o_states L e = o_states L e' -> moves_at L e n -> moves_at L e' n.
Proof.
  intros e e' n E. unfold moves_at, first_of, of_class. rewrite (same_classes e e' E). tauto.
Qed.
Lemma add_target_inv : forall es h w d l o x, inv es h w -> can_register (ents L w d) l ->
  (forall s, sensing L s ((o, x) :: h) = sensing L s h) ->
  (forall e n, watched L es e ((o, x) :: h) n <-> if Nat.eqb d e then n = l else watched L es e h n) ->
  inv es ((o, x) :: h) (mkW L (ents L w) (sensors L w) (nset d l (targets L w))).
Proof.
  intros es h w d l o x [A B C D E F G] R S W. constructor; cbn [ents sensors targets]; auto.
  - intros s. rewrite S. apply B.
  - intros e n. rewrite W, nget_set. destruct (Nat.eqb d e); [split; intros H; congruence|apply C].
  - apply nset_keys, E.
  - intros e n. rewrite nget_set. destruct (Nat.eqb d e) eqn:Q; [|apply G].
    apply Nat.eqb_eq in Q; subst e. intros [= <-]. exact R.
Qed.
Lemma inv_quiet : forall es h w o x, inv es h w ->
  (forall s, sensing L s ((o, x) :: h) = sensing L s h) ->
  (forall e n, watched L es e ((o, x) :: h) n <-> watched L es e h n) -> inv es ((o, x) :: h) w.
Proof.
  intros es h w o x [A B C D E F G] S W. constructor; auto; [intros s; rewrite S; apply B|].
  intros d n. rewrite W. apply C.
Qed.
Lemma inv_step : forall es h w o, (forall k, names_once L (es k)) -> inv es h w ->
  inv es ((o, snd (step w o)) :: h) (fst (step w o)).
Proof.
  intros es h w o NN I. pose proof I as [A B C D E F G].
  assert (forall k, names_once L (ents L w k)) as N.
  { intros k. unfold names_once. rewrite (same_classes _ _ (A k)). apply NN. }
  destruct o as [s r l|d l q|m mv|m|e n v|req].
  - destruct (sensor_out w s r l) as [(_ & _ & T1 & T2 & ->)|[(_ & ->)|(_ & _ & _ & ->)]]; cbn [fst snd].
    + constructor; cbn [ents sensors targets]; auto.
      * intros k. cbn [sensing]. rewrite nget_set, B. reflexivity.
      * apply nset_keys, D.
      * intros k r' l'. rewrite nget_set. destruct (Nat.eqb s k) eqn:Q; [|apply F].
        apply Nat.eqb_eq in Q; subst k. intros [= <- <-]. auto.
    + apply inv_quiet; [exact I|reflexivity|reflexivity].
    + apply inv_quiet; [exact I|reflexivity|reflexivity].
  - cbn [step WatchModel.step]. destruct (target_out w d l q (N d)) as [(R & ->)|(R & ->)]; cbn [fst snd as_out].
    + apply add_target_inv; [exact I|exact R|reflexivity|reflexivity].
    + apply inv_quiet; [exact I|reflexivity|reflexivity].
  - cbn [step WatchModel.step]. destruct (nget m (targets L w)) as [k|] eqn:Q.
    + unfold start_mover. rewrite Q. cbn [fst snd as_out]. apply inv_quiet; [exact I|reflexivity|].
      intros e n. cbn [watched]. destruct (Nat.eqb m e) eqn:J; [|tauto]. apply Nat.eqb_eq in J; subst e.
      apply C in Q. split; [intros [W|[Z _]]; [exact W|destruct (Z k Q)]|auto].
    + destruct (start_out w m (N m) Q) as [(n & (M & R & _) & ->)|(_ & ->)]; cbn [fst snd as_out].
      * apply add_target_inv; [exact I|exact R|reflexivity|]. intros e n'. cbn [watched].
        destruct (Nat.eqb m e) eqn:J; [|tauto]. apply Nat.eqb_eq in J; subst e.
        assert (forall k, ~ watched L es m h k) as Z by (intros k K; apply C in K; congruence).
        apply (moves_same _ _ n (A m)) in M. split.
        -- intros [W|[_ M']]; [destruct (Z n' W)|exact (moves_one _ _ _ M' M)].
        -- intros ->. right; auto.
      * apply inv_quiet; [exact I|reflexivity|reflexivity].
  - cbn [step WatchModel.step fst snd]. unfold stop_mover. constructor; cbn [ents sensors targets]; auto.
    + intros d n. cbn [watched]. rewrite nget_del. destruct (Nat.eqb m d) eqn:J.
      * apply Nat.eqb_eq in J. split; [discriminate|intros [X _]; contradiction].
      * apply Nat.eqb_neq in J. rewrite C. tauto.
    + apply ndel_keys, E.
    + intros d n. rewrite nget_del. destruct (Nat.eqb m d); [discriminate|apply G].
  - cbn [step WatchModel.step fst snd].
    assert (forall k, o_states L (ents L (set_attr L w e n v) k) = o_states L (ents L w k)) as SS.
    { intros k. unfold set_attr; cbn [ents]. destruct (Nat.eqb k e) eqn:J; [|reflexivity].
      apply Nat.eqb_eq in J; subst k. reflexivity. }
    assert (forall k a, there L (ents L w k) a -> there L (ents L (set_attr L w e n v) k) a) as TT.
    { intros k a [x X]. unfold set_attr, there, has; cbn [ents]. destruct (Nat.eqb k e) eqn:J; [|exists x; exact X].
      apply Nat.eqb_eq in J; subst k. cbn [o_attrs]. rewrite sget_set. destruct (String.eqb n a); [exists v; reflexivity|exists x; exact X]. }
    constructor; unfold set_attr; cbn [sensors targets]; auto.
    + intros k. fold (set_attr L w e n v). rewrite SS. apply A.
    + intros s r l H. destruct (F s r l H) as [X Y]. split; apply TT; assumption.
    + intros d k H. destruct (G d k H) as (X & Y & Z). split; [apply TT, X|].
      fold (set_attr L w e n v). unfold one_detectability, of_class in *.
      rewrite (same_classes _ _ (SS d)). split; [exact Y|]. intros a J. apply TT, (Z a J).
  - cbn [step WatchModel.step fst snd]. apply inv_quiet; [exact I|reflexivity|reflexivity].
Qed.
Lemma inv_after : forall es h w, (forall k, names_once L (es k)) -> after es h w -> inv es h w.
Proof.
  intros es h w N A. induction A as [|h w o A IH]; [|apply inv_step; assumption].
  constructor; cbn; auto; try discriminate; try constructor; try discriminate; intros [].
Qed.

(** *** Checks *)
Lemma NoDup_app_intro : forall X (a b : list X), NoDup a -> NoDup b -> (forall x, In x a -> ~ In x b) -> NoDup (a ++ b).
Proof.
  intros X a b A B. induction A as [|x a Nx A IH]; intros H; [exact B|]. cbn. constructor.
  - rewrite in_app_iff. intros [J|J]; [contradiction|exact (H x (or_introl eq_refl) J)].
  - apply IH. intros y Y. apply H. right; exact Y.
Qed.
Lemma all_ok_map : forall A B (f : A -> res B) (g : A -> B) l, (forall a, In a l -> f a = Ok (g a)) -> all_ok f l = Ok (map g l).
Proof.
  intros A B f g l. induction l as [|a l IH]; intros H; [reflexivity|]. cbn.
  rewrite (H a (or_introl eq_refl)), IH; [reflexivity|]. intros b Bb. apply H. right; exact Bb.
Qed.
Definition gv (e : ent) (n : string) : value L := match sget n (o_attrs L e) with Some v => v | None => VNum L 0 end.
Lemma gv_ok : forall (e : ent) n, there L e n -> getattr L e n = Ok (gv e n) /\ has L e n (gv e n).
Proof. intros e n [v V]. unfold gv. unfold getattr, has in *. rewrite V. auto. Qed.
Lemma combine_map : forall A B C (f : A -> B) (g : A -> C) l,
  combine l (combine (map f l) (map g l)) = map (fun a => (a, (f a, g a))) l.
Proof. intros A B C f g l. induction l as [|a l IH]; cbn; [reflexivity|]. rewrite IH. reflexivity. Qed.
(** Targets that can be seen, in order *)
Definition seen_now (w : st) (d : nat) : bool := match test_detect L (ents L w d) with Ok b => b | Bad _ => false end.
Lemma detectable_filter : forall (w : st) l, (forall d, In d l -> exists b, test_detect L (ents L w d) = Ok b) ->
  detectable_now L w l = Ok (filter (seen_now w) l).
Proof.
  intros w l. induction l as [|d l IH]; intros H; [reflexivity|]. cbn [detectable_now filter]. unfold seen_now at 1.
  destruct (H d (or_introl eq_refl)) as [b ->]. rewrite IH; [|intros c C; apply H; right; exact C]. destruct b; reflexivity.
Qed.
(** The comparison of a sensor at some location with a target *)
Definition sees (e : ent) (loc rad dloc : value L) : bool :=
  match detect_dist L dist e loc rad dloc with Ok b => b | Bad _ => false end.
Lemma against_map : forall (e : ent) s loc rad ds,
  (forall d v, In (d, v) ds -> d <> s -> exists b, detect_dist L dist e loc rad v = Ok b) ->
  against L dist e s loc rad ds
  = Ok (map (fun p => (s, fst p, sees e loc rad (snd p))) (filter (fun p => negb (Nat.eqb (fst p) s)) ds)).
Proof.
  intros e s loc rad ds. induction ds as [|[d v] ds IH]; intros H; [reflexivity|]. cbn [against filter fst].
  destruct (Nat.eqb d s) eqn:E; cbn [negb].
  - apply IH. intros c x C. apply H. right; exact C.
  - apply Nat.eqb_neq in E. destruct (H d v (or_introl eq_refl) E) as [b B]. rewrite B.
    rewrite IH; [|intros c x C; apply H; right; exact C]. cbn [map fst snd]. unfold sees at 2. rewrite B. reflexivity.
Qed.
(** What a check of targets [l] gives, all being registered and of the right sorts *)
Definition tname (w : st) (d : nat) : string := match nget d (targets L w) with Some n => n | None => ""%string end.
Definition pairs (w : st) (l : list nat) : list compared :=
  flat_map (fun s => map (fun d => (fst s, d, sees (ents L w (fst s)) (gv (ents L w (fst s)) (snd (snd s)))
                                                (gv (ents L w (fst s)) (fst (snd s))) (gv (ents L w d) (tname w d))))
                         (filter (fun d => negb (Nat.eqb d (fst s))) (filter (seen_now w) l)))
           (sensors L w).
Definition sorted_ok (w : st) : Prop :=
  (forall s r n, nget s (sensors L w) = Some (r, n) -> number L (ents L w s) r /\ place L (ents L w s) n)
  /\ forall d n, nget d (targets L w) = Some n -> place L (ents L w d) n /\ boolean L (ents L w d).
Lemma filter_map_fst : forall (f : nat -> value L) (p : nat -> bool) l,
  filter (fun q => p (fst q)) (map (fun d => (d, f d)) l) = map (fun d => (d, f d)) (filter p l).
Proof. intros f p l. induction l as [|d l IH]; cbn; [reflexivity|]. destruct (p d); cbn; rewrite IH; reflexivity. Qed.
Lemma run_pairs : forall es h w req, (forall k, names_once L (es k)) -> inv es h w -> sorted_ok w ->
  let l := match req with None => map fst (targets L w) | Some l => l end in
  (forall d, In d l -> In d (map fst (targets L w))) -> run_detectable L dist w req = Ok (pairs w l).
Proof.
  intros es h w req NN I [SO TO] l R. pose proof I as [A B C D E F G].
  assert (forall k, names_once L (ents L w k)) as N.
  { intros k. unfold names_once. rewrite (same_classes _ _ (A k)). apply NN. }
  assert (forall s, In s (sensors L w) -> there L (ents L w (fst s)) (fst (snd s)) /\ there L (ents L w (fst s)) (snd (snd s))
            /\ number L (ents L w (fst s)) (fst (snd s)) /\ place L (ents L w (fst s)) (snd (snd s))) as SI.
  { intros [s [r n]] J. cbn [fst snd]. apply nget_in in J; [|exact D]. destruct (F _ _ _ J), (SO _ _ _ J). auto. }
  assert (forall d, In d l -> exists n, nget d (targets L w) = Some n) as TI.
  { intros d J. apply R, nget_key in J. destruct (nget d (targets L w)) as [n|]; [exists n; reflexivity|congruence]. }
  unfold run_detectable.
  rewrite (all_ok_map _ _ _ (fun s => gv (ents L w (fst s)) (fst (snd s)))) by (intros s J; apply gv_ok; apply (SI s J)).
  rewrite (all_ok_map _ _ _ (fun s => gv (ents L w (fst s)) (snd (snd s)))) by (intros s J; apply gv_ok; apply (SI s J)).
  fold l. rewrite detectable_filter.
  2:{ intros d J. destruct (TI d J) as [n T]. apply test_detect_ok; [apply N|]. exact (proj2 (G d n T)). }
  rewrite (all_ok_map _ _ _ (fun d => (d, gv (ents L w d) (tname w d)))).
  2:{ intros d J. apply filter_In in J. destruct (TI d (proj1 J)) as [n T]. unfold tname. rewrite T.
      rewrite (proj1 (gv_ok _ _ (proj1 (G d n T)))). reflexivity. }
  rewrite combine_map.
  rewrite (all_ok_map _ _ _ (fun p => map (fun d => (fst (fst p), d, sees (ents L w (fst (fst p))) (snd (snd p)) (fst (snd p)) (gv (ents L w d) (tname w d))))
       (filter (fun d => negb (Nat.eqb d (fst (fst p)))) (filter (seen_now w) l)))).
  - f_equal. unfold pairs. rewrite map_map. cbn [fst snd]. symmetry. apply flat_map_concat_map.
  - intros [[s [r n]] [rad loc]] J. apply in_map_iff in J. destruct J as (s' & [= -> <- <-] & J). cbn [fst snd].
    destruct (SI _ J) as (T1 & T2 & K1 & K2). cbn [fst snd] in *.
    rewrite against_map.
    + rewrite (filter_map_fst (fun d => gv (ents L w d) (tname w d)) (fun d => negb (Nat.eqb d s))), map_map. reflexivity.
    + intros d v J2 _. apply in_map_iff in J2. destruct J2 as (d' & [= -> <-] & J2). apply filter_In in J2.
      destruct (TI d (proj1 J2)) as [m T]. unfold tname; rewrite T. destruct (TO d m T) as [K3 _].
      destruct (K3 _ (proj2 (gv_ok _ _ (proj1 (G d m T))))) as [p3 ->].
      destruct (K2 _ (proj2 (gv_ok _ _ T2))) as [p2 ->]. destruct (K1 _ (proj2 (gv_ok _ _ T1))) as [q ->].
      unfold detect_dist. destruct (o_check L (ents L w s)); eexists; reflexivity.
Qed.
Lemma has_gv : forall (e : ent) n v, has L e n v -> gv e n = v.
Proof. intros e n v H. unfold gv, has in *. rewrite H. reflexivity. Qed.
Lemma pairs_in : forall es h w l, (forall k, names_once L (es k)) -> inv es h w -> sorted_ok w ->
  (forall d, In d l -> In d (map fst (targets L w))) ->
  forall s d b, In (s, d, b) (pairs w l) <->
    In d l /\ s <> d /\ can_be_seen L (ents L w d)
    /\ exists rn ln dn, sensing L s h = Some (rn, ln) /\ watched L es d h dn
       /\ (b = true <-> in_range L dist (ents L w) s d rn ln dn).
Proof.
  intros es h w l NN I [SO TO] R s d b. pose proof I as [A B C D E F G].
  assert (forall k, names_once L (ents L w k)) as N.
  { intros k. unfold names_once. rewrite (same_classes _ _ (A k)). apply NN. }
  assert (forall d, In d l -> exists n, nget d (targets L w) = Some n) as TI.
  { intros k J. apply R, nget_key in J. destruct (nget k (targets L w)) as [n|]; [exists n; reflexivity|congruence]. }
  assert (forall rn ln dn, nget s (sensors L w) = Some (rn, ln) -> nget d (targets L w) = Some dn ->
            (sees (ents L w s) (gv (ents L w s) ln) (gv (ents L w s) rn) (gv (ents L w d) dn) = true
             <-> in_range L dist (ents L w) s d rn ln dn)) as V.
  { intros rn ln dn H1 H2. destruct (F _ _ _ H1) as [T1 T2], (SO _ _ _ H1) as [K1 K2].
    pose proof (proj1 (G _ _ H2)) as T3. destruct (TO _ _ H2) as [K3 _].
    destruct T1 as [v1 V1], T2 as [v2 V2], T3 as [v3 V3].
    destruct (K1 _ V1) as [q ->], (K2 _ V2) as [p2 ->], (K3 _ V3) as [p3 ->].
    rewrite (has_gv _ _ _ V1), (has_gv _ _ _ V2), (has_gv _ _ _ V3). unfold sees, detect_dist, in_range.
    destruct (o_check L (ents L w s)) as [f|].
    - split; [intros X; exists p3; auto|intros (p & P & X)]. unfold has in *. congruence.
    - rewrite Qleb_le. split; [intros X; exists p3; split; [exact V3|]; exists p2, q; auto|].
      intros (p & P & q2 & r2 & X & Y & Z). unfold has in *.
      assert (p = p3) as -> by congruence. assert (q2 = p2) as -> by congruence. assert (r2 = q) as -> by congruence. exact Z. }
  assert (In d l -> (seen_now w d = true <-> can_be_seen L (ents L w d))) as W.
  { intros J. destruct (TI d J) as [n T]. destruct (TO d n T) as [_ K].
    destruct (proj2 (test_detect_ok _ (N d)) (proj2 (G d n T))) as [c X]. unfold seen_now. rewrite X.
    apply test_detect_sees; auto. }
  unfold pairs. rewrite in_flat_map. split.
  - intros ([s' [rn ln]] & J & K). apply in_map_iff in K. cbn [fst snd] in K. destruct K as (d' & [= -> -> <-] & K).
    apply filter_In in K. destruct K as [K Z]. apply filter_In in K. destruct K as [K S].
    apply negb_true_iff, Nat.eqb_neq in Z. split; [exact K|]. split; [congruence|]. split; [apply (W K), S|].
    apply nget_in in J; [|exact D]. destruct (TI d K) as [dn T]. exists rn, ln, dn.
    split; [rewrite <- B; exact J|]. split; [apply C, T|]. unfold tname. rewrite T. apply V; assumption.
  - intros (J & Z & S & rn & ln & dn & X & Y & Vb). rewrite <- B in X. apply C in Y.
    exists (s, (rn, ln)). split; [apply nget_in; assumption|]. apply in_map_iff. exists d. cbn [fst snd]. split.
    + f_equal. unfold tname. rewrite Y. pose proof (V rn ln dn X Y) as V'.
      destruct b, (sees _ _ _ _); try reflexivity; exfalso; [|]; intuition congruence.
    + apply filter_In. split; [apply filter_In; split; [exact J|apply (W J), S]|].
      apply negb_true_iff, Nat.eqb_neq. congruence.
Qed.
Lemma pairs_once : forall (w : st) l, NoDup (map fst (sensors L w)) -> NoDup l -> NoDup (map fst (pairs w l)).
Proof.
  intros w l D N. unfold pairs. set (f := fun d => seen_now w d).
  assert (NoDup (filter (seen_now w) l)) as N1 by (apply NoDup_filter, N).
  revert D. induction (sensors L w) as [|[s [r n]] ss IH]; cbn [map flat_map fst snd]; intros D; [constructor|].
  inversion D as [|x y Ni Nd]; subst. rewrite map_app. specialize (IH Nd).
  apply NoDup_app_intro; [|exact IH|].
  - rewrite map_map. cbn [fst]. apply FinFun.Injective_map_NoDup; [intros a b [= ->]; reflexivity|]. apply NoDup_filter, N1.
  - intros [a b] X Y. rewrite map_map in X. apply in_map_iff in X. cbn [fst] in X. destruct X as (d & [= <- <-] & _).
    apply in_map_iff in Y. destruct Y as ([[s' d'] c] & [= -> ->] & Y). apply in_flat_map in Y.
    destruct Y as ([s2 rl] & J & K). apply in_map_iff in K. cbn [fst] in K. destruct K as (d2 & [= -> _ _] & _).
    apply Ni. apply (in_map fst) in J. exact J.
Qed.
End P.
