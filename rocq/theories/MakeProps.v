(** Making and cloning actors: C71-C76. *)
From Coq Require Import ZArith List Bool Arith Lia Permutation.
From Verif Require Import MakeModel MakeSpec MakeProofs.
Import ListNotations.

Section MakeProps.
Variable sub : nat -> nat -> bool.
Variable NONE TYPE STR LIST DICT : nat.
Variable resource_class : nat -> bool.
Variable accepts : nat -> list (name * val) -> bool.
Variable initial : nat -> list (name * val) -> Z.
Variable produce : nat -> nat -> option (nat * Z).
Variable def : nat -> sdef.
Variable order : list name -> list name.
Variable classes : nat -> class.
Notation make := (make sub NONE TYPE STR LIST DICT resource_class accepts initial produce def order classes).
Notation clone := (clone sub NONE TYPE STR LIST DICT resource_class accepts initial produce def order classes).
Notation set_attr := (set_attr sub NONE TYPE STR LIST DICT resource_class accepts initial def).
Notation takes := (takes sub NONE TYPE STR LIST DICT resource_class accepts).
Notation becomes := (becomes sub accepts initial).
Notation default_is := (default_is sub accepts initial produce).
Notation has_a_default := (has_a_default sub NONE TYPE STR LIST DICT accepts produce).
Notation held := (held sub NONE TYPE STR LIST DICT resource_class).
Notation builds := (builds sub accepts).
Notation clonable := (clonable sub NONE TYPE STR LIST DICT resource_class def).
Notation good_class := (good_class def).
Notation good_args := (good_args def).
Notation sound_class := (sound_class def).
Notation all_names := (all_names def).

(** ** C71: the states of a class *)
Theorem C71_states : forall c l, init_subclass def c = Ok l ->
  l = concat (map own (rev c)) /\ NoDup (map fst l) /\ forall n s, In (n, s) l <-> declared c n s.
Proof.
  intros c l H. destruct (init_subclass_ok def c l H) as [A [B _]]. split; [exact A|]. split; [exact B|]. intros n s. rewrite A. apply declared_in.
Qed.
Theorem C71_refused : forall c, proper c ->
  (init_subclass def c = Err ValueErr <-> twice c \/ exists n s, declared c n s /\ s_no_init (def s) = false /\ In n [SELF; NAME; DEBUG_LOG; DEBUG_LOG_TIME]) /\
  forall e, init_subclass def c = Err e -> e = ValueErr.
Proof.
  intros c P. assert (X : forall e, init_subclass def c = Err e -> e = ValueErr).
  { intros e H. unfold init_subclass in H. pose proof (all_states_eq (rev c) [] (NoDup_nil _)) as A. destruct (all_states (rev c) []) as [l|e0]; [|destruct A; congruence].
    match type of H with context [if ?b then _ else _] => destruct b end; congruence. }
  split; [|exact X]. rewrite <- (init_subclass_err def c P). split; [intro H; exists ValueErr; exact H|]. intros [e H]. rewrite H. f_equal. apply (X e H).
Qed.

(** Keyword order does not matter to constructors; a class is no store; a set is gone
    through in some order. *)
Hypothesis accepts_ext : forall c kw kw', (forall n, aget n kw = aget n kw') -> accepts c kw = accepts c kw'.
Hypothesis type_no_resource : forall t, resource_class t = true -> sub TYPE t = false.
Hypothesis order_perm : forall l, Permutation (order l) l.
Let make_is := make_ok sub NONE TYPE STR LIST DICT resource_class accepts initial produce def accepts_ext type_no_resource order classes order_perm.
Let clone_is := clone_ok sub NONE TYPE STR LIST DICT resource_class accepts initial produce def accepts_ext type_no_resource order classes order_perm.

(** ** C72: making an actor *)
Theorem C72_made : forall k kw w w' i, good_class (w_heap w) (classes k) -> good_args (w_heap w) (classes k) kw -> closed (w_heap w) -> make k kw w = (w', Ok i) ->
  exists a, w_actors w' = w_actors w ++ [a] /\ i = length (w_actors w) /\ a_class a = k /\
  (forall n v, gives kw n v -> exists s v', declared (classes k) n s /\ s_no_init (def s) = false /\ takes (def s) (w_heap w) v /\ aget n (a_dict a) = Some v' /\ becomes (def s) (w_heap w) v (w_heap w') v') /\
  (forall n s, declared (classes k) n s -> (forall v, ~ gives kw n v) -> default_is (def s) (w_heap w) (w_heap w') (aget n (a_dict a))) /\
  (forall n v, aget n (a_dict a) = Some v -> exists s, declared (classes k) n s /\ held (def s) (w_heap w') v).
Proof.
  intros k kw w w' i GC GA CL M. destruct (make_is k kw w w' (Ok i) GC GA CL M) as [_ [_ [[I [a [WA [M1 [_ [M2 [M3 [M4 _]]]]]]]] _]]]. exists a. split; [exact WA|]. split; [exact I|]. split; [exact M1|]. split; [exact M2|]. split; [exact M3|].
  intros n v E. destruct (M4 n v E) as [s [D [H _]]]. exists s. auto.
Qed.
(** Nothing that was there changes, whether an actor is made or not. *)
Theorem C72_nothing_else : forall k kw w w' r, good_class (w_heap w) (classes k) -> good_args (w_heap w) (classes k) kw -> closed (w_heap w) -> make k kw w = (w', r) ->
  (exists t, w_heap w' = w_heap w ++ t) /\ match r with Err _ => w_actors w' = w_actors w | Ok i => firstn i (w_actors w') = w_actors w end.
Proof.
  intros k kw w w' r GC GA CL M. destruct (make_is k kw w w' r GC GA CL M) as [T [_ [R _]]]. split; [exact T|]. destruct r as [i|e]; [|exact R]. destruct R as [-> [a [-> _]]]. rewrite firstn_app, Nat.sub_diag, firstn_all. cbn. apply app_nil_r.
Qed.
Theorem C72_makes : forall k kw w, good_class (w_heap w) (classes k) -> good_args (w_heap w) (classes k) kw -> closed (w_heap w) ->
  ~ twice (classes k) -> (forall n s, declared (classes k) n s -> s_no_init (def s) = false -> ~ In n [SELF; NAME; DEBUG_LOG; DEBUG_LOG_TIME]) ->
  (forall s, ~ declared (classes k) LOG s) -> NoDup (all_names (classes k)) ->
  (forall n v, gives kw n v -> exists s, declared (classes k) n s /\ s_no_init (def s) = false /\ takes (def s) (w_heap w) v) ->
  (forall n s, declared (classes k) n s -> (forall v, ~ gives kw n v) -> has_a_default (def s) (w_heap w)) ->
  exists w', make k kw w = (w', Ok (length (w_actors w))).
Proof.
  intros k kw w GC GA CL TW RN LG NN TK DF. destruct (make k kw w) as [w' r] eqn:M. destruct (make_is k kw w w' r GC GA CL M) as [_ [_ [R OK]]].
  specialize (OK TK (fun n s D N => or_intror (DF n s D N)) LG NN TW RN). destruct r as [i|e]; [destruct R as [-> _]; exists w'; reflexivity|].
  exfalso. destruct OK as [_ [n [s [D [NG L]]]]]. pose proof (has_a_has sub NONE TYPE STR LIST DICT accepts produce _ _ (DF n s D NG)) as A. apply lacks_has in L. congruence.
Qed.
(** A state that has no default must be given, and UpstageError says so. *)
Theorem C72_missing : forall k kw w, good_class (w_heap w) (classes k) -> good_args (w_heap w) (classes k) kw -> closed (w_heap w) ->
  ~ twice (classes k) -> (forall n s, declared (classes k) n s -> s_no_init (def s) = false -> ~ In n [SELF; NAME; DEBUG_LOG; DEBUG_LOG_TIME]) ->
  (forall s, ~ declared (classes k) LOG s) -> NoDup (all_names (classes k)) ->
  (forall n v, gives kw n v -> exists s, declared (classes k) n s /\ s_no_init (def s) = false /\ takes (def s) (w_heap w) v) ->
  (forall n s, declared (classes k) n s -> (forall v, ~ gives kw n v) -> lacks (def s) \/ has_a_default (def s) (w_heap w)) ->
  (exists n s, declared (classes k) n s /\ (forall v, ~ gives kw n v) /\ lacks (def s)) ->
  exists w', make k kw w = (w', Err UpstageErr) /\ w_actors w' = w_actors w.
Proof.
  intros k kw w GC GA CL TW RN LG NN TK DF [n [s [D [NG L]]]]. destruct (make k kw w) as [w' r] eqn:M. destruct (make_is k kw w w' r GC GA CL M) as [_ [_ [R OK]]].
  specialize (OK TK DF LG NN TW RN). destruct r as [i|e]; [exfalso; apply (OK n s D NG L)|]. destruct OK as [-> _]. exists w'. auto.
Qed.
(** Whatever is given that is no state, may not be given or is not taken, no actor is made. *)
Theorem C72_unwanted : forall k kw w n v, good_class (w_heap w) (classes k) -> good_args (w_heap w) (classes k) kw -> closed (w_heap w) -> gives kw n v ->
  (forall s, declared (classes k) n s -> s_no_init (def s) = true \/ ~ takes (def s) (w_heap w) v) -> exists w' e, make k kw w = (w', Err e) /\ w_actors w' = w_actors w.
Proof.
  intros k kw w n v GC GA CL G H. destruct (make k kw w) as [w' r] eqn:M. destruct (make_is k kw w w' r GC GA CL M) as [_ [_ [R _]]]. destruct r as [i|e]; [|exists w', e; auto].
  exfalso. destruct R as [_ [a [_ [_ [_ [M2 _]]]]]]. destruct (M2 n v G) as [s [v' [D [NI [TK _]]]]]. destruct (H s D) as [X|X]; [congruence|contradiction].
Qed.

(** ** C73: the resources of an actor *)
(** Those built are new, of the kind and with the arguments given, else the defaults. *)
Theorem C73_built : forall k kw w w' i, good_class (w_heap w) (classes k) -> good_args (w_heap w) (classes k) kw -> closed (w_heap w) -> make k kw w = (w', Ok i) ->
  exists a, nth_error (w_actors w') i = Some a /\
  forall n s, declared (classes k) n s -> is_resource (def s) -> forall cf, (cf = [] /\ (forall v, ~ gives kw n v)) \/ (exists v, gives kw n v /\ as_dict (w_heap w) v = Some cf) ->
    exists o c kk, aget n (a_dict a) = Some (VObj o) /\ (length (w_heap w) <= o)%nat /\ nth_error (w_heap w') o = Some (ORes c kk (initial c kk)) /\ builds (def s) cf c kk.
Proof.
  intros k kw w w' i GC GA CL M. destruct (make_is k kw w w' (Ok i) GC GA CL M) as [_ [_ [[I [a [WA [_ [_ [M2 [M3 _]]]]]]] _]]]. exists a. subst i. split; [rewrite WA, nth_error_app2, Nat.sub_diag by lia; reflexivity|].
  intros n s D RS cf H. destruct H as [[-> NG]|[v [G AD]]].
  - specialize (M3 n s D NG). unfold MakeSpec.default_is, is_resource in *. destruct (s_kind (def s)); try contradiction; exact M3.
  - destruct (M2 n v G) as [s' [v' [D' [_ [_ [E B]]]]]]. assert (s' = s).
    { destruct GC as [_ [US _]]. pose proof (US n s D). pose proof (US n s' D'). congruence. }
    subst s'. unfold MakeSpec.becomes, MakeSpec.resource_of, is_resource in *. rewrite AD in B. destruct (s_kind (def s)); try contradiction; destruct B as [o [c [kk [-> B]]]]; exists o, c, kk; auto.
Qed.
(** No two states of an actor are the same new object. *)
Theorem C73_apart : forall k kw w w' i, good_class (w_heap w) (classes k) -> good_args (w_heap w) (classes k) kw -> closed (w_heap w) -> make k kw w = (w', Ok i) ->
  exists a, nth_error (w_actors w') i = Some a /\
  forall n m o, n <> m -> aget n (a_dict a) = Some (VObj o) -> aget m (a_dict a) = Some (VObj o) -> (o < length (w_heap w))%nat.
Proof.
  intros k kw w w' i GC GA CL M. destruct (make_is k kw w w' (Ok i) GC GA CL M) as [_ [_ [[I [a [WA [_ [_ [_ [_ [_ [M5 _]]]]]]]]] _]]]. exists a. subst i. split; [rewrite WA, nth_error_app2, Nat.sub_diag by lia; reflexivity|]. exact M5.
Qed.
(** They cannot be set again, whatever the heap has become. *)
Theorem C73_once : forall k kw w w' i, good_class (w_heap w) (classes k) -> good_args (w_heap w) (classes k) kw -> closed (w_heap w) -> make k kw w = (w', Ok i) ->
  exists a, nth_error (w_actors w') i = Some a /\
  forall n s, declared (classes k) n s -> is_resource (def s) -> forall h d v, exists x, set_attr (classes k) n v (mkSt h d a) = (x, Some UpstageErr) /\ me x = a.
Proof.
  intros k kw w w' i GC GA CL M. destruct (make_is k kw w w' (Ok i) GC GA CL M) as [_ [_ [[I [a [WA [_ [_ [_ [_ [_ [_ [M6 _]]]]]]]]]] _]]]. exists a. subst i. split; [rewrite WA, nth_error_app2, Nat.sub_diag by lia; reflexivity|].
  intros n s D RS h d v. destruct (M6 n s D RS) as [K _]. apply memn_true in K. destruct GC as [_ [US _]]. unfold MakeModel.set_attr. rewrite (US n s D). unfold set_state, is_resource in *.
  assert (R : forall x, me x = a -> set_resource sub NONE TYPE STR LIST DICT accepts initial (def s) n v x = (x, Some UpstageErr)) by (intros x E; unfold set_resource; rewrite E, K; reflexivity).
  destruct (s_kind (def s)) as [ |  | m | | | ]; try contradiction.
  - eexists. split; [apply R; reflexivity|reflexivity].
  - unfold set_comms. rewrite R; [eexists; split; [reflexivity|]|].
    + destruct (as_dict _ v); [|reflexivity]. destruct (aget MODES l); [|reflexivity]. unfold pop_modes. destruct v; try reflexivity. cbn [heap]. destruct (nth_error h o) as [[]|]; reflexivity.
    + destruct (as_dict _ v); [|reflexivity]. destruct (aget MODES l); [|reflexivity]. unfold pop_modes. destruct v; try reflexivity. cbn [heap]. destruct (nth_error h o) as [[]|]; reflexivity.
Qed.
(** The modes of a communication store that was configured without modes are its state's. *)
Theorem C73_modes : forall k kw w w' i, good_class (w_heap w) (classes k) -> good_args (w_heap w) (classes k) kw -> closed (w_heap w) -> make k kw w = (w', Ok i) ->
  exists a, nth_error (w_actors w') i = Some a /\
  forall n s m, declared (classes k) n s -> s_kind (def s) = Comms m -> exists l, aget n (a_modes a) = Some l /\ (m = VList l \/ exists x, m = VStr x /\ l = [x]).
Proof.
  intros k kw w w' i GC GA CL M. destruct (make_is k kw w w' (Ok i) GC GA CL M) as [_ [_ [[I [a [WA [_ [_ [_ [_ [_ [_ [M6 _]]]]]]]]]] _]]]. exists a. subst i. split; [rewrite WA, nth_error_app2, Nat.sub_diag by lia; reflexivity|].
  intros n s m D K. destruct (M6 n s D) as [_ [MO _]]; [unfold is_resource; rewrite K; exact I|]. unfold modes_are in MO. rewrite K in MO. destruct m as [ |c|x|l|o]; try contradiction; eexists; (split; [exact MO|]); [right; eauto|left; reflexivity].
Qed.

(** ** C74: cloning *)
Theorem C74_clone : forall i new w a, nth_error (w_actors w) i = Some a -> let c := classes (a_class a) in
  good_class (w_heap w) c -> sound_class c -> closed (w_heap w) -> clonable c (w_heap w) a -> good_args (w_heap w) c new ->
  (forall n v, In (n, v) new -> exists s, declared c n s /\ takes (def s) (w_heap w) v) ->
  exists w' b, clone i new w = (w', Ok (length (w_actors w))) /\ w_actors w' = w_actors w ++ [b] /\ (exists t, w_heap w' = w_heap w ++ t) /\
    a_class b = a_class a /\ a_attrs b = attributes c /\
    (forall n v, aget n (a_dict b) = Some v -> exists s, declared c n s) /\
    forall n s, declared c n s ->
      (forall v, In (n, v) new -> exists v', aget n (a_dict b) = Some v' /\ becomes (def s) (w_heap w) v (w_heap w') v') /\
      (~ In n (map fst new) -> exists v v', aget n (a_dict a) = Some v /\ aget n (a_dict b) = Some v' /\ copied (def s) n a (w_heap w) v (w_heap w') v').
Proof. exact clone_is. Qed.
(** A new actor can be cloned, if its states may be given, none was left without value and
    no resource was given as an object. *)
Theorem C74_new : forall k kw w w' i, good_class (w_heap w) (classes k) -> good_args (w_heap w) (classes k) kw -> closed (w_heap w) -> make k kw w = (w', Ok i) ->
  (forall n s, declared (classes k) n s -> s_no_init (def s) = false /\ ~ parameter n /\ n <> SELF /\ s_allow_none (def s) = false /\ (is_resource (def s) -> forall v, gives kw n v -> as_dict (w_heap w) v <> None)) ->
  (forall n, ~ In (n, MProperty false) (hd [] (classes k))) ->
  exists w'' b a, clone i [] w' = (w'', Ok (S i)) /\ w_actors w' = w_actors w ++ [a] /\ w_actors w'' = w_actors w' ++ [b] /\ a_class b = k /\
    forall n s, declared (classes k) n s -> exists v v', aget n (a_dict a) = Some v /\ aget n (a_dict b) = Some v' /\ copied (def s) n a (w_heap w') v (w_heap w'') v'.
Proof.
  intros k kw w w' i GC GA CL M ST PR. destruct (make_is k kw w w' (Ok i) GC GA CL M) as [[t T] [CL' [[I [a [WA [M1 [_ [M2 [M3 [M4 [_ [M6 [M7 M8]]]]]]]]]]] _]]]. subst i.
  assert (TW : ~ twice (classes k)).
  { intro H. unfold MakeModel.make in M. destruct (proj2 (init_subclass_err def (classes k) (proj1 GC)) (or_introl H)) as [e E]. rewrite E in M. discriminate. }
  destruct (clone_is (length (w_actors w)) [] w' a) as [w'' [b [B1 [B2 [_ [B3 [_ [_ B4]]]]]]]].
  - rewrite WA, nth_error_app2, Nat.sub_diag by lia. reflexivity.
  - rewrite M1. destruct GC as [P [US WD]]. split; [exact P|]. split; [exact US|]. intros n s D. destruct (WD n s D) as [W1 W2]. split; [exact W1|]. rewrite T. apply valid_app. exact W2.
  - rewrite M1. split; [exact TW|]. split; [exact M7|]. split; [exact M8|exact PR].
  - exact CL'.
  - rewrite M1. intros n s D. destruct (ST n s D) as [S1 [S2 [S3 [S4 S5]]]]. split; [exact S1|]. split; [exact S2|]. split; [exact S3|].
    assert (V : exists v, aget n (a_dict a) = Some v).
    { destruct (aget n (state_kwargs kw)) as [v|] eqn:E.
      - apply aget_in in E. apply state_kwargs_in in E. destruct (M2 n v E) as [s' [v' [_ [_ [_ [X _]]]]]]. exists v'. exact X.
      - assert (NG : forall v, ~ gives kw n v) by (intros v G; apply state_kwargs_in in G; apply aget_none in E; apply E; apply in_map_iff; exists (n, v); auto).
        specialize (M3 n s D NG). destruct (aget n (a_dict a)) as [v|] eqn:EA; [exists v; reflexivity|]. exfalso. unfold MakeSpec.default_is in M3. destruct (s_kind (def s)); try contradiction; try (destruct M3 as [? [? [? [X _]]]]; discriminate).
        destruct (s_factory (def s)) as [f|]; [destruct M3 as [q M3]; destruct (produce f q) as [[c z]|]; [destruct M3 as [? [X _]]; discriminate|discriminate]|]. destruct (s_default (def s)); try discriminate. destruct M3; congruence. }
    destruct V as [v E]. exists v. split; [exact E|]. destruct (M4 n v E) as [s' [D' [H1 H2]]]. destruct GC as [_ [US _]]. assert (s' = s) by (pose proof (US n s D); pose proof (US n s' D'); congruence). subst s'. split; [exact H2|]. split; [exact H1|].
    intro RS. destruct (M6 n s D RS) as [_ [K1 K2]]. split; [exact K1|]. destruct (K2 (S5 RS)) as [o [c [kk [z [X1 [X2 X3]]]]]]. exists o, c, kk, z, kk. split; [congruence|auto].
  - split; [constructor|intros ? ? []].
  - intros ? ? [].
  - rewrite M1 in *. exists w'', b, a. split; [rewrite B1, WA, app_length; cbn; f_equal; f_equal; lia|]. split; [exact WA|]. split; [exact B2|]. split; [exact B3|]. intros n s D. apply (proj2 (B4 n s D)). intros [].
Qed.

(** ** Setting a state again, after the actor is made *)
Theorem C73_set_again : forall c n s v h d a, lookup n c = Some (MState s) ->
  (match s_kind (def s) with
   | Plain => s_frozen (def s) = true /\ aget n (a_dict a) <> None /\ aget n (a_dict a) <> Some VNone
   | Dict | Data | Multi => aget n (a_dict a) <> None
   | _ => False
   end) -> set_attr c n v (mkSt h d a) = (mkSt h d a, Some SimulationErr).
Proof.
  intros c n s v h d a L H. unfold MakeModel.set_attr. rewrite L. unfold set_state.
  assert (M : aget n (a_dict a) <> None -> amem n (a_dict a) = true) by (intro X; destruct (amem n (a_dict a)) eqn:Y; [reflexivity|exfalso; apply X, aget_none, amem_false; exact Y]).
  destruct (s_kind (def s)); try contradiction.
  - unfold set_plain. cbn [me]. destruct H as (F & N1 & N2). rewrite F. destruct (aget n (a_dict a)) as [[]|]; try contradiction; try reflexivity; congruence.
  - unfold set_dict. cbn [me]. rewrite (M H). reflexivity.
  - unfold set_data. cbn [me]. rewrite (M H). reflexivity.
  - unfold set_multi. cbn [me]. rewrite (M H). reflexivity.
Qed.
(** A state that is not frozen takes any value of its types, keeps it, and nothing else of
    the actor changes; of other values it says TypeError. *)
Theorem C73_set_plain : forall c n s v h d a, lookup n c = Some (MState s) -> s_kind (def s) = Plain -> s_frozen (def s) = false ->
  (fits sub NONE TYPE STR LIST DICT h (s_types (def s)) v ->
     exists a', set_attr c n v (mkSt h d a) = (mkSt h d a', None) /\ aget n (a_dict a') = Some v /\ (forall m, m <> n -> aget m (a_dict a') = aget m (a_dict a)) /\
       a_modes a' = a_modes a /\ a_memory a' = a_memory a /\ a_class a' = a_class a) /\
  (~ fits sub NONE TYPE STR LIST DICT h (s_types (def s)) v -> set_attr c n v (mkSt h d a) = (mkSt h d a, Some TypeErr)).
Proof.
  intros c n s v h d a L K F. unfold MakeModel.set_attr. rewrite L. unfold set_state. rewrite K. unfold set_plain. rewrite F. cbn [andb heap me].
  destruct (type_check sub NONE TYPE STR LIST DICT h (s_types (def s)) v) eqn:T.
  - split; [|intro N; exfalso; apply N; apply type_check_fits; exact T]. intros _. eexists. split; [reflexivity|]. cbn [a_dict a_modes a_memory a_class].
    split; [rewrite aget_aset, Nat.eqb_refl; reflexivity|]. split; [intros m M; rewrite aget_aset; destruct (Nat.eqb_spec m n); [contradiction|reflexivity]|]. auto.
  - split; [intro X; apply type_check_fits in X; congruence|]. reflexivity.
Qed.
End MakeProps.

(** ** Examples *)
(** Classes 0-4 as builtins; Store, Container, SelfMonitoringStore (a Store), others. *)
Definition STORE := 5. Definition CONTAINER := 6. Definition MSTORE := 7. Definition THING := 8.
Definition CAPACITY : name := 20. Definition INIT : name := 21.
Definition ex_sub (a b : nat) : bool := Nat.eqb a b || (Nat.eqb a MSTORE && Nat.eqb b STORE).
Definition ex_res (c : nat) : bool := ex_sub c STORE || ex_sub c CONTAINER.
Definition ex_accepts (c : nat) (kw : list (name * val)) : bool :=
  match aget 22 kw with Some _ => false | None => match aget INIT kw with Some _ => Nat.eqb c CONTAINER | None => true end end.
Definition ex_initial (c : nat) (kw : list (name * val)) : Z := match aget INIT kw with Some (VStr s) => Z.of_nat s | _ => 0%Z end.
(** A factory that draws random numbers *)
Definition ex_produce (f k : nat) : option (nat * Z) := Some (THING, (100 + Z.of_nat k)%Z).
Definition plain (default : val) (types : list nat) : sdef := mkDef Plain default None false false false types [] [].
Definition ex_def (s : nat) : sdef :=
  match s with
  | 0 => plain VNone [2]
  | 1 => plain (VStr 9) [2]
  | 2 => mkDef Resource (VClass STORE) None false false false [STORE; CONTAINER] [] [(CAPACITY, VStr 5)]
  | 3 => mkDef (Comms (VStr 77)) (VClass MSTORE) None false false false [STORE; MSTORE] [] []
  | 4 => mkDef Dict VNone None false false false [2] [] []
  | 5 => mkDef Plain VNone (Some 0) false false false [THING] [] []
  | 6 => mkDef Multi (VClass STORE) None false false false [STORE; CONTAINER] [] []
  | 7 => mkDef Plain (VStr 0) None true false false [] [] []
  | 8 => mkDef Plain VNone None false false true [] [] []
  | 9 => mkDef (Comms VNone) (VClass MSTORE) None false false false [STORE; MSTORE] [] []
  | _ => plain VNone []
  end.
(** 0: base; 1: a class with a base; 2: a state shadowed; 3: two random states; 4: a state
    called initial_knowledge; 5, 6: communication stores; 7: no_init; 8: None allowed; 9: a
    resource; 10: a property; 11: a class method; 12: named stores *)
Definition ex_classes (k : nat) : class :=
  match k with
  | 0 => [[(10, MState 0); (11, MState 1)]]
  | 1 => [[(12, MState 2); (40, MFunction); (41, MValue (VStr 6)); (13, MState 3); (14, MState 4); (15, MState 5); (16, MState 6)]; [(10, MState 0); (11, MState 1)]]
  | 2 => [[(10, MValue (VStr 1))]; [(10, MState 0)]]
  | 3 => [[(15, MState 5); (17, MState 5)]]
  | 4 => [[(KNOWLEDGE, MState 0)]]
  | 5 => [[(13, MState 3)]]
  | 6 => [[(13, MState 9)]]
  | 7 => [[(10, MState 7)]]
  | 8 => [[(10, MState 8)]]
  | 9 => [[(12, MState 2)]]
  | 10 => [[(10, MState 0); (42, MProperty false)]]
  | 11 => [[(10, MState 0); (43, MClassMethod)]]
  | 12 => [[(16, MState 6)]]
  | _ => []
  end.
Definition ex_make (order : list name -> list name) := make ex_sub 0 1 2 3 4 ex_res ex_accepts ex_initial ex_produce ex_def order ex_classes.
Definition ex_clone := clone ex_sub 0 1 2 3 4 ex_res ex_accepts ex_initial ex_produce ex_def (fun l => l) ex_classes.
(** {"capacity": 8}, {1: "a"}, {"kind": Container, "init": 30} *)
Definition ex_heap : list obj := [ODict [(CAPACITY, VStr 8)]; ODict [(1, VStr 4)]; ODict [(KIND, VClass CONTAINER); (INIT, VStr 30)]].
Definition ex_world := mkWorld ex_heap 0 [].
Definition ex_kw : list (name * val) := [(NAME, VStr 0); (10, VStr 3); (12, VObj 2); (14, VObj 1); (16, VList [30; 31])].

Example C71_example : init_subclass ex_def (ex_classes 1) = Ok [(10, 0); (11, 1); (12, 2); (13, 3); (14, 4); (15, 5); (16, 6)] /\
  init_subclass ex_def [[(11, MState 0)]; [(10, MState 0); (11, MState 1)]] = Err ValueErr /\ init_subclass ex_def [[(NAME, MState 0)]] = Err ValueErr.
Proof. vm_compute. auto. Qed.

Lemma ex_ext : forall c kw kw', (forall n, aget n kw = aget n kw') -> ex_accepts c kw = ex_accepts c kw'.
Proof. intros c kw kw' H. unfold ex_accepts. rewrite !H. reflexivity. Qed.
Lemma ex_type : forall t, ex_res t = true -> ex_sub 1 t = false.
Proof. intros t H. unfold ex_sub, ex_res in *. destruct (Nat.eqb_spec 1 t); [subst; discriminate|reflexivity]. Qed.
Lemma ex_declared : forall n s, declared (ex_classes 1) n s -> In (n, s) [(10, 0); (11, 1); (12, 2); (13, 3); (14, 4); (15, 5); (16, 6)].
Proof.
  intros n s [d [[<-|[<-|[]]] I]]; repeat (destruct I as [I|I]; [try discriminate; inversion I; subst; cbn; tauto|]); contradiction.
Qed.
Lemma ex_good : good_class ex_def ex_heap (ex_classes 1).
Proof.
  split; [|split].
  - intros d [<-|[<-|[]]]; apply repeated_false; reflexivity.
  - intros n s D. apply ex_declared in D. repeat (destruct D as [D|D]; [inversion D; subst; reflexivity|]); contradiction.
  - intros n s D. apply ex_declared in D.
    repeat (destruct D as [D|D]; [inversion D; subst; vm_compute; repeat (split; auto); discriminate|]); contradiction.
Qed.
Lemma ex_args : good_args ex_def ex_heap (ex_classes 1) ex_kw.
Proof.
  split; [apply repeated_false; reflexivity|]. intros n v I. split; [repeat (destruct I as [I|I]; [inversion I; subst; cbn; lia || exact Logic.I|]); contradiction|].
  intros s D. apply ex_declared in D. split.
  - intros m kv K A. repeat (destruct D as [D|D]; [inversion D; subst; try discriminate; repeat (destruct I as [I|I]; [inversion I; subst; try discriminate|]); contradiction|]); contradiction.
  - intros l K E. subst v. repeat (destruct I as [I|I]; [inversion I; subst; try (apply repeated_false; reflexivity)|]); contradiction.
Qed.
Lemma ex_closed : closed ex_heap.
Proof.
  intros o d H. destruct o as [|[|[|o]]]; cbn in H; try (inversion H; subst; split; [apply repeated_false; reflexivity|]; intros n v I; repeat (destruct I as [I|I]; [inversion I; subst; exact Logic.I|]); contradiction). destruct o; discriminate.
Qed.
(** The hypotheses of the theorems are met, and this is the actor made. *)
Example C72_example : exists h, ex_make (fun l => l) 1 ex_kw ex_world =
  (mkWorld h 1 [mkActor 1 [(10, VStr 3); (12, VObj 3); (14, VObj 4); (16, VObj 9); (11, VStr 9); (13, VObj 11); (15, VObj 12)]
     [(12, [(CAPACITY, VStr 5); (INIT, VStr 30)]); (13, [])] [(13, [77])] [13; 12] []], Ok 0) /\
  nth_error h 3 = Some (ORes CONTAINER [(CAPACITY, VStr 5); (INIT, VStr 30)] 30) /\ nth_error h 4 = Some (ODict [(1, VStr 4)]) /\
  nth_error h 9 = Some (ODict [(30, VObj 7); (31, VObj 8)]) /\ nth_error h 7 = Some (ORes STORE [] 0) /\ nth_error h 11 = Some (ORes MSTORE [] 0) /\ nth_error h 12 = Some (OPlain THING 100) /\
  firstn 3 h = ex_heap.
Proof. eexists. vm_compute. repeat split. Qed.
Example C72_example_hypotheses : good_class ex_def (w_heap ex_world) (ex_classes 1) /\ good_args ex_def (w_heap ex_world) (ex_classes 1) ex_kw /\ closed (w_heap ex_world).
Proof. split; [exact ex_good|]. split; [exact ex_args|exact ex_closed]. Qed.
(** Not given: "10" (UpstageError); given though unknown; of the wrong type *)
Example C72_example_errors :
  snd (ex_make (fun l => l) 1 [(12, VObj 2); (14, VObj 1); (16, VList [30; 31])] ex_world) = Err UpstageErr /\
  snd (ex_make (fun l => l) 1 ((50, VNone) :: ex_kw) ex_world) = Err UpstageErr /\
  snd (ex_make (fun l => l) 0 [(10, VClass STORE)] ex_world) = Err TypeErr.
Proof. vm_compute. auto. Qed.
(** What C72_makes asks, for the base class and one value *)
Example C72_example_makes : let c := ex_classes 0 in let kw := [(10, VStr 3)] in
  ~ twice c /\ NoDup (all_names ex_def c) /\ (forall s, ~ declared c LOG s) /\
  (forall n v, gives kw n v -> exists s, declared c n s /\ s_no_init (ex_def s) = false /\ takes ex_sub 0 1 2 3 4 ex_res ex_accepts (ex_def s) ex_heap v) /\
  (forall n s, declared c n s -> (forall v, ~ gives kw n v) -> has_a_default ex_sub 0 1 2 3 4 ex_accepts ex_produce (ex_def s) ex_heap).
Proof.
  assert (D : forall n s, declared (ex_classes 0) n s -> (n, s) = (10, 0) \/ (n, s) = (11, 1)).
  { intros n s [d [[<-|[]] [I|[I|[]]]]]; inversion I; auto. }
  split; [|split; [apply repeated_false; reflexivity|split; [|split]]].
  - intros [i [j [di [dj [n [s [t [L [A [B _]]]]]]]]]]. destruct j as [|[|j]]; try discriminate. lia.
  - intros s X. destruct (D _ _ X); discriminate.
  - intros n v [[I|[]] _]. inversion I; subst. exists 0. split; [exists [(10, MState 0); (11, MState 1)]; split; left; reflexivity|]. split; [reflexivity|]. right. exists 2. split; [left; reflexivity|reflexivity].
  - intros n s X NG. destruct (D _ _ X) as [E|E]; inversion E; subst.
    + exfalso. apply (NG (VStr 3)). split; [left; reflexivity|]. intro P; repeat (destruct P as [P|P]; [discriminate|]); exact P.
    + right. exists 2. split; [left; reflexivity|reflexivity].
Qed.
(** What C74_new asks *)
Example C74_example_hypotheses : (forall n s, declared (ex_classes 1) n s -> s_no_init (ex_def s) = false /\ ~ parameter n /\ n <> SELF /\ s_allow_none (ex_def s) = false /\
    (is_resource (ex_def s) -> forall v, gives ex_kw n v -> as_dict ex_heap v <> None)) /\ forall n, ~ In (n, MProperty false) (hd [] (ex_classes 1)).
Proof.
  split.
  - intros n s D. apply ex_declared in D. unfold parameter, SELF, NAME, DEBUG_LOG, DEBUG_LOG_TIME, KNOWLEDGE.
    repeat (destruct D as [D|D]; [inversion D; subst; split; [reflexivity|]; split; [intro P; repeat (destruct P as [P|P]; [discriminate|]); exact P|]; split; [lia|]; split; [reflexivity|]; intros []; intros v [I _]; repeat (destruct I as [I|I]; [inversion I; subst; discriminate|]); destruct I|]); contradiction.
  - intros n I. cbn in I. repeat (destruct I as [I|I]; [discriminate|]). exact I.
Qed.
(** Cloned, the container is a new one with the old level, the stores of "16" are the old
    ones in a new dictionary; "11" is given. *)
Example C74_example : let '(w, _) := ex_make (fun l => l) 1 ex_kw ex_world in
  exists h b, ex_clone 0 [(11, VStr 50)] w = (mkWorld h 1 (w_actors w ++ [b]), Ok 1) /\ aget 11 (a_dict b) = Some (VStr 50) /\ aget 10 (a_dict b) = Some (VStr 3) /\
    aget 12 (a_dict b) = Some (VObj 13) /\ nth_error h 13 = Some (ORes CONTAINER [(CAPACITY, VStr 5); (INIT, VStr 30)] 30) /\
    aget 16 (a_dict b) = Some (VObj 19) /\ nth_error h 19 = Some (ODict [(30, VObj 7); (31, VObj 8)]) /\ a_attrs b = [(41, MValue (VStr 6))].
Proof. vm_compute. eexists. eexists. repeat split. Qed.

(** ** C75: what an actor is should depend on what is given only *)
(** The value of a state is checked against its types ... unless a subclass has a class
    attribute of the same name. *)
Theorem C75_shadowed_refuted : let '(w, r) := ex_make (fun l => l) 2 [(10, VClass STORE)] ex_world in
  r = Ok 0 /\ option_map (fun a => aget 10 (a_dict a)) (nth_error (w_actors w) 0) = Some (Some (VClass STORE)) /\
  declared (ex_classes 2) 10 0 /\ ~ fits ex_sub 0 1 2 3 4 (w_heap w) (s_types (ex_def 0)) (VClass STORE).
Proof.
  vm_compute. split; [reflexivity|]. split; [reflexivity|]. split; [exists [(10, MState 0)]; split; [right; left; reflexivity|left; reflexivity]|].
  intros [H|[t [[<-|[]] H]]]; discriminate.
Qed.
(** Defaults drawn from a random generator: the same call gives the states other values
    when the set of names is gone through in another order (as with another hash seed). *)
Theorem C75_order_refuted :
  let value r n := let '(w, _) := r in match nth_error (w_actors w) 0 with Some a => match aget n (a_dict a) with Some (VObj o) => nth_error (w_heap w) o | _ => None end | None => None end in
  (forall l, Permutation (@rev name l) l) /\
  value (ex_make (fun l => l) 3 [] ex_world) 15 = Some (OPlain THING 100) /\ value (ex_make (@rev name) 3 [] ex_world) 15 = Some (OPlain THING 101).
Proof. split; [intro l; apply Permutation_sym, Permutation_rev|]. vm_compute. auto. Qed.
(** A state called initial_knowledge is declared, is given a value, and misses it. *)
Theorem C75_knowledge_refuted : init_subclass ex_def (ex_classes 4) = Ok [(KNOWLEDGE, 0)] /\ snd (ex_make (fun l => l) 4 [(KNOWLEDGE, VStr 3)] ex_world) = Err UpstageErr.
Proof. vm_compute. auto. Qed.
(** The same dictionary given twice makes two different actors, or one: the modes are
    taken out of it. *)
Theorem C75_modes_refuted :
  let w0 := mkWorld [ODict [(MODES, VStr 50)]] 0 [] in
  let '(w1, r1) := ex_make (fun l => l) 5 [(13, VObj 0)] w0 in
  let '(w2, r2) := ex_make (fun l => l) 5 [(13, VObj 0)] w1 in
  let '(w3, r3) := ex_make (fun l => l) 6 [(13, VObj 0)] w0 in
  let '(w4, r4) := ex_make (fun l => l) 6 [(13, VObj 0)] w3 in
  r1 = Ok 0 /\ r2 = Ok 1 /\ map (fun a => aget 13 (a_modes a)) (w_actors w2) = [Some [50]; Some [77]] /\
  r3 = Ok 0 /\ r4 = Err SimulationErr /\ nth_error (w_heap w1) 0 = Some (ODict []).
Proof. vm_compute. repeat split. Qed.

(** ** C76: any actor can be cloned, and its clone is independent of it *)
Definition made_then_cloned (k : nat) (kw : list (name * val)) (w : world) : res nat * res nat :=
  let '(w1, r1) := ex_make (fun l => l) k kw w in (r1, snd (ex_clone 0 [] w1)).
(** An actor with a no_init state cannot be cloned: the clone is given the state. *)
Theorem C76_no_init_refuted : made_then_cloned 7 [] ex_world = (Ok 0, Err SimulationErr).
Proof. reflexivity. Qed.
(** Nor one with a state left without a value ... *)
Theorem C76_no_value_refuted : made_then_cloned 8 [] ex_world = (Ok 0, Err SimulationErr).
Proof. reflexivity. Qed.
(** ... nor one that was given a store ... *)
Theorem C76_given_store_refuted : made_then_cloned 9 [(12, VObj 0)] (mkWorld [ORes STORE [] 0] 0 []) = (Ok 0, Err KeyErr).
Proof. reflexivity. Qed.
(** ... nor a clone of an actor with a store ... *)
Theorem C76_clone_refuted : let '(w1, r1) := ex_make (fun l => l) 9 [] ex_world in let '(w2, r2) := ex_clone 0 [] w1 in
  r1 = Ok 0 /\ r2 = Ok 1 /\ snd (ex_clone 1 [] w2) = Err KeyErr.
Proof. vm_compute. auto. Qed.
(** ... nor one whose class has a read-only property. *)
Theorem C76_property_refuted : made_then_cloned 10 [(10, VStr 3)] ex_world = (Ok 0, Err AttributeErr).
Proof. reflexivity. Qed.
(** Modes given to the actor do not reach the clone, which has others or is not made. *)
Theorem C76_modes_refuted :
  let w0 := mkWorld [ODict [(MODES, VStr 50)]] 0 [] in
  made_then_cloned 6 [(13, VObj 0)] w0 = (Ok 0, Err SimulationErr) /\
  let '(w1, _) := ex_make (fun l => l) 5 [(13, VObj 0)] w0 in map (fun a => aget 13 (a_modes a)) (w_actors (fst (ex_clone 0 [] w1))) = [Some [50]; Some [77]].
Proof. vm_compute. auto. Qed.
(** A class method is replaced, on the clone, by the bare descriptor, which is not callable. *)
Theorem C76_classmethod_refuted : let '(w1, _) := ex_make (fun l => l) 11 [(10, VStr 3)] ex_world in
  map a_attrs (w_actors (fst (ex_clone 0 [] w1))) = [[]; [(43, MClassMethod)]].
Proof. reflexivity. Qed.
(** The named stores of the clone are those of the actor. *)
Theorem C76_shared_refuted : let '(w1, _) := ex_make (fun l => l) 12 [(16, VList [30])] ex_world in let '(w2, r) := ex_clone 0 [] w1 in
  r = Ok 1 /\ map (fun a => match aget 16 (a_dict a) with Some (VObj o) => nth_error (w_heap w2) o | _ => None end) (w_actors w2) = [Some (ODict [(30, VObj 4)]); Some (ODict [(30, VObj 4)])] /\
  nth_error (w_heap w2) 4 = Some (ORes STORE [] 0).
Proof. vm_compute. auto. Qed.

Print Assumptions C71_states.
Print Assumptions C71_refused.
Print Assumptions C72_made.
Print Assumptions C72_nothing_else.
Print Assumptions C72_makes.
Print Assumptions C72_missing.
Print Assumptions C72_unwanted.
Print Assumptions C73_built.
Print Assumptions C73_apart.
Print Assumptions C73_once.
Print Assumptions C73_modes.
Print Assumptions C74_clone.
Print Assumptions C74_new.
Print Assumptions C75_shadowed_refuted.
Print Assumptions C75_order_refuted.
Print Assumptions C75_knowledge_refuted.
Print Assumptions C75_modes_refuted.
Print Assumptions C76_no_init_refuted.
Print Assumptions C76_no_value_refuted.
Print Assumptions C76_given_store_refuted.
Print Assumptions C76_clone_refuted.
Print Assumptions C76_property_refuted.
Print Assumptions C76_modes_refuted.
Print Assumptions C76_classmethod_refuted.
Print Assumptions C76_shared_refuted.

Print Assumptions C73_set_again.
Print Assumptions C73_set_plain.

(** Set again: the dictionary state "14" refuses, the plain "10" takes a string and no class. *)
Example C73_set_ex : let a := mkActor 1 [(14, VObj 1); (10, VStr 3)] [] [] [] [] in
  let set := set_attr ex_sub 0 1 2 3 4 ex_res ex_accepts ex_initial ex_def [[(14, MState 4); (10, MState 0)]] in
  set 14 (VObj 1) (mkSt ex_heap 0 a) = (mkSt ex_heap 0 a, Some SimulationErr) /\
  aget 10 (a_dict (me (fst (set 10 (VStr 8) (mkSt ex_heap 0 a))))) = Some (VStr 8) /\
  set 10 (VClass STORE) (mkSt ex_heap 0 a) = (mkSt ex_heap 0 a, Some TypeErr).
Proof. vm_compute. auto. Qed.
