From Coq Require Import ZArith List Bool Arith Lia Permutation.
From Verif Require Import MakeModel MakeSpec.
Import ListNotations.

(** ** Association lists *)
Lemma amem_true : forall A n (l : list (name * A)), amem n l = true <-> In n (map fst l).
Proof.
  intros A n l. unfold amem. rewrite existsb_exists, in_map_iff. split.
  - intros [[m v] [H E]]. apply Nat.eqb_eq in E. cbn in E. subst m. exists (n, v). auto.
  - intros [[m v] [E H]]. cbn in E. subst m. exists (n, v). split; [exact H|]. apply Nat.eqb_refl.
Qed.
Lemma amem_false : forall A n (l : list (name * A)), amem n l = false <-> ~ In n (map fst l).
Proof. intros. rewrite <- amem_true. destruct (amem n l); split; intro H; congruence. Qed.
Lemma aget_in : forall A n (l : list (name * A)) v, aget n l = Some v -> In (n, v) l.
Proof.
  intros A n l v. induction l as [|[m w] l IH]; cbn; [discriminate|]. destruct (Nat.eqb_spec n m) as [->|E]; intro H; [inversion H; auto|right; auto].
Qed.
Lemma aget_none : forall A n (l : list (name * A)), aget n l = None <-> ~ In n (map fst l).
Proof.
  intros A n l. induction l as [|[m w] l IH]; cbn; [split; auto|]. destruct (Nat.eqb_spec n m) as [->|E]; [split; [discriminate|intro H; exfalso; apply H; auto]|].
  rewrite IH. split; intros H; [intros [X|X]; [congruence|auto]|auto].
Qed.
Lemma aget_nodup : forall A n (l : list (name * A)) v, NoDup (map fst l) -> In (n, v) l -> aget n l = Some v.
Proof.
  intros A n l v. induction l as [|[m w] l IH]; cbn; [intros _ []|]. intros N [H|H].
  - inversion H; subst. rewrite Nat.eqb_refl. reflexivity.
  - inversion N as [|? ? N1 N2]; subst. destruct (Nat.eqb_spec n m) as [->|E]; [|auto]. exfalso. apply N1. apply in_map_iff. exists (m, v). auto.
Qed.
Lemma aget_aset : forall A n m (v : A) l, aget m (aset n v l) = if Nat.eqb m n then Some v else aget m l.
Proof.
  intros A n m v l. induction l as [|[k w] l IH]; cbn; [reflexivity|]. destruct (Nat.eqb_spec n k) as [->|E]; cbn.
  - destruct (Nat.eqb_spec m k); reflexivity.
  - rewrite IH. destruct (Nat.eqb_spec m k) as [->|E']; [|reflexivity]. destruct (Nat.eqb_spec k n) as [->|]; [congruence|reflexivity].
Qed.
Lemma aget_adel : forall A n m (l : list (name * A)), aget m (adel n l) = if Nat.eqb m n then None else aget m l.
Proof.
  intros A n m l. unfold adel. induction l as [|[k w] l IH]; cbn; [destruct (Nat.eqb m n); reflexivity|]. destruct (Nat.eqb_spec n k) as [->|E]; cbn.
  - rewrite IH. destruct (Nat.eqb_spec m k); reflexivity.
  - rewrite IH. destruct (Nat.eqb_spec m k) as [->|E']; [|reflexivity]. destruct (Nat.eqb_spec k n) as [->|]; [congruence|reflexivity].
Qed.
Lemma aget_aupdate_nodup : forall A (e d : list (name * A)) n, NoDup (map fst e) ->
  aget n (aupdate d e) = match aget n e with Some v => Some v | None => aget n d end.
Proof.
  intros A e. induction e as [|[m v] e IH]; intros d n N; [reflexivity|]. cbn [aupdate aget]. inversion N as [|? ? N1 N2]; subst.
  rewrite (IH _ _ N2), aget_aset. destruct (Nat.eqb_spec n m) as [->|E]; [|reflexivity].
  apply aget_none in N1. rewrite N1. reflexivity.
Qed.
Lemma memn_true : forall n l, memn n l = true <-> In n l.
Proof.
  intros n l. unfold memn. rewrite existsb_exists. split.
  - intros [m [H E]]. apply Nat.eqb_eq in E. subst. exact H.
  - intro H. exists n. split; [exact H|apply Nat.eqb_refl].
Qed.
Lemma existsb_in : forall (f : nat -> bool) l, existsb f l = true <-> exists t, In t l /\ f t = true.
Proof. intros. apply existsb_exists. Qed.

(** ** Classes *)
Lemma add_states_eq : forall d acc, add_states d acc = if existsb (fun e => amem (fst e) acc) (own d) || repeated (map fst (own d)) then Err ValueErr else Ok (acc ++ own d).
Proof.
  intro d. induction d as [|[n m] d IH]; intro acc; [cbn; rewrite app_nil_r; reflexivity|].
  destruct m as [s| |b| |v| ]; cbn [add_states own flat_map fst snd app]; fold (own d); try apply IH.
  cbn [existsb map repeated fst]. destruct (amem n acc) eqn:E; [reflexivity|]. rewrite IH. cbn [orb].
  assert (X : existsb (fun e => amem (fst e) (acc ++ [(n, s)])) (own d) = existsb (fun e => amem (fst e) acc) (own d) || memn n (map fst (own d))).
  { clear. induction (own d) as [|[k t] l IH]; [reflexivity|]. cbn [existsb map fst]. rewrite IH.
    assert (Y : amem k (acc ++ [(n, s)]) = amem k acc || Nat.eqb n k) by (unfold amem; rewrite existsb_app; cbn [existsb fst]; rewrite (Nat.eqb_sym k n), orb_false_r; reflexivity). rewrite Y.
    change (memn n (k :: map fst l)) with (Nat.eqb n k || memn n (map fst l)). destruct (amem k acc), (Nat.eqb n k), (existsb (fun e : name * nat => amem (fst e) acc) l), (memn n (map fst l)); reflexivity. }
  rewrite X. destruct (existsb (fun e => amem (fst e) acc) (own d)), (memn n (map fst (own d))), (repeated (map fst (own d))); cbn [orb]; try reflexivity.
  rewrite <- app_assoc. reflexivity.
Qed.
Lemma repeated_false : forall l, repeated l = false <-> NoDup l.
Proof.
  intro l. induction l as [|n l IH]; cbn; [split; [constructor|reflexivity]|]. rewrite orb_false_iff, IH. split.
  - intros [A B]. constructor; [|exact B]. intro H. apply memn_true in H. congruence.
  - intro H. inversion H; subst. split; [|assumption]. destruct (memn n l) eqn:E; [|reflexivity]. apply memn_true in E. contradiction.
Qed.
Lemma all_states_eq : forall ds acc, NoDup (map fst acc) ->
  match all_states ds acc with
  | Ok l => l = acc ++ concat (map own ds) /\ NoDup (map fst l)
  | Err e => e = ValueErr /\ ~ NoDup (map fst (acc ++ concat (map own ds)))
  end.
Proof.
  intro ds. induction ds as [|d ds IH]; intros acc N; [cbn; rewrite app_nil_r; auto|]. cbn [all_states map concat]. rewrite add_states_eq.
  destruct (existsb (fun e => amem (fst e) acc) (own d)) eqn:E1; cbn [orb].
  - split; [reflexivity|]. apply existsb_exists in E1. destruct E1 as [[n s] [H1 H2]]. cbn in H2. apply amem_true in H2.
    rewrite !map_app. intro X. rewrite app_assoc in X. apply NoDup_app_remove_r in X || idtac.
    assert (Y : NoDup (map fst acc ++ map fst (own d))).
    { clear -X. induction (map fst acc ++ map fst (own d)) as [|a l IHl]; [constructor|]. cbn in X. inversion X; subst. constructor; [|auto]. intro H. apply H1. apply in_or_app. auto. }
    apply in_split in H2. destruct H2 as [l1 [l2 Hl]]. rewrite Hl in Y. rewrite <- app_assoc in Y. cbn in Y. apply NoDup_remove_2 in Y. apply Y.
    apply in_or_app. right. apply in_or_app. right. apply in_map_iff. exists (n, s). auto.
  - destruct (repeated (map fst (own d))) eqn:E2.
    + split; [reflexivity|]. intro X. assert (repeated (map fst (own d)) = false); [|congruence]. apply repeated_false.
      rewrite !map_app in X. clear -X. induction (map fst acc) as [|a l IHl]; cbn in X; [|inversion X; auto].
      induction (map fst (own d)) as [|a l IHl]; [constructor|]. cbn in X. inversion X; subst. constructor; [|auto]. intro H. apply H1. apply in_or_app. auto.
    + assert (N' : NoDup (map fst (acc ++ own d))).
      { rewrite map_app. apply repeated_false in E2. clear -N E1 E2. induction acc as [|[n s] acc IH]; [exact E2|]. cbn. cbn in N. inversion N; subst. constructor.
        - intro H. apply in_app_or in H. destruct H as [H|H]; [contradiction|]. apply in_map_iff in H. destruct H as [[k t] [Hk Ht]]. cbn in Hk. subst k.
          assert (existsb (fun e => amem (fst e) ((n, s) :: acc)) (own d) = true); [|congruence]. apply existsb_exists. exists (n, t). split; [exact Ht|]. cbn. rewrite Nat.eqb_refl. reflexivity.
        - apply IH; [assumption|]. destruct (existsb (fun e => amem (fst e) acc) (own d)) eqn:E; [|reflexivity]. apply existsb_exists in E. destruct E as [x [A B]].
          assert (existsb (fun e => amem (fst e) ((n, s) :: acc)) (own d) = true); [|congruence]. apply existsb_exists. exists x. split; [exact A|]. cbn. cbn in B. unfold amem in B. rewrite B. apply orb_true_r. }
      specialize (IH _ N'). destruct (all_states ds (acc ++ own d)) as [l|e]; rewrite <- app_assoc in IH; exact IH.
Qed.
Lemma own_in : forall d n s, In (n, s) (own d) <-> In (n, MState s) d.
Proof.
  intros d n s. unfold own. rewrite in_flat_map. split.
  - intros [[m k] [H1 H2]]. destruct k; cbn in H2; try contradiction. destruct H2 as [E|[]]. inversion E; subst. exact H1.
  - intro H. exists (n, MState s). split; [exact H|]. left. reflexivity.
Qed.
Lemma own_nodup : forall d, NoDup (map fst d) -> NoDup (map fst (own d)).
Proof.
  intro d. induction d as [|[n m] d IH]; intro N; [constructor|]. cbn in N. inversion N; subst. destruct m; cbn [own flat_map snd fst app]; fold (own d); auto.
  cbn. constructor; [|auto]. intro H. apply in_map_iff in H. destruct H as [[k t] [E Ht]]. cbn in E. subst k. apply own_in in Ht. apply H1. apply in_map_iff. exists (n, MState t). auto.
Qed.
(** Names repeat in the concatenation just if they are in two different parts. *)
Lemma concat_nodup : forall (c : list (list (name * member))), (forall d, In d c -> NoDup (map fst d)) ->
  ~ NoDup (map fst (concat (map own c))) <-> twice c.
Proof.
  intro c. induction c as [|d c IH]; intro P.
  - split; [intro H; exfalso; apply H; constructor|]. intros [i [j [di [dj [n [s [t [_ [H _]]]]]]]]]. destruct i; discriminate.
  - assert (P' : forall d, In d c -> NoDup (map fst d)) by (intros; apply P; right; assumption). specialize (IH P').
    cbn [map concat]. rewrite map_app. split.
    + intro H. destruct (existsb (fun n => memn n (map fst (concat (map own c)))) (map fst (own d))) eqn:E.
      * apply existsb_exists in E. destruct E as [n [H1 H2]]. apply memn_true in H2. apply in_map_iff in H1. destruct H1 as [[n1 s] [E1 H1]]. cbn in E1. subst n1.
        apply in_map_iff in H2. destruct H2 as [[n2 t] [E2 H2]]. cbn in E2. subst n2. apply in_concat in H2. destruct H2 as [l [H2 H3]]. apply in_map_iff in H2. destruct H2 as [dj [E2 H2]]. subst l.
        apply In_nth_error in H2. destruct H2 as [j Hj]. exists 0%nat, (S j), d, dj, n, s, t. split; [lia|]. auto.
      * assert (X : ~ NoDup (map fst (concat (map own c)))).
        { intro X. apply H. assert (NO := own_nodup d (P d (or_introl eq_refl))). clear H. revert NO E. generalize (map fst (own d)). intro l. induction l as [|a l IHl]; intros NO E; [exact X|].
          cbn in E. apply orb_false_iff in E. destruct E as [E1 E2]. inversion NO; subst. cbn. constructor; [|auto]. intro K. apply in_app_or in K. destruct K as [K|K]; [contradiction|]. apply memn_true in K. congruence. }
        apply IH in X. destruct X as [i [j [di [dj [n [s [t [L [A [B C]]]]]]]]]]. exists (S i), (S j), di, dj, n, s, t. split; [lia|]. auto.
    + intros [i [j [di [dj [n [s [t [L [A [B [C D]]]]]]]]]]] X. destruct j as [|j]; [lia|]. cbn in B.
      assert (IN : In n (map fst (concat (map own c)))).
      { apply in_map_iff. exists (n, t). split; [reflexivity|]. apply in_concat. exists (own dj). split; [|exact D]. apply in_map. eapply nth_error_In. exact B. }
      destruct i as [|i]; cbn in A.
      * inversion A; subst di. assert (K : In n (map fst (own d))) by (apply in_map_iff; exists (n, s); auto).
        apply in_split in K. destruct K as [l1 [l2 Hl]]. rewrite Hl in X. rewrite <- app_assoc in X. cbn in X. apply NoDup_remove_2 in X. apply X. apply in_or_app. right. apply in_or_app. right. exact IN.
      * assert (Y : NoDup (map fst (concat (map own c)))) by (clear -X; induction (map fst (own d)) as [|a l IHl]; [exact X|]; cbn in X; inversion X; auto).
        revert Y. apply IH. exists i, j, di, dj, n, s, t. split; [lia|]. auto.
Qed.

Section Sets.
Variable sub : nat -> nat -> bool.
Variable NONE TYPE STR LIST DICT : nat.
Variable resource_class : nat -> bool.
Variable accepts : nat -> list (name * val) -> bool.
Variable initial : nat -> list (name * val) -> Z.
Variable produce : nat -> nat -> option (nat * Z).
Variable def : nat -> sdef.
Notation type_of := (type_of NONE TYPE STR LIST DICT).
Notation isinstance := (isinstance sub NONE TYPE STR LIST DICT).
Notation type_check := (type_check sub NONE TYPE STR LIST DICT).
Notation fits := (fits sub NONE TYPE STR LIST DICT).
Notation builds := (builds sub accepts).
Notation resource_of := (resource_of sub accepts initial).
Notation takes := (takes sub NONE TYPE STR LIST DICT resource_class accepts).
Notation becomes := (becomes sub accepts initial).
Notation set_plain := (set_plain sub NONE TYPE STR LIST DICT).
Notation set_resource := (set_resource sub NONE TYPE STR LIST DICT accepts initial).
Notation set_comms := (set_comms sub NONE TYPE STR LIST DICT accepts initial).
Notation set_items := (set_items sub NONE TYPE STR LIST DICT).
Notation typed := (typed sub NONE TYPE STR LIST DICT).
Notation set_dict := (set_dict sub NONE TYPE STR LIST DICT).
Notation set_data := (set_data sub NONE TYPE STR LIST DICT).
Notation set_multi := (set_multi sub NONE TYPE STR LIST DICT resource_class accepts initial).
Notation make_resource := (make_resource sub resource_class accepts initial).
Notation make_all := (make_all sub resource_class accepts initial).
Notation set_state := (set_state sub NONE TYPE STR LIST DICT resource_class accepts initial def).

(** ** The heap grows *)
Lemma nth_app : forall (h t : list obj) o b, nth_error h o = Some b -> nth_error (h ++ t) o = Some b.
Proof. intros h t o b H. rewrite nth_error_app1; [exact H|]. apply nth_error_Some. congruence. Qed.
Lemma nth_new : forall (h t : list obj) b, nth_error (h ++ b :: t) (length h) = Some b.
Proof. intros. rewrite nth_error_app2 by lia. rewrite Nat.sub_diag. reflexivity. Qed.
Lemma as_dict_app : forall h t v, valid h v -> as_dict (h ++ t) v = as_dict h v.
Proof. intros h t [ |c|s|l|o] V; try reflexivity. cbn in *. rewrite nth_error_app1 by exact V. reflexivity. Qed.
Lemma type_of_app : forall h t v, valid h v -> type_of (h ++ t) v = type_of h v.
Proof. intros h t [ |c|s|l|o] V; try reflexivity. cbn in *. rewrite nth_error_app1 by exact V. reflexivity. Qed.
Lemma valid_app : forall h t v, valid h v -> valid (h ++ t) v.
Proof. intros h t [ |c|s|l|o] V; cbn in *; auto. rewrite app_length. lia. Qed.
Lemma fits_app : forall h t ty v, valid h v -> fits (h ++ t) ty v <-> fits h ty v.
Proof. intros. unfold MakeSpec.fits. rewrite type_of_app by assumption. reflexivity. Qed.
Lemma closed_in : forall h o kv n v, closed h -> nth_error h o = Some (ODict kv) -> In (n, v) kv -> valid h v.
Proof. intros h o kv n v C H I. exact (proj2 (C o kv H) n v I). Qed.
Lemma closed_dict : forall h v kv, closed h -> as_dict h v = Some kv -> NoDup (map fst kv) /\ forall n w, In (n, w) kv -> valid h w.
Proof.
  intros h [ |c|s|l|o] kv C H; try discriminate. cbn in H. destruct (nth_error h o) as [[c kw z|d|c z]|] eqn:E; try discriminate. inversion H; subst. exact (C o kv E).
Qed.
Lemma closed_app : forall h t, closed h -> (forall o d, nth_error t o = Some (ODict d) -> NoDup (map fst d) /\ forall n v, In (n, v) d -> valid (h ++ t) v) -> closed (h ++ t).
Proof.
  intros h t C T o d H. destruct (Nat.lt_ge_cases o (length h)) as [L|L].
  - rewrite nth_error_app1 in H by exact L. destruct (C o d H) as [N V]. split; [exact N|]. intros n v I. apply valid_app. eauto.
  - rewrite nth_error_app2 in H by exact L. apply T in H. exact H.
Qed.
Lemma closed_res : forall h c kw z, closed h -> closed (h ++ [ORes c kw z]).
Proof. intros h c kw z C. apply closed_app; [exact C|]. intros [|o] d H; cbn in H; [discriminate|destruct o; discriminate]. Qed.
Lemma closed_obj : forall h c z, closed h -> closed (h ++ [OPlain c z]).
Proof. intros h c z C. apply closed_app; [exact C|]. intros [|o] d H; cbn in H; [discriminate|destruct o; discriminate]. Qed.
Lemma closed_odict : forall h d, closed h -> NoDup (map fst d) -> (forall n v, In (n, v) d -> valid h v) -> closed (h ++ [ODict d]).
Proof.
  intros h d C N V. apply closed_app; [exact C|]. intros [|o] d' H; cbn in H; [inversion H; subst|destruct o; discriminate].
  split; [exact N|]. intros n v I. apply valid_app. eauto.
Qed.
Lemma items_app : forall h t v kv, valid h v -> items (h ++ t) v kv <-> items h v kv.
Proof. intros. unfold items. rewrite as_dict_app by assumption. reflexivity. Qed.
Lemma items_valid : forall h v kv k w, closed h -> items h v kv -> In (k, Some w) kv -> valid h w.
Proof.
  intros h v kv k w C I H. unfold items in I. destruct (as_dict h v) as [d|] eqn:E.
  - subst kv. apply in_map_iff in H. destruct H as [[n u] [X Y]]. inversion X; subst. apply (proj2 (closed_dict h v d C E) k). exact Y.
  - destruct v; try contradiction. subst kv. apply in_map_iff in H. destruct H as [? [X _]]. discriminate.
Qed.
Lemma takes_app : forall d h t v, valid h v -> closed h -> takes d (h ++ t) v <-> takes d h v.
Proof.
  intros d h t v V C. unfold MakeSpec.takes. destruct (s_kind d).
  - apply fits_app. exact V.
  - rewrite as_dict_app, type_of_app by exact V. reflexivity.
  - rewrite as_dict_app, type_of_app by exact V. reflexivity.
  - split; intros [kv [A B]]; exists kv; rewrite as_dict_app in * by exact V; (split; [exact A|]); intros k w I; pose proof (proj2 (closed_dict h v kv C A) k w I) as W.
    + apply (fits_app h t); auto. apply (B k). exact I.
    + apply (fits_app h t); auto. apply (B k). exact I.
  - apply fits_app. exact V.
  - split; intros [kv [A B]]; exists kv.
    + apply items_app in A; [|exact V]. split; [exact A|]. intros k w I. specialize (B k w I). destruct B as [B0 B]. split; [exact B0|].
      destruct w as [w|]; [|exact B]. pose proof (items_valid h v kv k w C A I) as W. rewrite as_dict_app in B by exact W. destruct (as_dict h w); [exact B|]. apply fits_app in B; assumption.
    + split; [apply items_app; assumption|]. intros k w I. specialize (B k w I). destruct B as [B0 B]. split; [exact B0|].
      destruct w as [w|]; [|exact B]. pose proof (items_valid h v kv k w C A I) as W. rewrite as_dict_app by exact W. destruct (as_dict h w); [exact B|]. apply fits_app; assumption.
Qed.
Lemma resource_app1 : forall d h t v h' v', valid h v -> resource_of d (h ++ t) v h' v' -> resource_of d h v h' v'.
Proof.
  intros d h t v h' v' V H. unfold MakeSpec.resource_of in *. rewrite as_dict_app in H by exact V. destruct (as_dict h v); [|exact H].
  destruct H as [o [c [kw [A [B [C D]]]]]]. exists o, c, kw. rewrite app_length in B. split; [exact A|]. split; [lia|]. split; [exact C|exact D].
Qed.
Lemma resource_app2 : forall d h v h' t v', resource_of d h v h' v' -> resource_of d h v (h' ++ t) v'.
Proof.
  intros d h v h' t v' H. unfold MakeSpec.resource_of in *. destruct (as_dict h v); [|exact H].
  destruct H as [o [c [kw [A [B [C D]]]]]]. exists o, c, kw. split; [exact A|]. split; [exact B|]. split; [apply nth_app; exact C|exact D].
Qed.
Lemma Forall2_in : forall A B (P Q : A -> B -> Prop) l m, (forall a b, In a l -> P a b -> Q a b) -> Forall2 P l m -> Forall2 Q l m.
Proof. intros A B P Q l m H F. induction F as [|a b l m H1 H2 IH]; constructor; [apply H; [left; reflexivity|exact H1]|]. apply IH. intros. apply H; [right; assumption|assumption]. Qed.
Lemma becomes_app1 : forall d h t v h' v', valid h v -> closed h -> becomes d (h ++ t) v h' v' -> becomes d h v h' v'.
Proof.
  intros d h t v h' v' V C H. unfold MakeSpec.becomes in *. destruct (s_kind d); auto.
  - eapply resource_app1; eauto.
  - eapply resource_app1; eauto.
  - destruct H as [o [kv [A [B [D E]]]]]. exists o, kv. rewrite as_dict_app in D by exact V. rewrite app_length in B. split; [exact A|]. split; [lia|]. auto.
  - destruct H as [o [kv [l [A [B [D [E F]]]]]]]. rewrite app_length in B. apply items_app in D; [|exact V]. exists o, kv, l. split; [exact A|]. split; [lia|]. split; [exact D|]. split; [exact E|].
    eapply Forall2_in; [|exact F]. intros [k w] [k' w'] I [X Y]. split; [exact X|]. cbn [snd fst] in *. destruct w as [w|].
    + eapply resource_app1; [|exact Y]. eapply items_valid; eauto.
    + destruct Y as [o' [c [kw [Y1 [Y2 [Y3 Y4]]]]]]. exists o', c, kw. rewrite app_length in Y2. split; [exact Y1|]. split; [lia|]. split; [exact Y3|exact Y4].
Qed.
Lemma becomes_app2 : forall d h v h' t v', becomes d h v h' v' -> becomes d h v (h' ++ t) v'.
Proof.
  intros d h v h' t v' H. unfold MakeSpec.becomes in *. destruct (s_kind d); auto.
  - apply resource_app2; auto.
  - apply resource_app2; auto.
  - destruct H as [o [kv [A [B [D E]]]]]. exists o, kv. split; [exact A|]. split; [exact B|]. split; [exact D|]. apply nth_app. exact E.
  - destruct H as [o [kv [l [A [B [D [E F]]]]]]]. exists o, kv, l. split; [exact A|]. split; [exact B|]. split; [exact D|]. split; [apply nth_app; exact E|].
    eapply Forall2_in; [|exact F]. intros [k w] [k' w'] I [X Y]. split; [exact X|]. cbn [snd fst] in *. destruct w as [w|]; [apply resource_app2; exact Y|].
    destruct Y as [o' [c [kw [Y1 [Y2 [Y3 Y4]]]]]]. exists o', c, kw. split; [exact Y1|]. split; [exact Y2|]. split; [apply nth_app; exact Y3|exact Y4].
Qed.
(** ** Types and arguments *)
Lemma type_check_fits : forall h ty v, type_check h ty v = true <-> fits h ty v.
Proof.
  intros h ty v. unfold MakeModel.type_check, MakeSpec.fits. destruct ty as [|t ty]; [split; auto|]. unfold MakeModel.isinstance. rewrite existsb_in. split; [auto|]. intros [H|H]; [discriminate|exact H].
Qed.
Lemma adel_nodup : forall A n (kv : list (name * A)), NoDup (map fst kv) -> NoDup (map fst (adel n kv)).
Proof.
  intros A n kv. unfold adel. induction kv as [|[k v] kv IH]; intro N; [constructor|]. cbn [filter map fst] in *. inversion N as [|? ? N1 N2]; subst. destruct (negb (Nat.eqb n k)); cbn [map fst]; [constructor|]; auto.
  intro H. apply N1. apply in_map_iff in H. destruct H as [e [A1 B]]. apply filter_In in B. apply in_map_iff. exists e. tauto.
Qed.
Lemma kwargs_ok : forall (d : sdef) (kv : list (name * val)), NoDup (map fst kv) -> forall n,
  aget n (aupdate (s_kwargs d) (adel KIND kv)) = match (if Nat.eqb n KIND then None else aget n kv) with Some v => Some v | None => aget n (s_kwargs d) end.
Proof. intros d kv N n. rewrite aget_aupdate_nodup by (apply adel_nodup; exact N). rewrite aget_adel. reflexivity. Qed.

Hypothesis accepts_ext : forall c kw kw', (forall n, aget n kw = aget n kw') -> accepts c kw = accepts c kw'.
Hypothesis type_no_resource : forall t, resource_class t = true -> sub TYPE t = false.

Lemma builds_eq : forall d kv c kw, NoDup (map fst kv) -> builds d kv c kw -> builds d kv c (aupdate (s_kwargs d) (adel KIND kv)).
Proof.
  intros d kv c kw N [A [B [C D]]]. split; [exact A|]. split; [apply kwargs_ok; exact N|]. split; [exact C|].
  rewrite <- D. apply accepts_ext. intro n. rewrite B. apply kwargs_ok. exact N.
Qed.
Lemma builds_class : forall d kv c kw c' kw', builds d kv c kw -> builds d kv c' kw' -> c = c'.
Proof. intros d kv c kw c' kw' [A _] [B _]. destruct (aget KIND kv); congruence. Qed.
Definition inst (d : sdef) (kv : list (name * val)) : val := match aget KIND kv with Some k => k | None => s_default d end.
Lemma builds_inst : forall d kv c kw, builds d kv c kw -> inst d kv = VClass c.
Proof. intros d kv c kw [A _]. unfold inst. destruct (aget KIND kv); exact A. Qed.
Lemma builds_intro : forall d kv c, NoDup (map fst kv) -> inst d kv = VClass c -> (s_types d = [] \/ exists t, In t (s_types d) /\ sub c t = true) ->
  accepts c (aupdate (s_kwargs d) (adel KIND kv)) = true -> builds d kv c (aupdate (s_kwargs d) (adel KIND kv)).
Proof.
  intros d kv c N I T A. split; [unfold inst in I; destruct (aget KIND kv); exact I|]. split; [apply kwargs_ok; exact N|]. split; assumption.
Qed.
Definition grew (x x' : st) : Prop := (exists t, heap x' = heap x ++ t) /\ draws x' = draws x.
Lemma grew_refl : forall x, grew x x.
Proof. intro x. split; [exists []; rewrite app_nil_r; reflexivity|reflexivity]. Qed.
Lemma grew_same : forall x y, heap y = heap x -> draws y = draws x -> grew x y.
Proof. intros x y A B. split; [exists []; rewrite app_nil_r; exact A|exact B]. Qed.
Lemma grew_trans : forall x y z, grew x y -> grew y z -> grew x z.
Proof. intros x y z [[t A] B] [[u C] D]. split; [exists (t ++ u); rewrite C, A, app_assoc; reflexivity|congruence]. Qed.
(** What else is noted of a state: arguments and modes. *)
Definition keepsake (n : name) (x : st) := (aget n (a_memory (me x)), aget n (a_modes (me x))).
(** [x'] differs from [x] by the value [v'] at [n]. *)
Definition has_set (n : name) (v' : val) (x x' : st) : Prop :=
  (forall m, aget m (a_dict (me x')) = if Nat.eqb m n then Some v' else aget m (a_dict (me x))) /\ a_class (me x') = a_class (me x) /\
  (forall m, (In m (a_set (me x')) -> m = n \/ In m (a_set (me x))) /\ (In m (a_set (me x)) -> In m (a_set (me x')))) /\ valid (heap x') v' /\ a_attrs (me x') = a_attrs (me x) /\
  (forall m, m <> n -> keepsake m x' = keepsake m x).
(** The set resource cannot be set again, and the arguments of a built one are remembered. *)
Definition keeps (d : sdef) (n : name) (v v' : val) (h : list obj) (x' : st) : Prop :=
  is_resource d -> In n (a_set (me x')) /\ modes_are d n (me x') /\
  (as_dict h v <> None -> exists o c kw z, v' = VObj o /\ nth_error (heap x') o = Some (ORes c kw z) /\ aget n (a_memory (me x')) = Some kw).
(** [x'] comes from setting [n] to [v], or trying to. *)
Definition sets (d : sdef) (n : name) (v : val) (x x' : st) (r : option err) : Prop :=
  grew x x' /\ closed (heap x') /\ (r = None <-> takes d (heap x) v) /\
  (r = None -> exists v', becomes d (heap x) v (heap x') v' /\ has_set n v' x x' /\ keeps d n v v' (heap x) x').
Lemma has_store : forall n v x, valid (heap x) v -> has_set n v x (store n v x).
Proof. intros n v x V. unfold has_set, store, with_me. cbn. split; [intro m; apply aget_aset|]. split; [reflexivity|]. split; [auto|]. split; [exact V|]. split; reflexivity. Qed.
Lemma has_have : forall n v x y, has_set n v x y -> has_set n v x (have_set n y).
Proof. intros n v x y [A [B [C [D E]]]]. unfold has_set, have_set, with_me. cbn. split; [exact A|]. split; [exact B|]. split; [intro m; destruct (C m) as [C1 C2]; split; [intros [H|H]; auto|right; auto]|]. split; [exact D|exact E]. Qed.
Lemma has_rem : forall n v kw x y, has_set n v x y -> has_set n v x (remember n kw y).
Proof.
  intros n v kw x y [A [B [C [D [E F]]]]]. unfold has_set, remember, with_me. cbn. split; [exact A|]. split; [exact B|]. split; [exact C|]. split; [exact D|]. split; [exact E|].
  intros m NE. rewrite <- (F m NE). unfold keepsake. cbn. rewrite aget_aset. apply Nat.eqb_neq in NE. rewrite NE. reflexivity.
Qed.
Lemma has_modes : forall n v l x y, has_set n v x y -> has_set n v x (set_modes n l y).
Proof.
  intros n v l x y [A [B [C [D [E F]]]]]. unfold has_set, set_modes, with_me. cbn. split; [exact A|]. split; [exact B|]. split; [exact C|]. split; [exact D|]. split; [exact E|].
  intros m NE. rewrite <- (F m NE). unfold keepsake. cbn. rewrite aget_aset. apply Nat.eqb_neq in NE. rewrite NE. reflexivity.
Qed.

Lemma set_plain_ok : forall d n v x x' r, s_kind d = Plain -> set_plain d n v x = (x', r) -> aget n (a_dict (me x)) = None -> valid (heap x) v -> closed (heap x) -> sets d n v x x' r.
Proof.
  intros d n v x x' r K S F V C. unfold MakeModel.set_plain in S. rewrite F, andb_false_r in S. unfold sets, MakeSpec.takes, MakeSpec.becomes. rewrite K.
  destruct (type_check (heap x) (s_types d) v) eqn:T; inversion S; subst.
  - split; [(apply grew_same; reflexivity)|]. split; [exact C|]. split; [split; [intros _; apply type_check_fits; exact T|reflexivity]|]. intros _. exists v. split; [reflexivity|]. split; [apply has_store; exact V|]. unfold keeps, is_resource. rewrite K. intros [].
  - split; [(apply grew_same; reflexivity)|]. split; [exact C|]. split; [split; [discriminate|intro H; apply type_check_fits in H; congruence]|]. discriminate.
Qed.
Lemma set_data_ok : forall d n v x x' r, s_kind d = Data -> set_data d n v x = (x', r) -> aget n (a_dict (me x)) = None -> valid (heap x) v -> closed (heap x) -> sets d n v x x' r.
Proof.
  intros d n v x x' r K S F V C. unfold MakeModel.set_data in S. rewrite (proj2 (amem_false _ _ _) (proj1 (aget_none _ _ _) F)) in S. unfold sets, MakeSpec.takes, MakeSpec.becomes. rewrite K.
  destruct (type_check (heap x) (s_types d) v) eqn:T; inversion S; subst.
  - split; [(apply grew_same; reflexivity)|]. split; [exact C|]. split; [split; [intros _; apply type_check_fits; exact T|reflexivity]|]. intros _. exists v. split; [reflexivity|]. split; [apply has_store; exact V|]. unfold keeps, is_resource. rewrite K. intros [].
  - split; [(apply grew_same; reflexivity)|]. split; [exact C|]. split; [split; [discriminate|intro H; apply type_check_fits in H; congruence]|]. discriminate.
Qed.
(** What setting a resource does, apart from the modes. *)
Definition takes_resource (d : sdef) (h : list obj) (v : val) : Prop :=
  match as_dict h v with
  | None => exists t, In t (s_types d) /\ sub (type_of h v) t = true
  | Some kv => exists c kw, builds d kv c kw
  end.
Lemma set_resource_ok : forall d n v x x' r, set_resource d n v x = (x', r) -> ~ In n (a_set (me x)) -> valid (heap x) v -> closed (heap x) ->
  grew x x' /\ closed (heap x') /\ (r = None <-> takes_resource d (heap x) v) /\
  (r = None -> exists v', resource_of d (heap x) v (heap x') v' /\ has_set n v' x x' /\
     In n (a_set (me x')) /\
     (as_dict (heap x) v <> None -> exists o c kw z, v' = VObj o /\ nth_error (heap x') o = Some (ORes c kw z) /\ aget n (a_memory (me x')) = Some kw)).
Proof.
  intros d n v x x' r S F V C. unfold MakeModel.set_resource in S. destruct (memn n (a_set (me x))) eqn:M; [apply memn_true in M; contradiction|]. unfold takes_resource, MakeSpec.resource_of.
  destruct (as_dict (heap x) v) as [kv|] eqn:D.
  - destruct (closed_dict _ _ _ C D) as [N VV]. fold (inst d kv) in S.
    assert (BAD : forall e, (forall c kw, ~ builds d kv c kw) -> (x', r) = (x, Some e) -> grew x x' /\ closed (heap x') /\ (r = None <-> exists c kw, builds d kv c kw) /\
      (r = None -> exists v', (exists o c kw, v' = VObj o /\ (length (heap x) <= o)%nat /\ nth_error (heap x') o = Some (ORes c kw (initial c kw)) /\ builds d kv c kw) /\ has_set n v' x x' /\
        In n (a_set (me x')) /\ (Some kv <> None -> exists o c kw z, v' = VObj o /\ nth_error (heap x') o = Some (ORes c kw z) /\ aget n (a_memory (me x')) = Some kw))).
    { intros e NB E. inversion E; subst. split; [(apply grew_same; reflexivity)|]. split; [exact C|]. split; [split; [discriminate|intros [c [kw H]]; exfalso; eapply NB; exact H]|discriminate]. }
    destruct (inst d kv) as [ |c|s|l|o] eqn:I; try (eapply BAD; [|symmetry; exact S]; intros c' kw H; apply builds_inst in H; congruence).
    destruct (match s_types d with [] => false | _ => negb (existsb (sub c) (s_types d)) end) eqn:T.
    { eapply BAD; [|symmetry; exact S]. intros c' kw H. pose proof (builds_inst _ _ _ _ H) as H0. assert (c' = c) by congruence. subst c'. destruct H as [_ [_ [H _]]].
      destruct (s_types d) as [|t0 ts]; [discriminate|]. destruct H as [H|H]; [discriminate|]. apply existsb_in in H. rewrite H in T. discriminate. }
    destruct (accepts c (aupdate (s_kwargs d) (adel KIND kv))) eqn:A.
    2: { eapply BAD; [|symmetry; exact S]. intros c' kw H. pose proof (builds_inst _ _ _ _ H) as H0. assert (c' = c) by congruence. subst c'. pose proof (builds_eq _ _ _ _ N H) as [_ [_ [_ H1]]]. congruence. }
    assert (B : builds d kv c (aupdate (s_kwargs d) (adel KIND kv))).
    { apply builds_intro; auto. destruct (s_types d) as [|t0 ts]; [auto|]. right. apply existsb_in. apply negb_false_iff. exact T. }
    clear BAD. cbn [alloc] in S. inversion S; subst. clear S.
    split; [split; [eexists; reflexivity|reflexivity]|]. split; [apply closed_res; exact C|]. split; [split; [intros _; eexists; eexists; exact B|reflexivity]|].
    intros _. exists (VObj (length (heap x))). split; [eexists; eexists; eexists; split; [reflexivity|]; split; [lia|]; split; [apply nth_new|exact B]|].
    split; [|split; [left; reflexivity|]].
    + apply has_rem, has_have. split; [intro m; cbn; apply aget_aset|]. split; [reflexivity|]. split; [auto|]. split; [cbn; rewrite app_length; cbn; lia|]. split; reflexivity.
    + intros _. eexists; eexists; eexists; eexists. split; [reflexivity|]. split; [apply nth_new|]. cbn. rewrite aget_aset, Nat.eqb_refl. reflexivity.
  - destruct (isinstance (heap x) v (s_types d)) eqn:T; inversion S; subst.
    + split; [(apply grew_same; reflexivity)|]. split; [exact C|]. split; [split; [intros _; apply existsb_in; exact T|reflexivity]|]. intros _. exists v. split; [reflexivity|].
      split; [apply has_have, has_store; exact V|]. split; [left; reflexivity|]. intro H. exfalso. apply H. reflexivity.
    + split; [(apply grew_same; reflexivity)|]. split; [exact C|]. split; [split; [discriminate|]|discriminate]. intro H. apply existsb_in in H. unfold MakeModel.isinstance in T. congruence.
Qed.
Definition modes_ok (m : val) : Prop := match m with VStr _ | VList _ => True | _ => False end.
Lemma set_comms_ok : forall modes d n v x x' r, s_kind d = Comms modes -> set_comms modes d n v x = (x', r) -> ~ In n (a_set (me x)) -> valid (heap x) v -> closed (heap x) ->
  (forall m kv, s_kind d = Comms m -> as_dict (heap x) v = Some kv -> aget MODES kv = None) -> sets d n v x x' r.
Proof.
  intros modes d n v x x' r K S F V C O. unfold MakeModel.set_comms in S.
  assert (G : match as_dict (heap x) v with Some kv => aget MODES kv | None => None end = None) by (destruct (as_dict (heap x) v); [eapply O; [exact K|reflexivity]|reflexivity]). rewrite G in S.
  destruct (set_resource d n v x) as [x2 r2] eqn:R. destruct (set_resource_ok _ _ _ _ _ _ R F V C) as [A [B [D E]]]. unfold sets, MakeSpec.takes, MakeSpec.becomes. rewrite K. fold (takes_resource d (heap x) v).
  destruct r2 as [e|].
  { inversion S; subst. split; [exact A|]. split; [exact B|]. split; [|discriminate]. split; [discriminate|]. intros [H _]. apply D in H. discriminate. }
  assert (T : takes_resource d (heap x) v) by (apply D; reflexivity). destruct (E eq_refl) as [v' [E1 [E2 E3]]].
  destruct modes as [ |c|s|l|o]; inversion S; subst; (split; [exact A|]); (split; [exact B|]); (split; [split; [try discriminate; auto|intros [_ H]; try contradiction; reflexivity]|]); try discriminate; intros _; exists v'; (split; [exact E1|split; [apply has_modes; exact E2|intros _; split; [apply E3|split; [unfold modes_are; rewrite K; cbn; rewrite aget_aset, Nat.eqb_refl; reflexivity|apply E3]]]]).
Qed.
Lemma typed_ok : forall h types kv, (snd (typed h types kv) = true <-> forall k w, In (k, w) kv -> fits h types w) /\ (snd (typed h types kv) = true -> fst (typed h types kv) = kv) /\
  (exists t, kv = fst (typed h types kv) ++ t).
Proof.
  intros h types kv. induction kv as [|[k w] kv IH]; cbn [MakeModel.typed].
  - split; [split; [intros _ k w []|reflexivity]|]. split; [reflexivity|exists []; reflexivity].
  - destruct (type_check h types w) eqn:T.
    + destruct (MakeModel.typed sub NONE TYPE STR LIST DICT h types kv) as [r b]. cbn [fst snd] in *. destruct IH as [I1 [I2 [t I3]]]. split; [|split; [intro H; rewrite (I2 H); reflexivity|exists t; rewrite I3 at 1; reflexivity]].
      rewrite I1. split; [|intros H k' w' I; apply (H k'); right; exact I]. intros H k' w' [I|I]; [inversion I; subst; apply type_check_fits; exact T|apply (H k' w' I)].
    + cbn [fst snd]. split; [|split; [discriminate|exists ((k, w) :: kv); reflexivity]]. split; [discriminate|]. intro H. specialize (H k w (or_introl eq_refl)). apply type_check_fits in H. congruence.
Qed.
Lemma set_items_ok : forall d n kv x x' r, set_items d n kv x = (x', r) -> closed (heap x) -> NoDup (map fst kv) -> (forall k w, In (k, w) kv -> valid (heap x) w) ->
  grew x x' /\ closed (heap x') /\ (r = None <-> forall k w, In (k, w) kv -> fits (heap x) (s_types d) w) /\
  (r = None -> exists o, (length (heap x) <= o)%nat /\ nth_error (heap x') o = Some (ODict kv) /\ has_set n (VObj o) x x').
Proof.
  intros d n kv x x' r S C N V. unfold MakeModel.set_items in S. destruct (typed_ok (heap x) (s_types d) kv) as [T1 [T2 [t T3]]]. destruct (typed (heap x) (s_types d) kv) as [rr b] eqn:E. cbn [fst snd alloc] in *.
  inversion S; subst x' r. clear S. split; [split; [eexists; reflexivity|reflexivity]|].
  split; [apply closed_odict; [exact C| |]|].
  - rewrite T3, map_app in N. clear -N. induction (map fst rr) as [|a l IH]; [constructor|]. cbn in N. inversion N; subst. constructor; [|auto]. intro H. apply H1. apply in_or_app. auto.
  - intros k w I. apply (V k). rewrite T3. apply in_or_app. auto.
  - split; [rewrite <- T1; destruct b; split; intro H; congruence|]. intro H. destruct b; [|discriminate]. exists (length (heap x)). split; [lia|]. split; [cbn; rewrite (T2 eq_refl); apply nth_new|].
    split; [intro m; cbn; apply aget_aset|]. split; [reflexivity|]. split; [auto|]. split; [cbn; rewrite app_length; cbn; lia|]. split; reflexivity.
Qed.
Lemma set_dict_ok : forall d n v x x' r, s_kind d = Dict -> set_dict d n v x = (x', r) -> aget n (a_dict (me x)) = None -> valid (heap x) v -> closed (heap x) -> sets d n v x x' r.
Proof.
  intros d n v x x' r K S F V C. unfold MakeModel.set_dict in S. rewrite (proj2 (amem_false _ _ _) (proj1 (aget_none _ _ _) F)) in S. unfold sets, MakeSpec.takes, MakeSpec.becomes. rewrite K.
  destruct (as_dict (heap x) v) as [kv|] eqn:D.
  - destruct (closed_dict _ _ _ C D) as [N VV]. destruct (set_items_ok _ _ _ _ _ _ S C N VV) as [A [B [E G]]]. split; [exact A|]. split; [exact B|]. split.
    + rewrite E. split; [intro H; exists kv; auto|]. intros [kv' [X Y]]. inversion X; subst. exact Y.
    + intro H. destruct (G H) as [o [G1 [G2 G3]]]. exists (VObj o). split; [|split; [exact G3|unfold keeps, is_resource; rewrite K; intros []]]. exists o, kv. split; [reflexivity|]. split; [exact G1|]. split; [reflexivity|exact G2].
  - inversion S; subst. split; [(apply grew_same; reflexivity)|]. split; [exact C|]. split; [|discriminate]. split; [discriminate|]. intros [kv [X _]]. discriminate.
Qed.
(** ** MultiStoreState *)
Definition makes (d : sdef) (h : list obj) (w : val) : Prop :=
  match as_dict h w with
  | None => type_checker sub resource_class (s_types d) w = true
  | Some kv => exists c kw, builds d kv c kw /\ forallb resource_class (s_types d) = true
  end.
Lemma make_resource_ok : forall d v x x' r, make_resource d v x = (x', r) -> closed (heap x) -> valid (heap x) v ->
  grew x x' /\ closed (heap x') /\ me x' = me x /\ ((exists v', r = Ok v') <-> makes d (heap x) v) /\
  (forall v', r = Ok v' -> resource_of d (heap x) v (heap x') v' /\ valid (heap x') v').
Proof.
  intros d v x x' r S C V. unfold MakeModel.make_resource in S. unfold makes, MakeSpec.resource_of. destruct (as_dict (heap x) v) as [kv|] eqn:D.
  - destruct (closed_dict _ _ _ C D) as [N VV]. fold (inst d kv) in S.
    assert (BAD : forall e, (forall c kw, ~ (builds d kv c kw /\ forallb resource_class (s_types d) = true)) -> (x', r) = (x, Err e) ->
      grew x x' /\ closed (heap x') /\ me x' = me x /\ ((exists v', r = Ok v') <-> exists c kw, builds d kv c kw /\ forallb resource_class (s_types d) = true) /\
      (forall v', r = Ok v' -> (exists o c kw, v' = VObj o /\ (length (heap x) <= o)%nat /\ nth_error (heap x') o = Some (ORes c kw (initial c kw)) /\ builds d kv c kw) /\ valid (heap x') v')).
    { intros e NB E. inversion E; subst. split; [(apply grew_same; reflexivity)|]. split; [exact C|]. split; [reflexivity|]. split; [split; [intros [? ?]; discriminate|intros [c [kw H]]; exfalso; eapply NB; exact H]|discriminate]. }
    destruct (inst d kv) as [ |c|s|l|o] eqn:I; try (eapply BAD; [|symmetry; exact S]; intros c' kw [H _]; apply builds_inst in H; congruence).
    destruct (type_checker sub resource_class (s_types d) (VClass c)) eqn:T.
    2: { eapply BAD; [|symmetry; exact S]. intros c' kw [H RC]. pose proof (builds_inst _ _ _ _ H) as H0. assert (c' = c) by congruence. subst c'. destruct H as [_ [_ [H _]]].
      unfold type_checker in T. rewrite RC in T. cbn [andb] in T. destruct (s_types d) as [|t0 ts]; [discriminate|]. destruct H as [H|H]; [discriminate|]. apply existsb_in in H. congruence. }
    destruct (accepts c (aupdate (s_kwargs d) (adel KIND kv))) eqn:A.
    2: { eapply BAD; [|symmetry; exact S]. intros c' kw [H RC]. pose proof (builds_inst _ _ _ _ H) as H0. assert (c' = c) by congruence. subst c'. pose proof (builds_eq _ _ _ _ N H) as [_ [_ [_ H1]]]. congruence. }
    unfold type_checker in T. apply andb_true_iff in T. destruct T as [RC T].
    assert (B : builds d kv c (aupdate (s_kwargs d) (adel KIND kv))).
    { apply builds_intro; auto. destruct (s_types d) as [|t0 ts]; [auto|]. right. apply existsb_in. exact T. }
    clear BAD. cbn [alloc] in S. inversion S; subst. clear S.
    split; [split; [eexists; reflexivity|reflexivity]|]. split; [apply closed_res; exact C|]. split; [reflexivity|]. split; [split; [intros _; eexists; eexists; split; [exact B|exact RC]|intros _; eexists; reflexivity]|].
    intros v' H. inversion H; subst. split; [eexists; eexists; eexists; split; [reflexivity|]; split; [lia|]; split; [apply nth_new|exact B]|]. cbn. rewrite app_length. cbn. lia.
  - destruct (type_checker sub resource_class (s_types d) v) eqn:T; inversion S; subst; (split; [(apply grew_same; reflexivity)|]); (split; [exact C|]); (split; [reflexivity|]).
    + split; [split; [auto|intros _; eexists; reflexivity]|]. intros v' H. inversion H; subst. auto.
    + split; [split; [intros [? ?]; discriminate|discriminate]|discriminate].
Qed.
Lemma makes_app : forall d h t w, valid h w -> makes d (h ++ t) w <-> makes d h w.
Proof. intros d h t w V. unfold makes. rewrite as_dict_app by exact V. reflexivity. Qed.
Lemma make_all_ok : forall d kv x x' r, make_all d kv x = (x', r) -> closed (heap x) -> (forall k w, In (k, w) kv -> valid (heap x) w) ->
  grew x x' /\ closed (heap x') /\ me x' = me x /\ ((exists l, r = Ok l) <-> forall k w, In (k, w) kv -> makes d (heap x) w) /\
  (forall l, r = Ok l -> Forall2 (fun e e' => fst e = fst e' /\ resource_of d (heap x) (snd e) (heap x') (snd e')) kv l /\ forall k w, In (k, w) l -> valid (heap x') w).
Proof.
  intros d kv. induction kv as [|[k w] kv IH]; intros x x' r S C V; cbn [MakeModel.make_all] in S.
  - inversion S; subst. split; [(apply grew_same; reflexivity)|]. split; [exact C|]. split; [reflexivity|]. split; [split; [intros _ k w []|intros _; eexists; reflexivity]|]. intros l H. inversion H; subst. split; [constructor|]. intros k w [].
  - destruct (make_resource d w x) as [x1 r1] eqn:R. destruct (make_resource_ok _ _ _ _ _ R C (V k w (or_introl eq_refl))) as [A1 [B1 [M1 [D1 E1]]]].
    destruct r1 as [v1|e1].
    2: { inversion S; subst. split; [exact A1|]. split; [exact B1|]. split; [exact M1|]. split; [|discriminate]. split; [intros [? ?]; discriminate|]. intro H. exfalso. destruct (proj2 D1 (H k w (or_introl eq_refl))) as [? ?]. discriminate. }
    assert (MK : makes d (heap x) w) by (apply D1; eexists; reflexivity). destruct (E1 v1 eq_refl) as [E2 E3].
    destruct A1 as [[t1 T1] DR1]. assert (A1 : grew x x1) by (split; [exists t1; exact T1|exact DR1]).
    assert (V1 : forall k w, In (k, w) kv -> valid (heap x1) w) by (intros k' w' I; rewrite T1; apply valid_app; apply (V k'); right; exact I).
    destruct (make_all d kv x1) as [x2 r2] eqn:R2. destruct (IH _ _ _ R2 B1 V1) as [A2 [B2 [M2 [D2 F2]]]].
    assert (IFF : (exists l, r2 = Ok l) <-> forall k' w', In (k', w') ((k, w) :: kv) -> makes d (heap x) w').
    { rewrite D2. split.
      - intros H k' w' [I|I]; [inversion I; subst; exact MK|]. specialize (H k' w' I). rewrite T1 in H. apply makes_app in H; [exact H|]. apply (V k'). right. exact I.
      - intros H k' w' I. rewrite T1. apply makes_app; [apply (V k'); right; exact I|]. apply (H k'). right. exact I. }
    assert (GG : grew x x2) by (eapply grew_trans; eauto). assert (MM : me x2 = me x) by congruence.
    destruct r2 as [l2|e2].
    + inversion S; subst. split; [exact GG|]. split; [exact B2|]. split; [exact MM|]. split; [rewrite <- IFF; split; intros _; eexists; reflexivity|].
      intros l H. inversion H; subst. destruct (F2 l2 eq_refl) as [F3 F4]. destruct A2 as [[t2 T2] DR2]. split.
      * constructor; [split; [reflexivity|]; cbn [snd]; rewrite T2; apply resource_app2; exact E2|]. eapply Forall2_in; [|exact F3]. intros [k' w'] e' I [X Y]. split; [exact X|]. cbn [snd] in *. rewrite T1 in Y. eapply resource_app1; [|exact Y]. apply (V k'). right. exact I.
      * intros k' w' [I|I]; [inversion I; subst; rewrite T2; apply valid_app; exact E3|apply (F4 k'); exact I].
    + inversion S; subst. split; [exact GG|]. split; [exact B2|]. split; [exact MM|]. split; [|discriminate]. rewrite <- IFF. split; intros [? ?]; discriminate.
Qed.
Lemma blanks_ok : forall l x x' kv, blanks l x = (x', kv) -> closed (heap x) ->
  grew x x' /\ closed (heap x') /\ me x' = me x /\ Forall2 (fun n e => fst e = n /\ exists o, snd e = VObj o /\ (length (heap x) <= o)%nat /\ nth_error (heap x') o = Some (ODict [])) l kv.
Proof.
  intro l. induction l as [|n l IH]; intros x x' kv S C; cbn [blanks] in S.
  - inversion S; subst. split; [(apply grew_same; reflexivity)|]. split; [exact C|]. split; [reflexivity|]. constructor.
  - cbn [alloc] in S. destruct (blanks l (mkSt (heap x ++ [ODict []]) (draws x) (me x))) as [x2 rr] eqn:R. inversion S; subst. clear S.
    assert (C1 : closed (heap x ++ [ODict []])) by (apply closed_odict; [exact C|constructor|intros ? ? []]).
    destruct (IH _ _ _ R C1) as [A [B [M F]]]. split; [eapply grew_trans; [|exact A]; split; [eexists; reflexivity|reflexivity]|]. split; [exact B|]. split; [exact M|].
    destruct A as [[t T] _]. cbn [heap] in *. constructor.
    + split; [reflexivity|]. exists (length (heap x)). split; [reflexivity|]. split; [lia|]. rewrite T. apply nth_app. apply nth_new.
    + eapply Forall2_in; [|exact F]. intros m e I [X [o [Y1 [Y2 Y3]]]]. split; [exact X|]. exists o. rewrite app_length in Y2. split; [exact Y1|]. split; [lia|exact Y3].
Qed.
Lemma Forall2_map_fst : forall A B (P : name * A -> name * B -> Prop) l m, (forall a b, P a b -> fst a = fst b) -> Forall2 P l m -> map fst l = map fst m.
Proof. intros A B P l m H F. induction F as [|a b l m X Y IH]; [reflexivity|]. cbn. rewrite IH, (H _ _ X). reflexivity. Qed.
Lemma Forall2_pick_l : forall A B (P : A -> B -> Prop) l m a, Forall2 P l m -> In a l -> exists b, In b m /\ P a b.
Proof. intros A B P l m a F. induction F as [|x y l m X Y IH]; intros I; [contradiction|]. destruct I as [->|I]; [exists y; split; [left; reflexivity|exact X]|]. destruct (IH I) as [b [H1 H2]]. exists b. split; [right; exact H1|exact H2]. Qed.
Lemma Forall2_pick_r : forall A B (P : A -> B -> Prop) l m b, Forall2 P l m -> In b m -> exists a, In a l /\ P a b.
Proof. intros A B P l m b F. induction F as [|x y l m X Y IH]; intros I; [contradiction|]. destruct I as [->|I]; [exists x; split; [left; reflexivity|exact X]|]. destruct (IH I) as [a [H1 H2]]. exists a. split; [right; exact H1|exact H2]. Qed.
(** What an item given to a MultiStoreState must be. *)
Definition item_ok (d : sdef) (h : list obj) (w : val) : Prop :=
  forallb resource_class (s_types d) = true /\
  match as_dict h w with None => fits h (s_types d) w | Some kv' => exists c kw, builds d kv' c kw end.
Lemma item_makes : forall d h w h' w', valid h w -> (exists t, h' = h ++ t) -> resource_of d h w h' w' -> makes d h w -> (fits h' (s_types d) w' <-> item_ok d h w).
Proof.
  intros d h w h' w' V [t ->] R M. unfold MakeSpec.resource_of, makes, item_ok in *. destruct (as_dict h w) as [kv|] eqn:D.
  - destruct R as [o [c [kw [-> [L [N B]]]]]]. destruct M as [c' [kw' [B' RC]]]. split; [intros _; split; [exact RC|exists c, kw; exact B]|]. intros _.
    destruct B as [_ [_ [T _]]]. unfold MakeSpec.fits. cbn [MakeModel.type_of]. rewrite N. exact T.
  - subst w'. unfold type_checker in M. apply andb_true_iff in M. rewrite (fits_app h t) by exact V. tauto.
Qed.
Lemma item_ok_makes : forall d h w, item_ok d h w -> makes d h w.
Proof.
  intros d h w [RC H]. unfold makes. destruct (as_dict h w) as [kv|] eqn:D; [destruct H as [c [kw H]]; exists c, kw; auto|].
  unfold type_checker. rewrite RC. cbn [andb]. destruct (s_types d) as [|t ts] eqn:T; [reflexivity|]. destruct w as [ |c|s|l|o]; try reflexivity.
  exfalso. destruct H as [H|[u [H1 H2]]]; [discriminate|]. cbn [MakeModel.type_of] in H2. rewrite type_no_resource in H2; [discriminate|].
  rewrite forallb_forall in RC. apply RC. exact H1.
Qed.
(** make_all and set_items together *)
Lemma make_items_ok : forall d n kv x x' r, match make_all d kv x with (x2, Err e) => (x2, Some e) | (x2, Ok l) => set_items d n l x2 end = (x', r) ->
  closed (heap x) -> NoDup (map fst kv) -> (forall k w, In (k, w) kv -> valid (heap x) w) ->
  grew x x' /\ closed (heap x') /\ (r = None <-> forall k w, In (k, w) kv -> item_ok d (heap x) w) /\
  (r = None -> exists o l, (length (heap x) <= o)%nat /\ nth_error (heap x') o = Some (ODict l) /\ has_set n (VObj o) x x' /\
     Forall2 (fun e e' => fst e = fst e' /\ resource_of d (heap x) (snd e) (heap x') (snd e')) kv l).
Proof.
  intros d n kv x x' r S C N V. destruct (make_all d kv x) as [x2 r2] eqn:R. destruct (make_all_ok _ _ _ _ _ R C V) as [A2 [B2 [M2 [D2 F2]]]].
  destruct r2 as [l|e].
  2: { inversion S; subst. split; [exact A2|]. split; [exact B2|]. split; [|discriminate]. split; [discriminate|]. intro H.
       destruct (proj2 D2) as [? ?]; [intros k w I; apply item_ok_makes; apply (H k w I)|discriminate]. }
  destruct (F2 l eq_refl) as [F3 F4]. destruct A2 as [[t2 T2] DR2].
  assert (N2 : NoDup (map fst l)) by (rewrite <- (Forall2_map_fst _ _ _ _ _ (fun a b (H : fst a = fst b /\ _) => proj1 H) F3); exact N).
  destruct (set_items_ok _ _ _ _ _ _ S B2 N2 F4) as [A3 [B3 [D3 E3]]].
  assert (MK : forall k w, In (k, w) kv -> makes d (heap x) w) by (apply D2; eexists; reflexivity).
  split; [eapply grew_trans; [|exact A3]; split; [exists t2; exact T2|exact DR2]|]. split; [exact B3|]. split.
  - rewrite D3. split.
    + intros H k w I. destruct (Forall2_pick_l _ _ _ _ _ _ F3 I) as [[k' w'] [J [X Y]]]. cbn [snd fst] in *. apply (item_makes d (heap x) w (heap x2) w'); auto; [apply (V k w I)|exists t2; exact T2|apply (MK k w I)|apply (H k' w' J)].
    + intros H k' w' J. destruct (Forall2_pick_r _ _ _ _ _ _ F3 J) as [[k w] [I [X Y]]]. cbn [snd fst] in *. apply (item_makes d (heap x) w (heap x2) w'); auto; [apply (V k w I)|exists t2; exact T2|apply (MK k w I)|apply (H k w I)].
  - intro H. destruct (E3 H) as [o [E4 [E5 E6]]]. exists o, l. split; [rewrite T2, app_length in E4; lia|]. split; [exact E5|]. split.
    + destruct E6 as [G1 [G2 [G3 [G4 G5]]]]. unfold has_set, keepsake in *. rewrite M2 in *. split; [exact G1|]. split; [exact G2|]. split; [exact G3|]. split; [exact G4|exact G5].
    + destruct A3 as [[t3 T3] _]. eapply Forall2_in; [|exact F3]. intros a b I [X Y]. split; [exact X|]. rewrite T3. apply resource_app2. exact Y.
Qed.
Lemma Forall2_map_l : forall A B D (f : A -> B) (P : B -> D -> Prop) l m, Forall2 (fun a b => P (f a) b) l m -> Forall2 P (map f l) m.
Proof. intros A B D f P l m F. induction F; cbn; constructor; auto. Qed.
Lemma Forall2_comp : forall A B D (P : A -> B -> Prop) (Q : B -> D -> Prop) (R : A -> D -> Prop) l m k, (forall a b c, P a b -> Q b c -> R a c) -> Forall2 P l m -> Forall2 Q m k -> Forall2 R l k.
Proof. intros A B D P Q R l m k H F. revert k. induction F as [|a b l m X Y IH]; intros k G; inversion G; subst; constructor; eauto. Qed.
Lemma set_multi_ok : forall d n v x x' r, s_kind d = Multi -> set_multi d n v x = (x', r) -> aget n (a_dict (me x)) = None -> valid (heap x) v -> closed (heap x) ->
  (forall l, s_kind d = Multi -> v = VList l -> NoDup l) -> sets d n v x x' r.
Proof.
  intros d n v x x' r K S F V C O. unfold MakeModel.set_multi in S. rewrite (proj2 (amem_false _ _ _) (proj1 (aget_none _ _ _) F)) in S. unfold sets, MakeSpec.takes, MakeSpec.becomes. rewrite K.
  unfold items. destruct (as_dict (heap x) v) as [kv|] eqn:D.
  - destruct (closed_dict _ _ _ C D) as [N VV]. destruct (make_items_ok _ _ _ _ _ _ S C N VV) as [A [B [E G]]]. split; [exact A|]. split; [exact B|]. split.
    + rewrite E. split.
      * intro H. eexists. split; [reflexivity|]. intros k w I. apply in_map_iff in I. destruct I as [[k' w'] [X I]]. inversion X; subst. apply (H k w' I).
      * intros [kv' [-> H]] k w I. apply (H k (Some w)). apply in_map_iff. exists (k, w). auto.
    + intro H. destruct (G H) as [o [l [G1 [G2 [G3 G4]]]]]. exists (VObj o). split; [|split; [exact G3|unfold keeps, is_resource; rewrite K; intros []]]. eexists o, _, l. split; [reflexivity|]. split; [exact G1|]. split; [reflexivity|]. split; [exact G2|].
      apply Forall2_map_l. cbn [fst snd]. exact G4.
  - destruct v as [ |c|s|l|o]; try (inversion S; subst; split; [apply grew_same; reflexivity|]; split; [exact C|]; split; [|discriminate]; split; [discriminate|]; intros [kv' [[] _]]).
    destruct (blanks l x) as [x1 kv] eqn:BL. destruct (blanks_ok _ _ _ _ BL C) as [A1 [B1 [M1 F1]]]. specialize (O l K eq_refl).
    assert (MF : map fst kv = l).
    { clear -F1. induction F1 as [|a b l m [X _] Y IH]; [reflexivity|]. cbn [map]. rewrite IH. f_equal. exact X. }
    assert (VV : forall k w, In (k, w) kv -> valid (heap x1) w /\ as_dict (heap x1) w = Some []).
    { intros k w I. destruct (Forall2_pick_r _ _ _ _ _ _ F1 I) as [k' [_ [_ [o [X [Y Z]]]]]]. cbn [snd] in X. subst w. split; [apply nth_error_Some; rewrite Z; discriminate|]. cbn. rewrite Z. reflexivity. }
    rewrite <- MF in O. destruct (make_items_ok _ _ _ _ _ _ S B1 O (fun k w I => proj1 (VV k w I))) as [A [B [E G]]]. split; [eapply grew_trans; eauto|]. split; [exact B|]. split.
    + rewrite E. split.
      * intro H. eexists. split; [reflexivity|]. intros k w I. apply in_map_iff in I. destruct I as [k' [X I]]. inversion X; subst k' w.
        rewrite <- MF in I. apply in_map_iff in I. destruct I as [[k1 w1] [X1 I]]. cbn in X1. subst k1. destruct (H k w1 I) as [H1 H2]. rewrite (proj2 (VV k w1 I)) in H2. auto.
      * intros [kv' [-> H]] k w I. unfold item_ok. rewrite (proj2 (VV k w I)). apply (H k None). apply in_map_iff. exists k. split; [reflexivity|]. rewrite <- MF. apply in_map_iff. exists (k, w). auto.
    + intro H. destruct (G H) as [o [l' [G1 [G2 [G3 G4]]]]]. destruct A1 as [[t1 T1] DR]. exists (VObj o). split.
      * exists o, (map (fun n => (n, None)) l), l'. split; [reflexivity|]. split; [rewrite T1, app_length in G1; lia|]. split; [reflexivity|]. split; [exact G2|].
        apply Forall2_map_l. cbn [fst snd]. eapply Forall2_comp; [|exact F1|exact G4]. intros a [bk bw] e [X [ob [Y1 [Y2 Y3]]]] [Z1 Z2]. cbn [fst snd] in X, Y1, Z1, Z2. split; [transitivity bk; [symmetry; exact X|exact Z1]|].
        unfold MakeSpec.resource_of in Z2. rewrite Y1 in Z2. cbn [as_dict] in Z2. rewrite Y3 in Z2. destruct Z2 as [o2 [c [kw [W1 [W2 [W3 W4]]]]]]. exists o2, c, kw. split; [exact W1|]. split; [rewrite T1, app_length in W2; lia|]. split; [exact W3|exact W4].
      * split; [|unfold keeps, is_resource; rewrite K; intros []]. destruct G3 as [G5 [G6 [G7 [G8 G9]]]]. unfold has_set, keepsake in *. rewrite M1 in *. split; [exact G5|]. split; [exact G6|]. split; [exact G7|]. split; [exact G8|exact G9].
Qed.
Lemma set_state_ok : forall s n v x x' r, set_state s n v x = (x', r) -> aget n (a_dict (me x)) = None -> ~ In n (a_set (me x)) -> valid (heap x) v -> closed (heap x) -> ordinary (def s) (heap x) v ->
  sets (def s) n v x x' r.
Proof.
  intros s n v x x' r S F F' V C [O1 O2]. unfold MakeModel.set_state in S. destruct (s_kind (def s)) as [ |  | m | | | ] eqn:K.
  - apply set_plain_ok; auto.
  - destruct (set_resource_ok _ _ _ _ _ _ S F' V C) as [A [B [D E]]]. unfold sets, MakeSpec.takes, MakeSpec.becomes. rewrite K. split; [exact A|]. split; [exact B|]. split; [rewrite D; unfold takes_resource; tauto|].
    intro H. destruct (E H) as [v' [E1 [E2 E3]]]. exists v'. split; [exact E1|]. split; [exact E2|]. intros _. split; [apply E3|]. split; [unfold modes_are; rewrite K; exact Logic.I|apply E3].
  - eapply set_comms_ok; eauto.
  - apply set_dict_ok; auto.
  - apply set_data_ok; auto.
  - apply set_multi_ok; auto.
Qed.
Notation held := (held sub NONE TYPE STR LIST DICT resource_class).
Lemma takes_held : forall d h v t v', well_defined d -> valid h v -> closed h -> takes d h v -> becomes d h v (h ++ t) v' -> held d (h ++ t) v'.
Proof.
  intros d h v t v' W V C T B. unfold MakeSpec.takes, MakeSpec.becomes, MakeSpec.held in *. destruct W as [_ W].
  assert (RES : forall w w', valid h w -> resource_of d h w (h ++ t) w' -> as_dict h w = None /\ w' = w \/ exists c, type_of (h ++ t) w' = c /\ as_dict (h ++ t) w' = None /\ (s_types d = [] \/ exists t, In t (s_types d) /\ sub c t = true)).
  { intros w w' VW R. unfold MakeSpec.resource_of in R. destruct (as_dict h w); [right|left; auto]. destruct R as [o [c [kw [-> [L [N [_ [_ [Y _]]]]]]]]]. exists c. cbn. rewrite N. auto. }
  destruct (s_kind d) eqn:K.
  - subst v'. apply fits_app; assumption.
  - destruct T as [T _]. destruct W as [_ [_ [_ [NE _]]]]. destruct (RES _ _ V B) as [[D ->]|[c [X [_ Y]]]]; [rewrite D in T; rewrite type_of_app by exact V; exact T|]. rewrite X. destruct Y as [Y|Y]; [contradiction|exact Y].
  - destruct T as [T _]. destruct W as [_ [_ [_ [NE _]]]]. destruct (RES _ _ V B) as [[D ->]|[c [X [_ Y]]]]; [rewrite D in T; rewrite type_of_app by exact V; exact T|]. rewrite X. destruct Y as [Y|Y]; [contradiction|exact Y].
  - destruct T as [kv [D T]]. destruct B as [o [kv' [-> [L [D' N]]]]]. assert (kv' = kv) by congruence. subst kv'. exists kv. cbn [as_dict]. rewrite N. split; [reflexivity|]. intros k w I. destruct (closed_dict _ _ _ C D) as [_ VV]. apply fits_app; [apply (VV k w I)|apply (T k w I)].
  - subst v'. apply fits_app; assumption.
  - destruct T as [kv [D T]]. destruct B as [o [kv' [l [-> [L [D' [N F]]]]]]].
    assert (kv' = kv) by (unfold items in D, D'; destruct (as_dict h v); [congruence|]; destruct v; try contradiction; congruence). subst kv'.
    exists l. cbn [as_dict]. rewrite N. split; [reflexivity|]. intros k w' I. destruct (Forall2_pick_r _ _ _ _ _ _ F I) as [[k0 w] [J [_ R]]]. cbn [snd] in R. destruct (T k0 w J) as [RC T1]. split; [exact RC|].
    destruct w as [w|].
    + assert (VW : valid h w) by (eapply items_valid; eauto). destruct (RES _ _ VW R) as [[D1 ->]|[c [X [D2 Y]]]].
      * rewrite D1 in T1. rewrite as_dict_app by exact VW. split; [exact D1|]. apply fits_app; assumption.
      * split; [exact D2|]. unfold MakeSpec.fits. rewrite X. exact Y.
    + destruct R as [o1 [c [kw [-> [_ [N1 [_ [_ [Y _]]]]]]]]]. cbn [as_dict]. rewrite N1. split; [reflexivity|]. unfold MakeSpec.fits. cbn. rewrite N1. exact Y.
Qed.
Lemma held_app : forall d h t v, held d h v -> closed h -> valid h v -> held d (h ++ t) v.
Proof.
  intros d h t v H C V. unfold MakeSpec.held in *. destruct (s_kind d).
  - apply fits_app; assumption.
  - rewrite type_of_app by exact V. exact H.
  - rewrite type_of_app by exact V. exact H.
  - destruct H as [kv [D H]]. exists kv. rewrite as_dict_app by exact V. split; [exact D|]. intros k w I. destruct (closed_dict _ _ _ C D) as [_ VV]. apply fits_app; [apply (VV k w I)|apply (H k w I)].
  - apply fits_app; assumption.
  - destruct H as [kv [D H]]. exists kv. rewrite as_dict_app by exact V. split; [exact D|]. intros k w I. destruct (closed_dict _ _ _ C D) as [_ VV]. destruct (H k w I) as [H1 [H2 H3]].
    rewrite as_dict_app by apply (VV k w I). split; [exact H1|]. split; [exact H2|]. apply fits_app; [apply (VV k w I)|exact H3].
Qed.
Lemma becomes_new : forall d h v h' v', becomes d h v h' v' -> v' = v \/ exists o, v' = VObj o /\ (length h <= o)%nat.
Proof.
  intros d h v h' v' B. unfold MakeSpec.becomes, MakeSpec.resource_of in B. destruct (s_kind d).
  - auto.
  - destruct (as_dict h v); [|auto]. destruct B as [o [c [kw [X [Y _]]]]]. right. exists o. auto.
  - destruct (as_dict h v); [|auto]. destruct B as [o [c [kw [X [Y _]]]]]. right. exists o. auto.
  - destruct B as [o [kv [X [Y _]]]]. right. exists o. auto.
  - auto.
  - destruct B as [o [kv [l [X [Y _]]]]]. right. exists o. auto.
Qed.
Lemma ordinary_app : forall d h t v, valid h v -> ordinary d h v -> ordinary d (h ++ t) v.
Proof. intros d h t v V [A B]. split; [rewrite as_dict_app by exact V; exact A|exact B]. Qed.
(** ** All states *)
Definition inv (h0 : list obj) (x : st) : Prop :=
  (forall n v, aget n (a_dict (me x)) = Some v -> valid (heap x) v) /\
  (forall n m o, n <> m -> aget n (a_dict (me x)) = Some (VObj o) -> aget m (a_dict (me x)) = Some (VObj o) -> (o < length h0)%nat).
Lemma inv_step : forall h0 n v x x', inv h0 x -> has_set n v x x' -> (valid h0 v \/ exists o, v = VObj o /\ (length (heap x) <= o)%nat) -> (exists t, heap x' = heap x ++ t) -> inv h0 x'.
Proof.
  intros h0 n v x x' [I1 I2] [A [_ [_ [V _]]]] N [t T]. split.
  - intros m w H. rewrite A in H. destruct (Nat.eqb_spec m n); [inversion H; subst; exact V|]. rewrite T. apply valid_app. eauto.
  - intros p q o NE H1 H2. rewrite A in H1, H2. destruct (Nat.eqb_spec p n) as [->|P], (Nat.eqb_spec q n) as [->|Q].
    + congruence.
    + inversion H1; subst v. destruct N as [N|[o' [E L]]]; [exact N|]. inversion E; subst o'. apply I1 in H2. cbn in H2. lia.
    + inversion H2; subst v. destruct N as [N|[o' [E L]]]; [exact N|]. inversion E; subst o'. apply I1 in H1. cbn in H1. lia.
    + eauto.
Qed.
Notation set_given := (set_given sub NONE TYPE STR LIST DICT resource_class accepts initial def).
Lemma given_ok : forall c defs h0 kw x x' r,
  (forall n s, aget n defs = Some s -> lookup n c = Some (MState s)) -> (forall n s, aget n defs = Some s -> well_defined (def s)) ->
  set_given c defs kw x = (x', r) -> NoDup (map fst kw) -> (exists t, heap x = h0 ++ t) -> closed h0 -> closed (heap x) ->
  (forall n v, In (n, v) kw -> aget n (a_dict (me x)) = None /\ ~ In n (a_set (me x)) /\ valid h0 v /\ forall s, aget n defs = Some s -> ordinary (def s) h0 v) -> inv h0 x ->
  grew x x' /\ closed (heap x') /\
  (r = None <-> forall n v, In (n, v) kw -> exists s, aget n defs = Some s /\ s_no_init (def s) = false /\ takes (def s) h0 v) /\
  (r = None -> inv h0 x' /\ a_class (me x') = a_class (me x) /\ a_attrs (me x') = a_attrs (me x) /\
    (forall m, (~ In m (map fst kw) -> aget m (a_dict (me x')) = aget m (a_dict (me x)) /\ keepsake m x' = keepsake m x /\ (In m (a_set (me x')) -> In m (a_set (me x)))) /\ (In m (a_set (me x)) -> In m (a_set (me x')))) /\
    forall n v, In (n, v) kw -> exists s v', aget n defs = Some s /\ aget n (a_dict (me x')) = Some v' /\ becomes (def s) h0 v (heap x') v' /\ held (def s) (heap x') v' /\ keeps (def s) n v v' h0 x').
Proof.
  intros c defs h0 kw. induction kw as [|[n v] kw IH]; intros x x' r LK WD S N [t0 T0] C0 C FR I; cbn [MakeModel.set_given] in S.
  - inversion S; subst. split; [apply grew_same; reflexivity|]. split; [exact C|]. split; [split; [intros _ ? ? []|reflexivity]|]. intros _. split; [exact I|]. split; [reflexivity|]. split; [reflexivity|]. split; [intro m; auto|]. intros ? ? [].
  - destruct (aget n defs) as [s|] eqn:D.
    2: { inversion S; subst. split; [apply grew_same; reflexivity|]. split; [exact C|]. split; [|discriminate]. split; [discriminate|]. intro H. destruct (H n v (or_introl eq_refl)) as [s [X _]]. congruence. }
    destruct (s_no_init (def s)) eqn:NI.
    { inversion S; subst. split; [apply grew_same; reflexivity|]. split; [exact C|]. split; [|discriminate]. split; [discriminate|]. intro H. destruct (H n v (or_introl eq_refl)) as [s' [X [Y _]]]. congruence. }
    unfold set_attr in S. rewrite (LK n s D) in S. cbn [map fst] in N. inversion N as [|? ? N1 N2]; subst.
    destruct (FR n v (or_introl eq_refl)) as [F1 [F2 [V O]]].
    destruct (MakeModel.set_state sub NONE TYPE STR LIST DICT resource_class accepts initial def s n v x) as [x1 r1] eqn:S1.
    assert (V1 : valid (heap x) v) by (rewrite T0; apply valid_app; exact V). assert (O1 : ordinary (def s) (heap x) v) by (rewrite T0; apply ordinary_app; [exact V|apply (O s D)]).
    destruct (set_state_ok _ _ _ _ _ _ S1 F1 F2 V1 C O1) as [[[t1 T1] DR1] [C1 [TK1 B1]]].
    assert (TK : takes (def s) (heap x) v <-> takes (def s) h0 v) by (rewrite T0; apply takes_app; assumption). rewrite TK in TK1.
    destruct r1 as [e|].
    { inversion S; subst. split; [split; [exists t1; exact T1|exact DR1]|]. split; [exact C1|].
      split; [|discriminate]. split; [discriminate|]. intro H. destruct (H n v (or_introl eq_refl)) as [s' [X [_ Y]]]. assert (s' = s) by congruence. subst s'. apply TK1 in Y. discriminate. }
    destruct (B1 eq_refl) as [v' [B2 [HS KP]]]. assert (TN : takes (def s) h0 v) by (apply TK1; reflexivity).
    assert (HD : held (def s) (heap x1) v') by (rewrite T1 in *; apply (takes_held _ (heap x) v); auto; [apply (WD n s D)|rewrite T0; apply takes_app; assumption]).
    assert (I1 : inv h0 x1).
    { eapply inv_step; [exact I|exact HS| |exists t1; exact T1]. destruct (becomes_new _ _ _ _ _ B2) as [->|B3]; [left; exact V|right; exact B3]. }
    assert (HS' := HS). destruct HS as [H1 [H2 [H3 [H4 [H5 H6]]]]].
    assert (FR1 : forall m w, In (m, w) kw -> aget m (a_dict (me x1)) = None /\ ~ In m (a_set (me x1)) /\ valid h0 w /\ forall s', aget m defs = Some s' -> ordinary (def s') h0 w).
    { intros m w J. destruct (FR m w (or_intror J)) as [Y1 [Y2 Y3]]. assert (NE : m <> n) by (intro E; subst m; apply N1; apply in_map_iff; exists (n, w); auto).
      split; [rewrite H1; destruct (Nat.eqb_spec m n); [contradiction|exact Y1]|]. split; [|exact Y3]. intro J1. apply H3 in J1. destruct J1; contradiction. }
    destruct (IH x1 x' r LK WD S N2 (ex_intro _ (t0 ++ t1) (eq_trans T1 (eq_trans (f_equal (fun z => z ++ t1) T0) (eq_sym (app_assoc _ _ _))))) C0 C1 FR1 I1) as [[[t2 T2] DR2] [C2 [IFF R2]]].
    split; [split; [exists (t1 ++ t2); rewrite T2, T1, app_assoc; reflexivity|congruence]|]. split; [exact C2|]. split.
    + rewrite IFF. split.
      * intros H m w [J|J]; [inversion J; subst; exists s; auto|apply (H m w J)].
      * intros H m w J. apply (H m w). right. exact J.
    + intro RN. destruct (R2 RN) as [I2 [Q1 [Q2 [Q3 Q4]]]]. split; [exact I2|]. split; [congruence|]. split; [congruence|]. split.
      * intro m. split.
        -- intro J. cbn [map fst] in J. assert (NE : m <> n) by (intro E; apply J; left; auto). destruct (proj1 (Q3 m)) as [Z1 [Z2 Z3]]; [intro J1; apply J; right; exact J1|].
           rewrite Z1, Z2, H1, (H6 m NE). destruct (Nat.eqb_spec m n); [contradiction|]. split; [reflexivity|]. split; [reflexivity|]. intro J1. apply Z3 in J1. apply H3 in J1. destruct J1; [contradiction|assumption].
        -- intro J. apply (proj2 (Q3 m)). apply H3. exact J.
      * intros m w [J|J]; [|apply (Q4 m w J)]. inversion J; subst m w. destruct (proj1 (Q3 n) N1) as [Z1 [Z2 Z3]]. exists s, v'. split; [exact D|].
        split; [rewrite Z1, H1, Nat.eqb_refl; reflexivity|]. rewrite T0 in B2. apply becomes_app1 in B2; auto. split; [rewrite T2; apply becomes_app2; exact B2|].
        split; [rewrite T2; apply held_app; [exact HD|exact C1|exact H4]|].
        unfold keepsake in Z2. injection Z2 as Z2 ZM. intro RS. destruct (KP RS) as [K1 [KM K2]]. split; [apply (proj2 (Q3 n)); exact K1|]. split; [unfold modes_are in *; rewrite ZM; exact KM|]. intro AD. destruct K2 as [o [cc [kk [zz [E1 [E2 E3]]]]]]; [rewrite T0, as_dict_app by exact V; exact AD|].
        exists o, cc, kk, zz. split; [exact E1|]. split; [rewrite T2; apply nth_app; exact E2|]. rewrite Z2. exact E3.
Qed.
Notation set_default := (set_default sub NONE TYPE STR LIST DICT resource_class accepts initial produce def).
Notation set_defaults := (set_defaults sub NONE TYPE STR LIST DICT resource_class accepts initial produce def).
Notation default_is := (default_is sub accepts initial produce).
Notation has_a_default := (has_a_default sub NONE TYPE STR LIST DICT accepts produce).
Definition grown (x x' : st) : Prop := (exists t, heap x' = heap x ++ t) /\ (draws x <= draws x')%nat.
Lemma default_is_app1 : forall d h t h' ov, default_is d (h ++ t) h' ov -> default_is d h h' ov.
Proof.
  intros d h t h' ov H. unfold MakeSpec.default_is in *. destruct (s_kind d); auto.
  - destruct (s_factory d); [|exact H]. destruct H as [k H]. exists k. destruct (produce n k) as [[c z]|]; [|exact H]. destruct H as [o [A [B C]]]. rewrite app_length in B. exists o. split; [exact A|]. split; [lia|exact C].
  - destruct H as [o [c [kw [A [B C]]]]]. rewrite app_length in B. exists o, c, kw. split; [exact A|]. split; [lia|exact C].
  - destruct H as [o [c [kw [A [B C]]]]]. rewrite app_length in B. exists o, c, kw. split; [exact A|]. split; [lia|exact C].
Qed.
Lemma default_is_app2 : forall d h t h' ov, default_is d h h' ov -> default_is d h (h' ++ t) ov.
Proof.
  intros d h t h' ov H. unfold MakeSpec.default_is in *. destruct (s_kind d); auto.
  - destruct (s_factory d); [|exact H]. destruct H as [k H]. exists k. destruct (produce n k) as [[c z]|]; [|exact H]. destruct H as [o [A [B C]]]. exists o. split; [exact A|]. split; [exact B|apply nth_app; exact C].
  - destruct H as [o [c [kw [A [B [C D]]]]]]. exists o, c, kw. split; [exact A|]. split; [exact B|]. split; [apply nth_app; exact C|exact D].
  - destruct H as [o [c [kw [A [B [C D]]]]]]. exists o, c, kw. split; [exact A|]. split; [exact B|]. split; [apply nth_app; exact C|exact D].
Qed.
(** [x'] has [ov] at [n]. *)
Definition has_put (n : name) (ov : option val) (x x' : st) : Prop :=
  (forall m, aget m (a_dict (me x')) = if Nat.eqb m n then ov else aget m (a_dict (me x))) /\ a_class (me x') = a_class (me x) /\
  (forall m, (In m (a_set (me x')) -> m = n \/ In m (a_set (me x))) /\ (In m (a_set (me x)) -> In m (a_set (me x')))) /\ a_attrs (me x') = a_attrs (me x) /\
  (forall m, m <> n -> keepsake m x' = keepsake m x).
Definition kept (d : sdef) (n : name) (x' : st) : Prop :=
  is_resource d -> In n (a_set (me x')) /\ modes_are d n (me x') /\ exists o c kw z, aget n (a_dict (me x')) = Some (VObj o) /\ nth_error (heap x') o = Some (ORes c kw z) /\ aget n (a_memory (me x')) = Some kw.
Lemma has_put_set : forall n v x y x', has_set n v y x' -> me y = me x -> has_put n (Some v) x x'.
Proof. intros n v x y x' [A [B [C [D [E F]]]]] M. unfold has_put, keepsake in *. rewrite M in *. split; [exact A|]. split; [exact B|]. split; [exact C|]. split; [exact E|exact F]. Qed.
Lemma set_default_ok : forall h0 s n x x' r, set_default s n x = (x', r) -> aget n (a_dict (me x)) = None -> ~ In n (a_set (me x)) -> closed (heap x) -> (exists t, heap x = h0 ++ t) ->
  well_defined (def s) -> valid h0 (s_default (def s)) -> has_default (def s) = true -> inv h0 x ->
  grown x x' /\ closed (heap x') /\ (has_a_default (def s) h0 -> r = None) /\
  (r = None -> exists ov, default_is (def s) (heap x) (heap x') ov /\ has_put n ov x x' /\ inv h0 x' /\ kept (def s) n x' /\
     (forall v, ov = Some v -> held (def s) (heap x') v)).
Proof.
  intros h0 s n x x' r S F F' C [t0 T0] W V0 HD I. unfold MakeModel.set_default in S.
  assert (VD : valid (heap x) (s_default (def s))) by (rewrite T0; apply valid_app; exact V0).
  assert (RES : is_resource (def s) -> (let '(x1, o) := alloc (ODict []) x in set_state s n (VObj o) x1) = (x', r) ->
    grown x x' /\ closed (heap x') /\ (has_a_default (def s) h0 -> r = None) /\
    (r = None -> exists ov, default_is (def s) (heap x) (heap x') ov /\ has_put n ov x x' /\ inv h0 x' /\ kept (def s) n x' /\ (forall v, ov = Some v -> held (def s) (heap x') v))).
  { intros RS S0. cbn [alloc] in S0. set (x1 := mkSt (heap x ++ [ODict []]) (draws x) (me x)) in *.
    assert (AD : as_dict (heap x1) (VObj (length (heap x))) = Some []) by (cbn; rewrite nth_new; reflexivity).
    assert (C1 : closed (heap x1)) by (apply closed_odict; [exact C|constructor|intros ? ? []]).
    assert (V1 : valid (heap x1) (VObj (length (heap x)))) by (cbn; rewrite app_length; cbn; lia).
    assert (O1 : ordinary (def s) (heap x1) (VObj (length (heap x)))) by (split; [rewrite AD; intros m kv _ E; inversion E; reflexivity|discriminate]).
    destruct (set_state_ok s n _ x1 _ _ S0 F F' V1 C1 O1) as [[[t1 T1] D1] [C2 [TK B]]].
    split; [split; [exists ([ODict []] ++ t1); rewrite T1; cbn; rewrite <- app_assoc; reflexivity|rewrite D1; cbn; lia]|]. split; [exact C2|]. split.
    - intro H. apply TK. unfold MakeSpec.takes, MakeSpec.has_a_default, is_resource in *. destruct (s_kind (def s)); try contradiction; destruct H as [H1 H2]; rewrite AD; auto.
    - intro RN. destruct (B RN) as [v' [B1 [B2 B3]]]. exists (Some v').
      assert (TT : takes (def s) (heap x1) (VObj (length (heap x)))) by (apply TK; exact RN).
      assert (HLD : held (def s) (heap x') v') by (rewrite T1 in *; apply (takes_held _ (heap x1) (VObj (length (heap x)))); auto).
      assert (BB : exists o c kw, v' = VObj o /\ (length (heap x1) <= o)%nat /\ nth_error (heap x') o = Some (ORes c kw (initial c kw)) /\ builds (def s) [] c kw).
      { unfold MakeSpec.becomes, MakeSpec.resource_of, is_resource in *. rewrite AD in B1. destruct (s_kind (def s)); try contradiction; exact B1. }
      destruct BB as [o [c [kw [E [L [NT BD]]]]]]. split.
      + apply (default_is_app1 _ _ [ODict []]). unfold MakeSpec.default_is, is_resource in *. change (heap x ++ [ODict []]) with (heap x1). destruct (s_kind (def s)); try contradiction; exists o, c, kw; subst v'; auto.
      + split; [eapply has_put_set; [exact B2|reflexivity]|]. split.
        * assert (IX : inv h0 x1) by (destruct I as [I1 I2]; split; [intros m w H; apply I1 in H; apply valid_app; exact H|exact I2]).
          eapply inv_step; [exact IX|exact B2| |exists t1; exact T1]. right. exists o. auto.
        * split; [|intros v E2; inversion E2; subst v; exact HLD]. intros _. destruct (B3 RS) as [B4 [BM B5]]. split; [exact B4|]. split; [exact BM|]. destruct B5 as [o2 [c2 [kw2 [z2 [G1 [G2 G3]]]]]]; [rewrite AD; discriminate|].
          exists o2, c2, kw2, z2. split; [destruct B2 as [B2 _]; rewrite B2, Nat.eqb_refl; congruence|]. auto. }
  destruct (s_kind (def s)) as [ |  | m | | | ] eqn:K.
  - (* Plain *) clear RES. assert (KP : forall y, kept (def s) n y) by (intros y H; unfold is_resource in H; rewrite K in H; contradiction).
    destruct (s_factory (def s)) as [f|] eqn:FA.
    + destruct (produce f (draws x)) as [[c z]|] eqn:PR.
      * cbn [alloc] in S. set (x2 := mkSt (heap (mkSt (heap x) (Datatypes.S (draws x)) (me x)) ++ [OPlain c z]) (draws (mkSt (heap x) (Datatypes.S (draws x)) (me x))) (me (mkSt (heap x) (Datatypes.S (draws x)) (me x)))) in *.
        unfold MakeModel.set_state in S. rewrite K in S. assert (C2 : closed (heap x2)) by (apply closed_obj; exact C).
        assert (V2 : valid (heap x2) (VObj (length (heap x)))) by (cbn; rewrite app_length; cbn; lia).
        destruct (set_plain_ok (def s) n _ x2 _ _ K S F V2 C2) as [[[t1 T1] D1] [C3 [TK B]]].
        assert (FT : fits (heap x2) (s_types (def s)) (VObj (length (heap x))) <-> (s_types (def s) = [] \/ exists t, In t (s_types (def s)) /\ sub c t = true)).
        { unfold MakeSpec.fits. cbn [MakeModel.type_of]. cbn [x2 heap]. rewrite nth_new. reflexivity. }
        split; [split; [exists ([OPlain c z] ++ t1); rewrite T1; cbn; rewrite <- app_assoc; reflexivity|rewrite D1; cbn; lia]|]. split; [exact C3|]. split.
        -- intro H. apply TK. unfold MakeSpec.takes. rewrite K. unfold MakeSpec.has_a_default in H. rewrite K, FA in H. specialize (H (draws x)). rewrite PR in H. apply FT. exact H.
        -- intro RN. assert (TT : takes (def s) (heap x2) (VObj (length (heap x)))) by (apply TK; exact RN). destruct (B RN) as [v' [B1 [B2 _]]]. unfold MakeSpec.becomes in B1. rewrite K in B1. subst v'. exists (Some (VObj (length (heap x)))).
           split; [unfold MakeSpec.default_is; rewrite K, FA; exists (draws x); rewrite PR; exists (length (heap x)); split; [reflexivity|]; split; [lia|]; rewrite T1; cbn [x2 heap]; apply nth_app; apply nth_new|].
           split; [eapply has_put_set; [exact B2|reflexivity]|]. split; [|split; [apply KP|]].
           ++ assert (IX : inv h0 x2) by (destruct I as [I1 I2]; split; [intros m w H; apply I1 in H; apply valid_app; exact H|exact I2]).
              destruct I as [I1 I2]. split.
              ** intros m w H. destruct B2 as [A [_ [_ [V _]]]]. rewrite A in H. destruct (Nat.eqb_spec m n); [inversion H; subst; exact V|]. rewrite T1. apply valid_app. apply (proj1 IX m w H).
              ** intros p q o NE H1 H2. destruct B2 as [A _]. rewrite A in H1, H2. destruct (Nat.eqb_spec p n) as [->|P], (Nat.eqb_spec q n) as [->|Q]; [congruence| | |apply (I2 p q o NE H1 H2)].
                 --- inversion H1; subst o. apply I1 in H2. cbn in H2. lia.
                 --- inversion H2; subst o. apply I1 in H1. cbn in H1. lia.
           ++ intros v E. inversion E; subst v. unfold MakeSpec.takes in TT. rewrite K in TT. unfold MakeSpec.held. rewrite K. rewrite T1. apply fits_app; [exact V2|exact TT].
      * unfold MakeModel.set_state in S. rewrite K in S. set (x2 := mkSt (heap x) (Datatypes.S (draws x)) (me x)) in *.
        destruct (set_plain_ok (def s) n VNone x2 _ _ K S F Logic.I C) as [[[t1 T1] D1] [C3 [TK B]]].
        split; [split; [exists t1; exact T1|rewrite D1; cbn; lia]|]. split; [exact C3|]. split.
        -- intro H. apply TK. unfold MakeSpec.takes. rewrite K. unfold MakeSpec.has_a_default in H. rewrite K, FA in H. specialize (H (draws x)). rewrite PR in H. exact H.
        -- intro RN. assert (TT : takes (def s) (heap x2) VNone) by (apply TK; exact RN). destruct (B RN) as [v' [B1 [B2 _]]]. unfold MakeSpec.becomes in B1. rewrite K in B1. subst v'. exists (Some VNone).
           split; [unfold MakeSpec.default_is; rewrite K, FA; exists (draws x); rewrite PR; reflexivity|].
           split; [eapply has_put_set; [exact B2|reflexivity]|]. split; [eapply inv_step; [exact I|exact B2|left; exact Logic.I|exists t1; exact T1]|]. split; [apply KP|].
           intros v E. inversion E; subst v. unfold MakeSpec.takes in TT. rewrite K in TT. unfold MakeSpec.held. rewrite K. exact TT.
    + assert (DEF : s_default (def s) <> VNone -> set_state s n (s_default (def s)) x = (x', r) -> grown x x' /\ closed (heap x') /\ (has_a_default (def s) h0 -> r = None) /\
        (r = None -> exists ov, default_is (def s) (heap x) (heap x') ov /\ has_put n ov x x' /\ inv h0 x' /\ kept (def s) n x' /\ (forall v, ov = Some v -> held (def s) (heap x') v))).
      { intros ND S1. unfold MakeModel.set_state in S1. rewrite K in S1. destruct (set_plain_ok (def s) n _ x _ _ K S1 F VD C) as [[[t1 T1] D1] [C3 [TK B]]].
        split; [split; [exists t1; exact T1|rewrite D1; lia]|]. split; [exact C3|]. split.
        - intro H. apply TK. unfold MakeSpec.takes. rewrite K. rewrite T0. apply fits_app; [exact V0|]. unfold MakeSpec.has_a_default in H. rewrite K, FA in H. destruct (s_default (def s)); try contradiction; auto.
        - intro RN. assert (TT : takes (def s) (heap x) (s_default (def s))) by (apply TK; exact RN). destruct (B RN) as [v' [B1 [B2 _]]]. unfold MakeSpec.becomes in B1. rewrite K in B1. subst v'. exists (Some (s_default (def s))).
          split; [unfold MakeSpec.default_is; rewrite K, FA; destruct (s_default (def s)); try contradiction; reflexivity|].
          split; [eapply has_put_set; [exact B2|reflexivity]|]. split; [eapply inv_step; [exact I|exact B2|left; exact V0|exists t1; exact T1]|]. split; [apply KP|].
          intros v E. inversion E; subst v. unfold MakeSpec.takes in TT. rewrite K in TT. unfold MakeSpec.held. rewrite K, T1. apply fits_app; assumption. }
      destruct (s_default (def s)) as [ |c|z|l|o] eqn:SD; try (apply DEF; [discriminate|exact S]).
      destruct (s_allow_none (def s)) eqn:AN; inversion S; subst.
      * split; [split; [exists []; rewrite app_nil_r; reflexivity|lia]|]. split; [exact C|]. split; [reflexivity|]. intros _. exists None.
        split; [unfold MakeSpec.default_is; rewrite K, FA, SD; auto|]. split; [|split; [exact I|split; [apply KP|discriminate]]].
        split; [intro m; destruct (Nat.eqb_spec m n); [subst m; exact F|reflexivity]|]. split; [reflexivity|]. split; [intro m; auto|]. split; reflexivity.
      * exfalso. unfold has_default in HD. rewrite K, AN, SD, FA in HD. discriminate.
  - apply RES; [unfold is_resource; rewrite K; exact Logic.I|exact S].
  - apply RES; [unfold is_resource; rewrite K; exact Logic.I|exact S].
  - exfalso. unfold has_default in HD. destruct W as [_ W]. rewrite K in W, HD. destruct W as [W1 [W2 W3]]. rewrite W1, W2, W3 in HD. discriminate.
  - exfalso. unfold has_default in HD. destruct W as [_ W]. rewrite K in W, HD. destruct W as [W1 [W2 W3]]. rewrite W1, W2, W3 in HD. discriminate.
  - exfalso. unfold has_default in HD. rewrite K in HD. discriminate.
Qed.
Lemma kept_app : forall d n x x', kept d n x -> (forall m, In m (a_set (me x)) -> In m (a_set (me x'))) -> aget n (a_dict (me x')) = aget n (a_dict (me x)) -> keepsake n x' = keepsake n x ->
  (exists t, heap x' = heap x ++ t) -> kept d n x'.
Proof.
  intros d n x x' K A B C0 [t T] R. unfold keepsake in C0. injection C0 as C CM. destruct (K R) as [K1 [KM [o [c [kw [z [K2 [K3 K4]]]]]]]]. split; [apply A; exact K1|]. split; [unfold modes_are in *; rewrite CM; exact KM|]. exists o, c, kw, z. rewrite B, C, T. split; [exact K2|]. split; [apply nth_app; exact K3|exact K4].
Qed.
Lemma defaults_ok : forall h0 defs ns x x' r, (forall n s, aget n defs = Some s -> well_defined (def s) /\ valid h0 (s_default (def s))) ->
  set_defaults defs ns x = (x', r) -> NoDup ns -> closed (heap x) -> (exists t, heap x = h0 ++ t) -> (forall n, In n ns -> aget n (a_dict (me x)) = None /\ ~ In n (a_set (me x))) -> inv h0 x ->
  grown x x' /\ closed (heap x') /\ ((forall n s, In n ns -> aget n defs = Some s -> has_default (def s) = true -> has_a_default (def s) h0) -> r = None) /\
  (r = None -> inv h0 x' /\ a_class (me x') = a_class (me x) /\ a_attrs (me x') = a_attrs (me x) /\
    (forall m, (~ In m ns -> aget m (a_dict (me x')) = aget m (a_dict (me x)) /\ keepsake m x' = keepsake m x) /\ (In m (a_set (me x)) -> In m (a_set (me x')))) /\
    forall n s, In n ns -> aget n defs = Some s -> has_default (def s) = true ->
      default_is (def s) h0 (heap x') (aget n (a_dict (me x'))) /\ kept (def s) n x' /\ forall v, aget n (a_dict (me x')) = Some v -> held (def s) (heap x') v).
Proof.
  intros h0 defs ns. induction ns as [|n ns IH]; intros x x' r WD S N C [t0 T0] FR I; cbn [MakeModel.set_defaults] in S.
  - inversion S; subst. split; [split; [exists []; rewrite app_nil_r; reflexivity|lia]|]. split; [exact C|]. split; [reflexivity|]. intros _. split; [exact I|]. split; [reflexivity|]. split; [reflexivity|]. split; [intro m; auto|]. intros ? ? [].
  - inversion N as [|? ? N1 N2]; subst.
    assert (SKIP : (forall s, aget n defs = Some s -> has_default (def s) = false) -> set_defaults defs ns x = (x', r) ->
      grown x x' /\ closed (heap x') /\ ((forall n' s, In n' (n :: ns) -> aget n' defs = Some s -> has_default (def s) = true -> has_a_default (def s) h0) -> r = None) /\
      (r = None -> inv h0 x' /\ a_class (me x') = a_class (me x) /\ a_attrs (me x') = a_attrs (me x) /\
        (forall m, (~ In m (n :: ns) -> aget m (a_dict (me x')) = aget m (a_dict (me x)) /\ keepsake m x' = keepsake m x) /\ (In m (a_set (me x)) -> In m (a_set (me x')))) /\
        forall n' s, In n' (n :: ns) -> aget n' defs = Some s -> has_default (def s) = true ->
          default_is (def s) h0 (heap x') (aget n' (a_dict (me x'))) /\ kept (def s) n' x' /\ forall v, aget n' (a_dict (me x')) = Some v -> held (def s) (heap x') v)).
    { intros ND S0. destruct (IH x x' r WD S0 N2 C (ex_intro _ t0 T0) (fun m J => FR m (or_intror J)) I) as [A1 [A2 [A3 A4]]].
      split; [exact A1|]. split; [exact A2|]. split; [intro H; apply A3; intros m s J; apply H; right; exact J|]. intro RN. destruct (A4 RN) as [B1 [B2 [B3 [B4 B5]]]].
      split; [exact B1|]. split; [exact B2|]. split; [exact B3|]. split; [intro m; split; [intro J; apply (B4 m); intro J1; apply J; right; exact J1|apply (B4 m)]|].
      intros m s [J|J] D HD; [subst m; rewrite (ND s D) in HD; discriminate|apply (B5 m s J D HD)]. }
    destruct (aget n defs) as [s|] eqn:D; [|apply SKIP; [discriminate|exact S]].
    destruct (has_default (def s)) eqn:HD; [|apply SKIP; [intros s' E; inversion E; subst; exact HD|exact S]]. clear SKIP.
    destruct (set_default s n x) as [x1 r1] eqn:S1. destruct (FR n (or_introl eq_refl)) as [F1 F2]. destruct (WD n s D) as [W1 W2].
    destruct (set_default_ok h0 s n x x1 r1 S1 F1 F2 C (ex_intro _ t0 T0) W1 W2 HD I) as [[[t1 T1] D1] [C1 [OK1 R1]]].
    destruct r1 as [e|].
    { inversion S; subst. split; [split; [exists t1; exact T1|exact D1]|]. split; [exact C1|]. split; [|discriminate]. intro H. apply OK1. apply (H n s); auto. left. reflexivity. }
    destruct (R1 eq_refl) as [ov [DI [[P1 [P2 [P3 [P4 P5]]]] [I1 [KP HL]]]]].
    assert (FR1 : forall m, In m ns -> aget m (a_dict (me x1)) = None /\ ~ In m (a_set (me x1))).
    { intros m J. destruct (FR m (or_intror J)) as [Y1 Y2]. assert (NE : m <> n) by (intro E; subst m; contradiction). split; [rewrite P1; destruct (Nat.eqb_spec m n); [contradiction|exact Y1]|]. intro J1. apply P3 in J1. destruct J1; contradiction. }
    assert (HX : exists t, heap x1 = h0 ++ t) by (exists (t0 ++ t1); rewrite T1, T0, app_assoc; reflexivity).
    destruct (IH x1 x' r WD S N2 C1 HX FR1 I1) as [[[t2 T2] D2] [C2 [OK2 R2]]].
    split; [split; [exists (t1 ++ t2); rewrite T2, T1, app_assoc; reflexivity|lia]|]. split; [exact C2|]. split; [intro H; apply OK2; intros m s' J; apply H; right; exact J|].
    intro RN. destruct (R2 RN) as [B1 [B2 [B3 [B4 B5]]]]. split; [exact B1|]. split; [congruence|]. split; [congruence|]. split.
    + intro m. split; [|intro J; apply (B4 m); apply P3; exact J]. intro J. assert (NE : m <> n) by (intro E; apply J; left; auto). destruct (proj1 (B4 m)) as [Z1 Z2]; [intro J1; apply J; right; exact J1|].
      rewrite Z1, Z2, P1, (P5 m NE). destruct (Nat.eqb_spec m n); [contradiction|]. auto.
    + intros m s' [J|J] D' HD'; [|apply (B5 m s' J D' HD')]. subst m. assert (s' = s) by congruence. subst s'. destruct (proj1 (B4 n) N1) as [Z1 Z2].
      assert (OV : aget n (a_dict (me x1)) = ov) by (rewrite P1, Nat.eqb_refl; reflexivity).
      split; [rewrite Z1, OV, T2; apply default_is_app2; rewrite T0 in DI; apply default_is_app1 in DI; exact DI|]. split; [apply (kept_app _ _ x1); auto; [intro m; apply (B4 m)|exists t2; exact T2]|].
      intros v E. rewrite Z1, OV in E. rewrite T2. apply held_app; [apply HL; exact E|exact C1|]. apply (proj1 I1 n). congruence.
Qed.
Lemma has_a_has : forall d h, has_a_default d h -> has_default d = true.
Proof.
  intros d h H. unfold MakeSpec.has_a_default, has_default in *. destruct (s_kind d); try contradiction.
  - destruct (s_factory d); [apply orb_true_r|]. destruct (s_default d); cbn; rewrite ?orb_true_r; auto. rewrite H. reflexivity.
  - destruct H as [[c [kw [H _]]] _]. cbn in H. rewrite H. cbn. rewrite orb_true_r. reflexivity.
  - destruct H as [[c [kw [H _]]] _]. cbn in H. rewrite H. cbn. rewrite orb_true_r. reflexivity.
Qed.
Lemma lacks_has : forall d, lacks d -> has_default d = false.
Proof. intros d [H|[A [B C]]]; unfold has_default; [rewrite H; reflexivity|]. rewrite A, B, C. destruct (s_kind d); reflexivity. Qed.
(** ** The states of a class *)
Lemma flat_rev : forall A B (f : A -> list B) l, Permutation (concat (map f (rev l))) (concat (map f l)).
Proof.
  intros A B f l. induction l as [|a l IH]; [constructor|]. cbn [rev map concat]. rewrite map_app, concat_app. cbn [map concat]. rewrite app_nil_r. rewrite IH. apply Permutation_app_comm.
Qed.
Lemma declared_in : forall c n s, In (n, s) (concat (map own (rev c))) <-> declared c n s.
Proof.
  intros c n s. rewrite in_concat. split.
  - intros [l [H1 H2]]. apply in_map_iff in H1. destruct H1 as [d [<- H1]]. apply in_rev in H1. exists d. split; [exact H1|]. apply own_in. exact H2.
  - intros [d [H1 H2]]. exists (own d). split; [apply in_map; apply in_rev in H1; exact H1|apply own_in; exact H2].
Qed.
Lemma init_subclass_ok : forall c l, init_subclass def c = Ok l -> l = concat (map own (rev c)) /\ NoDup (map fst l) /\ (forall n s, declared c n s -> In n [SELF; NAME; DEBUG_LOG; DEBUG_LOG_TIME] -> s_no_init (def s) = true).
Proof.
  intros c l H. unfold init_subclass in H. pose proof (all_states_eq (rev c) [] (NoDup_nil _)) as A. destruct (all_states (rev c) []) as [l'|e]; [|discriminate]. destruct A as [A1 A2]. cbn [app] in A1.
  match type of H with context [if ?b then _ else _] => destruct b eqn:E end; [discriminate|]. injection H as HL. rewrite HL in *. clear HL. split; [exact A1|]. split; [exact A2|]. intros n s D I. destruct (s_no_init (def s)) eqn:NI; [reflexivity|].
  exfalso. assert (X : existsb (fun e : nat * nat => memn (fst e) [SELF; NAME; DEBUG_LOG; DEBUG_LOG_TIME] && negb (s_no_init (def (snd e)))) l = true); [|congruence].
  apply existsb_exists. exists (n, s). split; [rewrite A1; apply declared_in; exact D|]. cbn [fst snd]. rewrite NI, andb_true_r. apply memn_true. exact I.
Qed.
Lemma init_subclass_err : forall c, proper c -> (exists e, init_subclass def c = Err e) <-> (twice c \/ exists n s, declared c n s /\ s_no_init (def s) = false /\ In n [SELF; NAME; DEBUG_LOG; DEBUG_LOG_TIME]).
Proof.
  intros c P. unfold init_subclass. pose proof (all_states_eq (rev c) [] (NoDup_nil _)) as A. cbn [app] in A.
  assert (PM : Permutation (map fst (concat (map own (rev c)))) (map fst (concat (map own c)))) by (apply Permutation_map; apply flat_rev).
  assert (TW : twice c <-> ~ NoDup (map fst (concat (map own (rev c))))).
  { rewrite <- (concat_nodup c P). split; intros H X; apply H; [apply (Permutation_NoDup PM X)|apply (Permutation_NoDup (Permutation_sym PM) X)]. }
  destruct (all_states (rev c) []) as [l|e].
  - destruct A as [A1 A2]. match goal with |- context [if ?b then _ else _] => destruct b eqn:E end.
    + split; [intros _|intros _; eexists; reflexivity]. right. apply existsb_exists in E. destruct E as [[n s] [E1 E2]]. cbn [fst snd] in E2. apply andb_true_iff in E2. destruct E2 as [E2 E3].
      exists n, s. split; [apply declared_in; rewrite <- A1; exact E1|]. split; [apply negb_true_iff; exact E3|apply memn_true; exact E2].
    + split; [intros [e H]; discriminate|]. intros [H|[n [s [D [NI I]]]]]; [exfalso; apply TW in H; apply H; rewrite <- A1; exact A2|].
      exfalso. rewrite <- not_true_iff_false in E. apply E. apply existsb_exists. exists (n, s). split; [rewrite A1; apply declared_in; exact D|]. cbn [fst snd]. rewrite NI, andb_true_r. apply memn_true. exact I.
  - destruct A as [A1 A2]. split; [intros _; left; apply TW; exact A2|intros _; eexists; reflexivity].
Qed.
(** ** Making an actor *)
Variable order : list name -> list name.
Variable classes : nat -> class.
Hypothesis order_perm : forall l, Permutation (order l) l.
Notation make := (make sub NONE TYPE STR LIST DICT resource_class accepts initial produce def order classes).
Notation init_states := (init_states sub NONE TYPE STR LIST DICT resource_class accepts initial produce def order).
Notation good_class := (good_class def).
Notation all_names := (all_names def).
Lemma state_kwargs_in : forall kw n v, In (n, v) (state_kwargs kw) <-> gives kw n v.
Proof.
  intros kw n v. unfold state_kwargs, gives. rewrite filter_In. cbn [fst]. split; intros [A B]; (split; [exact A|]).
  - intro P. apply memn_true in P. apply negb_true_iff in B. congruence.
  - apply negb_true_iff. destruct (memn n [NAME; DEBUG_LOG; DEBUG_LOG_TIME; KNOWLEDGE]) eqn:E; [|reflexivity]. apply memn_true in E. contradiction.
Qed.
Lemma filter_nodup : forall A (f : name * A -> bool) l, NoDup (map fst l) -> NoDup (map fst (filter f l)).
Proof.
  intros A f l. induction l as [|e l IH]; intro N; [constructor|]. cbn [map] in N. inversion N as [|? ? N1 N2]; subst. cbn [filter]. destruct (f e); cbn [map]; [constructor|]; auto.
  intro H. apply N1. apply in_map_iff in H. destruct H as [e' [E H]]. apply filter_In in H. apply in_map_iff. exists e'. tauto.
Qed.
Lemma unseen_in : forall (defs : list (name * nat)) (kw : list (name * val)) n, In n (unseen defs kw) <-> In n (map fst defs) /\ ~ In n (map fst kw).
Proof.
  intros defs kw n. unfold unseen. rewrite filter_In. split; intros [A B]; (split; [exact A|]).
  - apply negb_true_iff in B. apply amem_false in B. exact B.
  - apply negb_true_iff. apply amem_false. exact B.
Qed.
Lemma missing_false : forall (defs : list (name * nat)) (kw : list (name * val)), missing def defs kw = false <-> forall n s, In n (unseen defs kw) -> aget n defs = Some s -> has_default (def s) = true.
Proof.
  intros defs kw. unfold missing. split.
  - intros H n s I D. destruct (has_default (def s)) eqn:E; [reflexivity|]. rewrite <- not_true_iff_false in H. exfalso. apply H. apply existsb_exists. exists n. split; [exact I|]. rewrite D, E. reflexivity.
  - intro H. apply not_true_iff_false. intro X. apply existsb_exists in X. destruct X as [n [I X]]. destruct (aget n defs) as [s|] eqn:D; [|discriminate]. rewrite (H n s I D) in X. discriminate.
Qed.
(** What is told of a new actor [a]: made of class [k] with [kw], the heap [h] becoming [h']. *)
Definition made (k : nat) (kw : list (name * val)) (h h' : list obj) (a : actor) : Prop :=
  a_class a = k /\ a_attrs a = [] /\
  (forall n v, gives kw n v -> exists s v', declared (classes k) n s /\ s_no_init (def s) = false /\ takes (def s) h v /\ aget n (a_dict a) = Some v' /\ becomes (def s) h v h' v') /\
  (forall n s, declared (classes k) n s -> (forall v, ~ gives kw n v) -> default_is (def s) h h' (aget n (a_dict a))) /\
  (forall n v, aget n (a_dict a) = Some v -> exists s, declared (classes k) n s /\ held (def s) h' v /\ valid h' v) /\
  (forall n m o, n <> m -> aget n (a_dict a) = Some (VObj o) -> aget m (a_dict a) = Some (VObj o) -> (o < length h)%nat) /\
  (forall n s, declared (classes k) n s -> is_resource (def s) -> In n (a_set a) /\ modes_are (def s) n a /\
     ((forall v, gives kw n v -> as_dict h v <> None) -> exists o c kk z, aget n (a_dict a) = Some (VObj o) /\ nth_error h' o = Some (ORes c kk z) /\ aget n (a_memory a) = Some kk)) /\
  (forall s, ~ declared (classes k) LOG s) /\ NoDup (all_names (classes k)).
Lemma make_ok : forall k kw w w' r, good_class (w_heap w) (classes k) -> good_args def (w_heap w) (classes k) kw -> closed (w_heap w) -> make k kw w = (w', r) ->
  (exists t, w_heap w' = w_heap w ++ t) /\ closed (w_heap w') /\
  match r with
  | Err _ => w_actors w' = w_actors w
  | Ok i => i = length (w_actors w) /\ exists a, w_actors w' = w_actors w ++ [a] /\ made k kw (w_heap w) (w_heap w') a
  end /\
  ((forall n v, gives kw n v -> exists s, declared (classes k) n s /\ s_no_init (def s) = false /\ takes (def s) (w_heap w) v) ->
   (forall n s, declared (classes k) n s -> (forall v, ~ gives kw n v) -> lacks (def s) \/ has_a_default (def s) (w_heap w)) ->
   (forall s, ~ declared (classes k) LOG s) -> NoDup (all_names (classes k)) -> ~ twice (classes k) ->
   (forall n s, declared (classes k) n s -> s_no_init (def s) = false -> ~ In n [SELF; NAME; DEBUG_LOG; DEBUG_LOG_TIME]) ->
   match r with Err e => e = UpstageErr /\ exists n s, declared (classes k) n s /\ (forall v, ~ gives kw n v) /\ lacks (def s)
              | Ok _ => forall n s, declared (classes k) n s -> (forall v, ~ gives kw n v) -> ~ lacks (def s) end).
Proof.
  intros k kw w w' r [PR [US WD]] [ND VO] CL M. unfold MakeModel.make in M. destruct (init_subclass def (classes k)) as [defs|e] eqn:IS.
  2: { inversion M; subst. split; [exists []; rewrite app_nil_r; reflexivity|]. split; [exact CL|]. split; [reflexivity|]. intros _ _ _ _ NT NR. exfalso.
       destruct (proj1 (init_subclass_err (classes k) PR) (ex_intro _ e IS)) as [H|[n [s [D [NI I]]]]]; [contradiction|]. apply (NR n s D NI I). }
  destruct (init_subclass_ok _ _ IS) as [DE [DN _]].
  assert (DG : forall n s, aget n defs = Some s <-> declared (classes k) n s).
  { intros n s. rewrite <- declared_in, <- DE. split; [apply aget_in|apply aget_nodup; exact DN]. }
  assert (FRESH : forall n, aget n (a_dict (blank k)) = None /\ ~ In n (a_set (blank k))) by (intro n; split; [reflexivity|intros []]).
  destruct (init_states (classes k) defs (state_kwargs kw) (mkSt (w_heap w) (w_draws w) (blank k))) as [x r0] eqn:IN.
  set (x0 := mkSt (w_heap w) (w_draws w) (blank k)) in *. unfold MakeModel.init_states in IN.
  destruct (set_given (classes k) defs (state_kwargs kw) x0) as [x1 r1] eqn:G.
  assert (I0 : inv (w_heap w) x0) by (split; cbn; discriminate).
  assert (SN : NoDup (map fst (state_kwargs kw))) by (apply filter_nodup; exact ND).
  destruct (given_ok (classes k) defs (w_heap w) (state_kwargs kw) x0 x1 r1) as [[[t1 T1] _] [C1 [OK1 R1]]]; auto.
  { intros n s D. apply US. apply DG. exact D. } { intros n s D. apply (WD n s). apply DG. exact D. } { exists []. rewrite app_nil_r. reflexivity. }
  { intros n v I. apply state_kwargs_in in I. destruct (VO n v (proj1 I)) as [V O]. destruct (FRESH n) as [F1 F2]. split; [exact F1|]. split; [exact F2|]. split; [exact V|]. intros s D. apply O. apply DG. exact D. }
  cbn [heap x0] in T1.
  assert (OK1' : r1 = None <-> forall n v, gives kw n v -> exists s, declared (classes k) n s /\ s_no_init (def s) = false /\ takes (def s) (w_heap w) v).
  { rewrite OK1. split; intros H n v I.
    - apply state_kwargs_in in I. destruct (H n v I) as [s [A B]]. exists s. split; [apply DG; exact A|exact B].
    - apply state_kwargs_in in I. destruct (H n v I) as [s [A B]]. exists s. split; [apply DG; exact A|exact B]. }
  destruct r1 as [e|].
  { inversion IN; subst x r0. inversion M; subst. cbn [w_heap w_actors]. split; [exists t1; exact T1|]. split; [exact C1|]. split; [reflexivity|]. intro H. apply OK1' in H. discriminate. }
  destruct (R1 eq_refl) as [I1 [Q1 [Q2 [Q3 Q4]]]].
  destruct (set_defaults defs (order (unseen defs (state_kwargs kw))) x1) as [x2 r2] eqn:DF.
  assert (UI : forall n, In n (order (unseen defs (state_kwargs kw))) <-> (exists s, declared (classes k) n s) /\ forall v, ~ gives kw n v).
  { intro n. assert (P := order_perm (unseen defs (state_kwargs kw))). split.
    - intro H. apply (Permutation_in _ P) in H. apply unseen_in in H. destruct H as [A B]. apply in_map_iff in A. destruct A as [[n' s] [E A]]. cbn in E. subst n'. split.
      + exists s. apply DG. apply aget_nodup; assumption.
      + intros v I. apply state_kwargs_in in I. apply B. apply in_map_iff. exists (n, v). auto.
    - intros [[s D] H]. apply (Permutation_in _ (Permutation_sym P)). apply unseen_in. split.
      + apply in_map_iff. exists (n, s). split; [reflexivity|]. apply aget_in. apply DG. exact D.
      + intro I. apply in_map_iff in I. destruct I as [[n' v] [E I]]. cbn in E. subst n'. apply state_kwargs_in in I. apply (H v I). }
  assert (UN : NoDup (order (unseen defs (state_kwargs kw)))).
  { apply (Permutation_NoDup (Permutation_sym (order_perm _))). unfold unseen. apply NoDup_filter. exact DN. }
  destruct (defaults_ok (w_heap w) defs (order (unseen defs (state_kwargs kw))) x1 x2 r2) as [[[t2 T2] _] [C2 [OK2 R2]]]; auto.
  { intros n s D. apply (WD n s). apply DG. exact D. } { exists t1. exact T1. }
  { intros n H. apply UI in H. destruct H as [_ H]. assert (NI : ~ In n (map fst (state_kwargs kw))) by (intro I; apply in_map_iff in I; destruct I as [[n' v] [E I]]; cbn in E; subst n'; apply state_kwargs_in in I; apply (H v I)).
    destruct (proj1 (Q3 n) NI) as [Z1 [_ Z3]]. rewrite Z1. split; [reflexivity|]. intro J. apply Z3 in J. exact J. }
  assert (HG : exists t, heap x2 = w_heap w ++ t) by (exists (t1 ++ t2); rewrite T2, T1, app_assoc; reflexivity).
  assert (MS : missing def defs (state_kwargs kw) = false <-> forall n s, declared (classes k) n s -> (forall v, ~ gives kw n v) -> has_default (def s) = true).
  { rewrite missing_false. split.
    - intros H n s D NG. apply (H n s); [|apply DG; exact D]. apply (Permutation_in _ (order_perm _)). apply UI. split; [exists s; exact D|exact NG].
    - intros H n s I D. apply (Permutation_in _ (Permutation_sym (order_perm _))) in I. apply UI in I. apply (H n s); [apply DG; exact D|apply I]. }
  assert (LG : amem LOG defs = false <-> forall s, ~ declared (classes k) LOG s).
  { rewrite amem_false. split.
    - intros H s D. apply H. apply DG in D. apply in_map_iff. exists (LOG, s). split; [reflexivity|]. apply aget_in. exact D.
    - intros H I. apply in_map_iff in I. destruct I as [[n s] [E I]]. cbn in E. subst n. apply (H s). apply DG. apply aget_nodup; assumption. }
  assert (RP : repeated (recording_names def defs) = false <-> NoDup (all_names (classes k))) by (rewrite repeated_false; unfold recording_names, MakeSpec.all_names; rewrite <- DE; reflexivity).
  assert (OK2' : (forall n s, declared (classes k) n s -> (forall v, ~ gives kw n v) -> lacks (def s) \/ has_a_default (def s) (w_heap w)) -> r2 = None).
  { intro H. apply OK2. intros n s I D HD. apply UI in I. apply DG in D. destruct (H n s D (proj2 I)) as [L|L]; [apply lacks_has in L; congruence|exact L]. }
  assert (ERR : forall e, (x, r0) = (x2, Some e) -> (exists t, w_heap w' = w_heap w ++ t) /\ closed (w_heap w') /\ r = Err e /\ w_actors w' = w_actors w).
  { intros e E. inversion E; subst x r0. inversion M; subst. cbn [w_heap w_actors]. auto. }
  destruct r2 as [e|].
  { destruct (ERR e (eq_sym IN)) as [E1 [E2 [-> E3]]]. split; [exact E1|]. split; [exact E2|]. split; [exact E3|]. intros _ H. apply OK2' in H. discriminate. }
  destruct (missing def defs (state_kwargs kw)) eqn:MI.
  { destruct (ERR UpstageErr (eq_sym IN)) as [E1 [E2 [-> E3]]]. split; [exact E1|]. split; [exact E2|]. split; [exact E3|]. intros _ H _ _ _ _. split; [reflexivity|].
    unfold missing in MI. apply existsb_exists in MI. destruct MI as [n [I X]]. destruct (aget n defs) as [s|] eqn:D; [|discriminate]. exists n, s. apply (Permutation_in _ (Permutation_sym (order_perm _))) in I. apply UI in I. apply DG in D. split; [exact D|]. split; [apply I|].
    destruct (H n s D (proj2 I)) as [L|L]; [exact L|]. apply has_a_has in L. rewrite L in X. discriminate. }
  destruct (amem LOG defs) eqn:LO.
  { destruct (ERR UpstageErr (eq_sym IN)) as [E1 [E2 [-> E3]]]. split; [exact E1|]. split; [exact E2|]. split; [exact E3|]. intros _ _ NL. apply LG in NL. discriminate. }
  destruct (repeated (recording_names def defs)) eqn:RE.
  { destruct (ERR SimulationErr (eq_sym IN)) as [E1 [E2 [-> E3]]]. split; [exact E1|]. split; [exact E2|]. split; [exact E3|]. intros _ _ _ NN. apply RP in NN. discriminate. }
  clear ERR. inversion IN; subst x r0. inversion M; subst w' r. cbn [w_heap w_actors]. split; [exact HG|]. split; [exact C2|].
  assert (HM := proj1 MS eq_refl).
  split; [|intros _ _ _ _ _ _ n s D NG L; apply lacks_has in L; rewrite (HM n s D NG) in L; discriminate].
  split; [reflexivity|]. exists (me x2). split; [reflexivity|]. destruct (R2 eq_refl) as [J1 [J2 [J3 [J4 J5]]]].
  assert (GV : forall n v, gives kw n v -> ~ In n (order (unseen defs (state_kwargs kw)))) by (intros n v I H; apply UI in H; apply (proj2 H v I)).
  assert (DC : forall n s, declared (classes k) n s -> (exists v, gives kw n v) \/ (forall v, ~ gives kw n v)).
  { intros n s D. destruct (aget n (state_kwargs kw)) as [v|] eqn:E; [left; exists v; apply state_kwargs_in; apply aget_in; exact E|]. right. intros v I. apply state_kwargs_in in I. apply aget_none in E. apply E. apply in_map_iff. exists (n, v). auto. }
  assert (ONE : forall n v v', gives kw n v -> gives kw n v' -> v = v').
  { intros n v v' A B. apply state_kwargs_in in A, B. apply (aget_nodup _ _ _ _ SN) in A. apply (aget_nodup _ _ _ _ SN) in B. congruence. }
  split; [rewrite J2, Q1; reflexivity|]. split; [rewrite J3, Q2; reflexivity|].
  assert (GIVEN : forall n v, gives kw n v -> exists s v', declared (classes k) n s /\ aget n (a_dict (me x2)) = Some v' /\ becomes (def s) (w_heap w) v (heap x2) v' /\ held (def s) (heap x2) v' /\ valid (heap x2) v' /\
    (is_resource (def s) -> In n (a_set (me x2)) /\ modes_are (def s) n (me x2) /\ (as_dict (w_heap w) v <> None -> exists o c kk z, v' = VObj o /\ nth_error (heap x2) o = Some (ORes c kk z) /\ aget n (a_memory (me x2)) = Some kk))).
  { intros n v I. assert (NU := GV n v I). destruct (Q4 n v (proj2 (state_kwargs_in kw n v) I)) as [s [v' [A1 [A2 [A3 [A4 A5]]]]]]. exists s, v'. destruct (proj1 (J4 n) NU) as [Z1 Z2].
    assert (VV : valid (heap x1) v') by (apply (proj1 I1 n); exact A2).
    split; [apply DG; exact A1|]. split; [congruence|]. split; [rewrite T2; apply becomes_app2; exact A3|]. split; [rewrite T2; apply held_app; assumption|]. split; [rewrite T2; apply valid_app; exact VV|].
    unfold keepsake in Z2. injection Z2 as Z2 ZM. intro RS. destruct (A5 RS) as [K1 [KM K2]]. split; [apply (J4 n); exact K1|]. split; [unfold modes_are in *; rewrite ZM; exact KM|]. intro AD. destruct (K2 AD) as [o [c [kk [z [E1 [E2 E3]]]]]]. exists o, c, kk, z. split; [exact E1|]. split; [rewrite T2; apply nth_app; exact E2|congruence]. }
  assert (DFLT : forall n s, declared (classes k) n s -> (forall v, ~ gives kw n v) -> default_is (def s) (w_heap w) (heap x2) (aget n (a_dict (me x2))) /\ kept (def s) n x2 /\ forall v, aget n (a_dict (me x2)) = Some v -> held (def s) (heap x2) v).
  { intros n s D NG. apply J5; [apply UI; split; [exists s; exact D|exact NG]|apply DG; exact D|apply (HM n s D NG)]. }
  split; [|split; [|split; [|split; [|split; [|split]]]]].
  - intros n v I. destruct (GIVEN n v I) as [s [v' [A1 [A2 [A3 _]]]]]. destruct (proj1 OK1' eq_refl n v I) as [s' [B1 [B2 B3]]]. assert (s' = s) by (apply DG in A1; apply DG in B1; congruence). subst s'. exists s, v'. auto.
  - intros n s D NG. apply (DFLT n s D NG).
  - intros n v E. destruct (in_dec Nat.eq_dec n (map fst defs)) as [I|I].
    + apply in_map_iff in I. destruct I as [[n' s] [E' I]]. cbn in E'. subst n'. apply (aget_nodup _ _ _ _ DN) in I. apply DG in I. exists s. split; [exact I|]. split; [|apply (proj1 J1 n); exact E].
      destruct (DC n s I) as [[u U]|NG]; [|apply (DFLT n s I NG); exact E]. destruct (GIVEN n u U) as [s' [v' [A1 [A2 [_ [A4 _]]]]]]. assert (s' = s) by (apply DG in A1; apply DG in I; congruence). subst s'. assert (v' = v) by congruence. subst v'. exact A4.
    + exfalso. assert (NU : ~ In n (order (unseen defs (state_kwargs kw)))) by (intro H; apply UI in H; destruct H as [[s D] _]; apply I; apply in_map_iff; exists (n, s); split; [reflexivity|]; apply aget_in; apply DG; exact D).
      destruct (proj1 (J4 n) NU) as [Z1 _]. assert (NK : ~ In n (map fst (state_kwargs kw))).
      { intro H. apply in_map_iff in H. destruct H as [[n' v'] [E' H]]. cbn in E'. subst n'. apply state_kwargs_in in H. destruct (GIVEN n v' H) as [s [? [D _]]]. apply I. apply in_map_iff. exists (n, s). split; [reflexivity|]. apply aget_in. apply DG. exact D. }
      destruct (proj1 (Q3 n) NK) as [Z2 _]. rewrite Z1, Z2 in E. discriminate.
  - intros n m o NE H1 H2. apply (proj2 J1 n m o NE H1 H2).
  - intros n s D RS. destruct (DC n s D) as [[u U]|NG].
    + destruct (GIVEN n u U) as [s' [v' [A1 [A2 [_ [_ [_ A6]]]]]]]. assert (s' = s) by (apply DG in A1; apply DG in D; congruence). subst s'. destruct (A6 RS) as [K1 [KM K2]]. split; [exact K1|]. split; [exact KM|]. intro H. destruct (K2 (H u U)) as [o [c [kk [z [E1 [E2 E3]]]]]]. exists o, c, kk, z. split; [congruence|auto].
    + destruct (DFLT n s D NG) as [_ [K _]]. destruct (K RS) as [K1 [KM K2]]. split; [exact K1|]. split; [exact KM|]. intros _. exact K2.
  - apply LG. reflexivity.
  - apply RP. reflexivity.
Qed.
(** ** Cloning *)
Notation clone := (clone sub NONE TYPE STR LIST DICT resource_class accepts initial produce def order classes).
Notation clonable := (clonable sub NONE TYPE STR LIST DICT resource_class def).
Lemma copied_app1 : forall d n a h t v h' v', valid h v -> copied d n a (h ++ t) v h' v' -> copied d n a h v h' v'.
Proof.
  intros d n a h t v h' v' V H. unfold copied in *. destruct v; auto. destruct H as [o' [b [A [B [C D]]]]]. exists o', b. rewrite app_length in B. cbn in V. rewrite nth_error_app1 in C by exact V. split; [exact A|]. split; [lia|]. auto.
Qed.
Lemma copied_app2 : forall d n a h t v h' v', copied d n a h v h' v' -> copied d n a h v (h' ++ t) v'.
Proof.
  intros d n a h t v h' v' H. unfold copied in *. destruct v; auto. destruct H as [o' [b [A [B [C D]]]]]. exists o', b. split; [exact A|]. split; [exact B|]. split; [exact C|].
  destruct (s_kind d); try (apply nth_app; exact D); destruct D as [c [kk [z [kw [D1 [D2 D3]]]]]]; exists c, kk, z, kw; (split; [exact D1|]); (split; [exact D2|]); apply nth_app; exact D3.
Qed.
Lemma clone_state_ok : forall a n s h v, aget n (a_dict a) = Some v -> valid h v -> closed h ->
  (is_resource (def s) -> exists o k kk z kw, v = VObj o /\ nth_error h o = Some (ORes k kk z) /\ aget n (a_memory a) = Some kw) ->
  exists t v', clone_state def a n s h = Ok (h ++ t, v') /\ copied (def s) n a h v (h ++ t) v' /\ closed (h ++ t) /\ valid (h ++ t) v'.
Proof.
  intros a n s h v E V C R. unfold clone_state. rewrite E.
  assert (RES : is_resource (def s) -> exists t v', match v with
          | VObj o => match nth_error h o with Some (ORes c _ z) => match aget n (a_memory a) with None => Err KeyErr | Some kw => Ok (h ++ [ORes c kw z], VObj (length h)) end | _ => Err UpstageErr end
          | _ => Err UpstageErr end = Ok (h ++ t, v') /\ copied (def s) n a h v (h ++ t) v' /\ closed (h ++ t) /\ valid (h ++ t) v').
  { intro RS. destruct (R RS) as [o [k [kk [z [kw [-> [N M]]]]]]]. rewrite N, M. exists [ORes k kw z], (VObj (length h)). split; [reflexivity|]. split; [|split; [apply closed_res; exact C|cbn; rewrite app_length; cbn; lia]].
    unfold copied. exists (length h), (ORes k kk z). split; [reflexivity|]. split; [lia|]. split; [exact N|]. unfold is_resource in RS. destruct (s_kind (def s)); try contradiction; exists k, kk, z, kw; (split; [reflexivity|]); (split; [exact M|apply nth_new]). }
  assert (COPY : ~ is_resource (def s) -> exists t v', Ok (copy_obj v h) = Ok (h ++ t, v') /\ copied (def s) n a h v (h ++ t) v' /\ closed (h ++ t) /\ valid (h ++ t) v').
  { intro NR. unfold copy_obj. destruct v as [ |c|z|l|o]; try (exists []; eexists; rewrite app_nil_r; split; [reflexivity|]; split; [exact eq_refl|]; split; [exact C|exact V]).
    destruct (nth_error h o) as [b|] eqn:N; [|apply nth_error_Some in V; contradiction]. exists [b], (VObj (length h)). split; [reflexivity|]. split; [|split; [|cbn; rewrite app_length; cbn; lia]].
    - unfold copied. exists (length h), b. split; [reflexivity|]. split; [lia|]. split; [exact N|]. unfold is_resource in NR. destruct (s_kind (def s)); try (exfalso; apply NR; exact Logic.I); apply nth_new.
    - apply closed_app; [exact C|]. intros [|i] d H; cbn in H; [inversion H; subst b|destruct i; discriminate]. destruct (C o d N) as [C1 C2]. split; [exact C1|]. intros m w I. apply valid_app. apply (C2 m w I). }
  unfold is_resource in *. destruct (s_kind (def s)); auto.
Qed.
Lemma clone_states_ok : forall a defs h0 h, (exists t, h = h0 ++ t) -> closed h ->
  (forall n s, In (n, s) defs -> exists v, aget n (a_dict a) = Some v /\ valid h0 v /\ (is_resource (def s) -> exists o k kk z kw, v = VObj o /\ nth_error h0 o = Some (ORes k kk z) /\ aget n (a_memory a) = Some kw)) ->
  exists t l, clone_states def a defs h = Ok (h ++ t, l) /\ closed (h ++ t) /\ map fst l = map fst defs /\
    forall n w, In (n, w) l -> valid (h ++ t) w /\ exists s v, In (n, s) defs /\ aget n (a_dict a) = Some v /\ copied (def s) n a h0 v (h ++ t) w.
Proof.
  intros a defs h0. induction defs as [|[n s] defs IH]; intros h [t0 T0] C H; cbn [clone_states].
  - exists [], []. rewrite app_nil_r. split; [reflexivity|]. split; [exact C|]. split; [reflexivity|]. intros ? ? [].
  - destruct (H n s (or_introl eq_refl)) as [v [E [V R]]].
    assert (V1 : valid h v) by (rewrite T0; apply valid_app; exact V).
    assert (R1 : is_resource (def s) -> exists o k kk z kw, v = VObj o /\ nth_error h o = Some (ORes k kk z) /\ aget n (a_memory a) = Some kw).
    { intro RS. destruct (R RS) as [o [k [kk [z [kw [A [B D]]]]]]]. exists o, k, kk, z, kw. split; [exact A|]. split; [rewrite T0; apply nth_app; exact B|exact D]. }
    destruct (clone_state_ok a n s h v E V1 C R1) as [t1 [v' [A1 [A2 [A3 A4]]]]]. rewrite A1.
    destruct (IH (h ++ t1)) as [t2 [l [B1 [B2 [B3 B4]]]]]; [exists (t0 ++ t1); rewrite T0, app_assoc; reflexivity|exact A3|intros m s' I; apply (H m s'); right; exact I|].
    rewrite B1. exists (t1 ++ t2), ((n, v') :: l). rewrite app_assoc. split; [reflexivity|]. split; [exact B2|]. split; [cbn; rewrite B3; reflexivity|].
    intros m w [I|I].
    + inversion I; subst m w. split; [apply valid_app; exact A4|]. exists s, v. split; [left; reflexivity|]. split; [exact E|]. apply copied_app2. rewrite T0 in A2 at 1. apply copied_app1 in A2; assumption.
    + destruct (B4 m w I) as [B5 [s' [v1 [B6 B7]]]]. split; [exact B5|]. exists s', v1. split; [right; exact B6|exact B7].
Qed.
Lemma aset_names : forall A n (v : A) l m, In m (map fst (aset n v l)) <-> m = n \/ In m (map fst l).
Proof.
  intros A n v l m. induction l as [|[k w] l IH]; cbn [aset map fst In]; [split; intros [H|[]]; left; congruence|]. destruct (Nat.eqb_spec n k) as [->|E]; cbn [map fst In].
  - split; intros [H|H]; auto.
  - rewrite IH. split; [intros [H|[H|H]]; auto|intros [H|[H|H]]; auto].
Qed.
Lemma aset_nodup : forall A n (v : A) l, NoDup (map fst l) -> NoDup (map fst (aset n v l)).
Proof.
  intros A n v l. induction l as [|[k w] l IH]; intro N; [repeat constructor; intros []|]. cbn [map fst] in N. inversion N as [|? ? N1 N2]; subst. cbn [aset]. destruct (Nat.eqb_spec n k) as [->|E]; cbn [map fst]; [constructor; assumption|].
  constructor; [|auto]. intro H. apply aset_names in H. destruct H as [H|H]; [congruence|contradiction].
Qed.
Lemma aupdate_nodup : forall A (e d : list (name * A)), NoDup (map fst d) -> NoDup (map fst (aupdate d e)).
Proof. intros A e. induction e as [|[n v] e IH]; intros d N; [exact N|]. cbn [aupdate]. apply IH. apply aset_nodup. exact N. Qed.
Lemma attrs_ok : forall own given acc, (forall n m, In (n, m) own -> In n (map fst given) -> exists s, m = MState s) -> (forall n s, In (n, MState s) own -> In n (map fst given)) -> (forall n, ~ In (n, MProperty false) own) ->
  set_class_attrs own given acc = Ok (acc ++ filter (fun e => match snd e with MClassMethod => true | MValue (VClass _) => false | MValue _ => true | _ => false end) own).
Proof.
  intros own given. induction own as [|[n m] own IH]; intros acc A B D; [cbn; rewrite app_nil_r; reflexivity|]. cbn [set_class_attrs].
  assert (IH' : forall acc, set_class_attrs own given acc = Ok (acc ++ filter (fun e => match snd e with MClassMethod => true | MValue (VClass _) => false | MValue _ => true | _ => false end) own)) by (intro acc'; apply IH; [intros p q I; apply A; right; exact I|intros p q I; apply (B p q); right; exact I|intros p I; apply (D p); right; exact I]).
  destruct (amem n given) eqn:G.
  - apply amem_true in G. destruct (A n m (or_introl eq_refl) G) as [s ->]. cbn [filter snd]. apply IH'.
  - apply amem_false in G. destruct m as [s| |b| |v| ]; cbn [filter snd]; try apply IH'.
    + exfalso. apply G. apply (B n s). left. reflexivity.
    + destruct b; [apply IH'|]. exfalso. apply (D n). left. reflexivity.
    + rewrite IH', <- app_assoc. reflexivity.
    + destruct v; try apply IH'; rewrite IH', <- app_assoc; reflexivity.
Qed.
Lemma setn_last : forall A (l : list A) v b, setn (length l) v (l ++ [b]) = l ++ [v].
Proof. intros A l v b. unfold setn. rewrite firstn_app, Nat.sub_diag, firstn_all, skipn_app, Nat.sub_diag, skipn_all. cbn. rewrite app_nil_r. reflexivity. Qed.
(** A copy is taken, and becomes a copy. *)
Lemma copy_takes : forall d n a h v t w, valid h v -> closed h -> held d h v -> (is_resource d -> modes_are d n a /\ exists o k kk z kw, v = VObj o /\ nth_error h o = Some (ORes k kk z) /\ aget n (a_memory a) = Some kw) ->
  copied d n a h v (h ++ t) w -> takes d (h ++ t) w /\ ordinary d (h ++ t) w /\
  forall t' v', becomes d (h ++ t) w (h ++ t ++ t') v' -> copied d n a h v (h ++ t ++ t') v'.
Proof.
  intros d n a h v t w V C H R CP. unfold MakeSpec.held, MakeSpec.takes, is_resource, modes_are, MakeSpec.becomes, ordinary, MakeSpec.resource_of in *.
  assert (SAME : (match s_kind d with Resource | Comms _ => False | _ => True end) -> type_of (h ++ t) w = type_of h v /\ as_dict (h ++ t) w = as_dict h v).
  { intro NR. unfold copied in CP. destruct v as [ |c|z|l|o]; try (subst w; split; reflexivity). destruct CP as [o' [b [-> [_ [B1 B2]]]]]. cbn [MakeModel.type_of as_dict]. rewrite B1. destruct (s_kind d); try contradiction; rewrite B2; auto. }
  assert (RES : (match s_kind d with Resource | Comms _ => True | _ => False end) -> type_of (h ++ t) w = type_of h v /\ as_dict (h ++ t) w = None).
  { intro RS. destruct (R RS) as [_ [o [k [kk [z [kw [-> [N M]]]]]]]]. unfold copied in CP. destruct CP as [o' [b [-> [_ [B1 B2]]]]]. cbn [MakeModel.type_of as_dict]. rewrite N. destruct (s_kind d); try contradiction; destruct B2 as [c [kk' [z' [kw' [B2 [B3 B4]]]]]]; rewrite B4; (split; [congruence|reflexivity]). }
  assert (DICTS : forall kv, (match s_kind d with Dict | Multi => True | _ => False end) -> as_dict h v = Some kv -> as_dict (h ++ t) w = Some kv /\
     forall t' o, (length (h ++ t) <= o)%nat -> nth_error (h ++ t ++ t') o = Some (ODict kv) -> copied d n a h v (h ++ t ++ t') (VObj o)).
  { intros kv DK D. split; [destruct SAME as [_ SA]; [destruct (s_kind d); try contradiction; exact Logic.I|]; rewrite SA; exact D|]. intros t' o L N. unfold copied. destruct v as [ |c|z|l|o0]; try discriminate. cbn in D.
    destruct (nth_error h o0) as [[c kk z|d0|c z]|] eqn:N0; try discriminate. inversion D; subst d0. exists o, (ODict kv). split; [reflexivity|]. split; [rewrite app_length in L; lia|]. split; [reflexivity|]. destruct (s_kind d); try contradiction; exact N. }
  assert (FIT : type_of (h ++ t) w = type_of h v -> fits h (s_types d) v -> fits (h ++ t) (s_types d) w) by (intros E F; unfold MakeSpec.fits in *; rewrite E; exact F).
  assert (MORE : forall t', copied d n a h v (h ++ t ++ t') w) by (intro t'; rewrite app_assoc; apply copied_app2; exact CP).
  destruct (s_kind d) as [ |  | m | | | ] eqn:K.
  - destruct (SAME Logic.I) as [S1 S2]. split; [apply FIT; assumption|]. split; [split; discriminate|]. intros t' v' ->. apply MORE.
  - destruct (RES Logic.I) as [S1 S2]. rewrite S2. split; [split; [rewrite S1; exact H|exact Logic.I]|]. split; [split; discriminate|]. intros t' v' ->. apply MORE.
  - destruct (RES Logic.I) as [S1 S2]. rewrite S2. destruct (R Logic.I) as [RM _]. split; [split; [rewrite S1; exact H|destruct m; auto]|]. split; [split; discriminate|]. intros t' v' ->. apply MORE.
  - destruct H as [kv [D H]]. destruct (DICTS kv Logic.I D) as [D1 D2]. destruct (closed_dict _ _ _ C D) as [_ VV]. split; [exists kv; split; [exact D1|]; intros k x I; apply fits_app; [apply (VV k x I)|apply (H k x I)]|]. split; [split; discriminate|].
    intros t' v' [o [kv' [-> [L [E N]]]]]. assert (kv' = kv) by congruence. subst kv'. apply D2; assumption.
  - destruct (SAME Logic.I) as [S1 S2]. split; [apply FIT; assumption|]. split; [split; discriminate|]. intros t' v' ->. apply MORE.
  - destruct H as [kv [D H]]. destruct (DICTS kv Logic.I D) as [D1 D2]. destruct (closed_dict _ _ _ C D) as [_ VV]. unfold items. rewrite D1. split; [|split].
    + eexists. split; [reflexivity|]. intros k x I. apply in_map_iff in I. destruct I as [[k' x'] [E I]]. inversion E; subst k' x. destruct (H k x' I) as [H1 [H2 H3]]. split; [exact H1|]. rewrite as_dict_app by apply (VV k x' I). rewrite H2. apply fits_app; [apply (VV k x' I)|exact H3].
    + split; [discriminate|]. intros l _ E. subst w. discriminate.
    + intros t' v' [o [kv' [l [-> [L [-> [N F]]]]]]]. apply D2; [exact L|]. rewrite N. do 2 f_equal. clear N L D1 D2. symmetry.
      assert (X : forall e, In e kv -> as_dict (h ++ t) (snd e) = None) by (intros [k x] I; cbn [snd]; rewrite as_dict_app by apply (VV k x I); apply (H k x I)).
      clear D H VV. revert l F. induction kv as [|[k x] kv IHk]; intros l F; inversion F as [|? e' ? l' [F1 F2] F3]; subst; [reflexivity|]. f_equal; [|apply IHk; [intros e I; apply X; right; exact I|exact F3]].
      cbn [fst snd] in F1, F2. pose proof (X (k, x) (or_introl eq_refl)) as X1. cbn [snd] in X1. rewrite X1 in F2. destruct e'. cbn in *. congruence.
Qed.
Notation sound_class := (sound_class def).
Lemma clone_ok : forall i new w a, nth_error (w_actors w) i = Some a -> let c := classes (a_class a) in
  good_class (w_heap w) c -> sound_class c -> closed (w_heap w) -> clonable c (w_heap w) a -> good_args def (w_heap w) c new ->
  (forall n v, In (n, v) new -> exists s, declared c n s /\ takes (def s) (w_heap w) v) ->
  exists w' b, clone i new w = (w', Ok (length (w_actors w))) /\ w_actors w' = w_actors w ++ [b] /\ (exists t, w_heap w' = w_heap w ++ t) /\
    a_class b = a_class a /\ a_attrs b = attributes c /\
    (forall n v, aget n (a_dict b) = Some v -> exists s, declared c n s) /\
    forall n s, declared c n s ->
      (forall v, In (n, v) new -> exists v', aget n (a_dict b) = Some v' /\ becomes (def s) (w_heap w) v (w_heap w') v') /\
      (~ In n (map fst new) -> exists v v', aget n (a_dict a) = Some v /\ aget n (a_dict b) = Some v' /\ copied (def s) n a (w_heap w) v (w_heap w') v').
Proof.
  intros i new w a NA c GC SC CL CB [ND VO] NT. assert (GC' := GC). destruct GC as [PR [US WD]]. destruct SC as [TW [LOGS [NN PROP]]].
  destruct (init_subclass def c) as [defs|e] eqn:IS.
  2: { exfalso. destruct (proj1 (init_subclass_err c PR) (ex_intro _ e IS)) as [H|[n [s [D [NI I]]]]]; [contradiction|].
       destruct (CB n s D) as [_ [NP [NS _]]]. destruct I as [I|[I|[I|[I|[]]]]]; try (apply NP; unfold parameter; cbn; rewrite <- I; cbn; tauto). congruence. }
  destruct (init_subclass_ok _ _ IS) as [DE [DN _]].
  assert (DG : forall n s, aget n defs = Some s <-> declared c n s).
  { intros n s. rewrite <- declared_in, <- DE. split; [apply aget_in|apply aget_nodup; exact DN]. }
  assert (DI : forall n s, In (n, s) defs <-> declared c n s) by (intros n s; rewrite <- declared_in, <- DE; reflexivity).
  destruct (clone_states_ok a defs (w_heap w) (w_heap w)) as [t [l [CS [C1 [LN LW]]]]]; [exists []; rewrite app_nil_r; reflexivity|exact CL| |].
  { intros n s I. apply DI in I. destruct (CB n s I) as [_ [_ [_ [v [E [V [_ R]]]]]]]. exists v. split; [exact E|]. split; [exact V|]. intro RS. apply (R RS). }
  unfold MakeModel.clone. rewrite NA. fold c. rewrite IS, CS. cbn zeta. set (given := aupdate l new). set (w1 := mkWorld (w_heap w ++ t) (w_draws w) (w_actors w)).
  assert (LD : NoDup (map fst l)) by (rewrite LN; exact DN).
  assert (GA : forall n, aget n given = match aget n new with Some v => Some v | None => aget n l end) by (intro n; apply aget_aupdate_nodup; exact ND).
  assert (GND : NoDup (map fst given)) by (apply aupdate_nodup; exact LD).
  assert (GI : forall n v, In (n, v) given -> In (n, v) new \/ (~ In n (map fst new) /\ In (n, v) l)).
  { intros n v I. apply (aget_nodup _ _ _ _ GND) in I. rewrite GA in I. destruct (aget n new) as [u|] eqn:E; [left; inversion I; subst; apply aget_in; exact E|right]. split; [apply aget_none; exact E|apply aget_in; exact I]. }
  assert (GX : forall n v, In (n, v) new -> In (n, v) given) by (intros n v I; apply aget_in; rewrite GA, (aget_nodup _ _ _ _ ND I); reflexivity).
  assert (GY : forall n v, ~ In n (map fst new) -> In (n, v) l -> In (n, v) given) by (intros n v NI I; apply aget_in; rewrite GA; apply aget_none in NI; rewrite NI; apply aget_nodup; assumption).
  assert (CT : forall n w0, In (n, w0) l -> exists s v, declared c n s /\ aget n (a_dict a) = Some v /\ takes (def s) (w_heap w ++ t) w0 /\ ordinary (def s) (w_heap w ++ t) w0 /\
     forall t' v', becomes (def s) (w_heap w ++ t) w0 (w_heap w ++ t ++ t') v' -> copied (def s) n a (w_heap w) v (w_heap w ++ t ++ t') v').
  { intros n w0 I. destruct (LW n w0 I) as [V0 [s [v [I1 [E CP]]]]]. apply DI in I1. destruct (CB n s I1) as [_ [_ [_ [v0 [E0 [V [H R]]]]]]]. assert (v0 = v) by congruence. subst v0.
    destruct (copy_takes (def s) n a (w_heap w) v t w0 V CL H R CP) as [X1 [X2 X3]]. exists s, v. auto. }
  assert (GCL : good_class (w_heap w1) c).
  { split; [exact PR|]. split; [exact US|]. intros n s D. destruct (WD n s D) as [W1 W2]. split; [exact W1|]. cbn [w_heap w1]. apply valid_app. exact W2. }
  assert (UNI : forall n s s', declared c n s -> declared c n s' -> s' = s) by (intros n s s' A B; apply DG in A; apply DG in B; congruence).
  assert (GAR : good_args def (w_heap w1) c given).
  { split; [exact GND|]. intros n v I. cbn [w_heap w1]. destruct (GI n v I) as [J|[_ J]].
    - destruct (VO n v J) as [V O]. split; [apply valid_app; exact V|]. intros s D. apply ordinary_app; [exact V|apply (O s D)].
    - split; [apply (LW n v J)|]. intros s D. destruct (CT n v J) as [s' [v0 [D' [_ [_ [O _]]]]]]. rewrite <- (UNI n s s' D D'). exact O. }
  assert (NP : forall n s, declared c n s -> ~ parameter n) by (intros n s D; apply (CB n s D)).
  assert (GD : forall n v, In (n, v) given -> exists s, declared c n s).
  { intros n v I. destruct (GI n v I) as [J|[_ J]]; [destruct (NT n v J) as [s [D _]]; exists s; exact D|destruct (CT n v J) as [s [? [D _]]]; exists s; exact D]. }
  assert (ALL : forall n s, declared c n s -> exists v, gives given n v).
  { intros n s D. assert (I : In n (map fst l)) by (rewrite LN; apply in_map_iff; exists (n, s); split; [reflexivity|apply DI; exact D]). apply in_map_iff in I. destruct I as [[n' w0] [E I]]. cbn in E. subst n'.
    destruct (aget n new) as [u|] eqn:EN; [exists u; split; [apply GX; apply aget_in; exact EN|apply (NP n s D)]|]. exists w0. split; [|apply (NP n s D)]. apply GY; [apply aget_none; exact EN|exact I]. }
  destruct (make (a_class a) given w1) as [w2 r2] eqn:MK.
  destruct (make_ok (a_class a) given w1 w2 r2 GCL GAR C1 MK) as [[t2 T2] [C2 [RES OK]]]. cbn [w_heap w_actors w1] in *.
  assert (OKR : match r2 with Err e => e = UpstageErr /\ exists n s, declared c n s /\ (forall v, ~ gives given n v) /\ lacks (def s) | Ok _ => forall n s, declared c n s -> (forall v, ~ gives given n v) -> ~ lacks (def s) end).
  { apply OK; auto.
    - intros n v [I _]. destruct (GI n v I) as [J|[_ J]].
      + destruct (NT n v J) as [s [D TK]]. exists s. split; [exact D|]. split; [apply (CB n s D)|]. apply takes_app; [apply (VO n v J)|exact CL|exact TK].
      + destruct (CT n v J) as [s [v0 [D [_ [TK _]]]]]. exists s. split; [exact D|]. split; [apply (CB n s D)|exact TK].
    - intros n s D NG. exfalso. destruct (ALL n s D) as [v G]. apply (NG v G).
    - intros n s D _ I. destruct (CB n s D) as [_ [NPR [NS _]]]. destruct I as [I|[I|[I|[I|[]]]]]; try (apply NPR; unfold parameter; cbn; rewrite <- I; cbn; tauto). congruence. }
  destruct r2 as [j|e]; [|exfalso; destruct OKR as [_ [n [s [D [NG _]]]]]; destruct (ALL n s D) as [v G]; apply (NG v G)].
  destruct RES as [-> [b [WA [M1 [M2 [M3 [M4 [M5 _]]]]]]]].
  rewrite (attrs_ok (hd [] c) given []).
  - cbn [app]. rewrite WA, nth_error_app2, Nat.sub_diag by lia. cbn [nth_error]. rewrite setn_last.
    eexists; eexists. split; [reflexivity|]. cbn [w_actors w_heap]. split; [reflexivity|]. split; [exists (t ++ t2); rewrite T2, app_assoc; reflexivity|]. cbn [a_class a_attrs a_dict]. split; [exact M1|]. split; [reflexivity|].
    split; [intros n v E; destruct (M5 n v E) as [s [D _]]; exists s; exact D|]. intros n s D. split.
    + intros v I. destruct (M3 n v) as [s' [v' [D' [_ [_ [E B]]]]]]; [split; [apply GX; exact I|apply (NP n s D)]|]. fold c in D'. rewrite (UNI n s s' D D') in B. exists v'. split; [exact E|]. apply (becomes_app1 _ _ t); [apply (VO n v I)|exact CL|exact B].
    + intro NI. destruct (ALL n s D) as [w0 G]. destruct (GI n w0 (proj1 G)) as [J|[_ J]]; [exfalso; apply NI; apply in_map_iff; exists (n, w0); auto|].
      destruct (CT n w0 J) as [s' [v [D' [E [_ [_ CP]]]]]]. destruct (M3 n w0 G) as [s2 [v' [D2 [_ [_ [E' B]]]]]]. fold c in D2. assert (s' = s) by (apply (UNI n s s' D D')). assert (s2 = s) by (apply (UNI n s s2 D D2)). subst s' s2.
      exists v, v'. split; [exact E|]. split; [exact E'|]. rewrite T2 in *. rewrite <- app_assoc in *. apply CP. exact B.
  - intros n m I IG. apply in_map_iff in IG. destruct IG as [[n' v] [E IG]]. cbn in E. subst n'. destruct (GD n v IG) as [s D]. exists s. pose proof (US n s D) as LK. destruct c as [|d0 c0] eqn:EC; [contradiction|]. cbn [hd lookup] in *.
    assert (X : aget n d0 = Some m) by (apply aget_nodup; [apply PR; left; reflexivity|exact I]). rewrite X in LK. congruence.
  - intros n s I. assert (D : declared c n s) by (destruct c as [|d0 c0]; [contradiction|]; exists d0; split; [left; reflexivity|exact I]). destruct (ALL n s D) as [v [G _]]. apply in_map_iff. exists (n, v). auto.
  - exact PROP.
Qed.
End Sets.
