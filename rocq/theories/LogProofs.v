From Coq Require Import String Sorted.
From Verif Require Import Common StateModel StateProofs KnowledgeModel KnowledgeSpec KnowledgeProofs NetModel UnitsModel LogModel LogSpec.
Open Scope string_scope.
Open Scope list_scope.

Lemma pretty_works now tu daily : (forall q, daily = Some q -> ~ q == 0) -> pretty_now now tu daily <> PFails.
Proof.
  intro Hd. unfold pretty_now. set (u := match tu with None => "hr" | Some u => u end).
  destruct (existsb (String.eqb (match lookup TIME_ALTERNATES (lower u) with Some x => x | None => u end)) STANDARD_TIMES) eqn:E.
  - assert (N : normal u = "s" \/ normal u = "min" \/ normal u = "hr").
    { unfold normal. destruct (lookup TIME_ALTERNATES (lower u)) as [x|] eqn:L.
      - cbn [existsb STANDARD_TIMES] in E. rewrite !Bool.orb_true_iff in E.
        destruct E as [E|[E|[E|E]]]; [apply String.eqb_eq in E; auto ..|discriminate].
      - cbn [existsb STANDARD_TIMES] in E. rewrite !Bool.orb_true_iff in E.
        destruct E as [E|[E|[E|E]]]; [apply String.eqb_eq in E; rewrite E; auto ..|discriminate]. }
    assert (U : exists q, unit_convert now u "hr" = Some q).
    { unfold unit_convert. destruct N as [N|[N|N]]; rewrite N; eexists; reflexivity. }
    destruct U as [q U]. rewrite U. discriminate.
  - destruct daily as [n|]; [|discriminate]. destruct (Qeqb n 0) eqn:Z; [|discriminate].
    exfalso. apply (Hd n eq_refl). apply Qeqb_eq. exact Z.
Qed.

Section P.
Variable V : Type.
Implicit Types (s : lst V) (ms : list (lmsg V)).

Lemma lst_eta s : mkLs (l_now s) (l_kn s) (l_net s) (l_log s) = s.
Proof. destruct s; reflexivity. Qed.

Lemma log_ok c m s : has_days c -> log c m s = Some (with_log s (l_log s ++ lines c (l_now s) [m])).
Proof.
  intro H. unfold log, lines, stamps. destruct (c_on c).
  - destruct (c_time c) as [[]|]; [| |destruct (c_stage c) as [[]|]]; cbn [map]; try reflexivity;
      pose proof (pretty_works (l_now s) (c_unit c) (c_daily c) H) as P;
      destruct (pretty_now (l_now s) (c_unit c) (c_daily c)); try reflexivity; contradiction.
  - unfold with_log. rewrite app_nil_r, lst_eta. reflexivity.
Qed.
Lemma lines_app c t (a b : list (lmsg V)) : lines c t (a ++ b) = lines c t a ++ lines c t b.
Proof. unfold lines. destruct (c_on c); [apply map_app|reflexivity]. Qed.

Lemma who_direct meth st caller : who meth st caller = or_else caller (calling st).
Proof.
  destruct caller as [n|]; [reflexivity|]. unfold who, get_caller_info, calling. cbn [or_else plus nth_error].
  destruct st as [|f st]; [reflexivity|]. destruct (String.eqb (f_name f) "task") eqn:E; [|reflexivity].
  apply String.eqb_eq in E. rewrite E. reflexivity.
Qed.

(** A state with more said and other knowledge. *)
Definition after c s (d : list (key * kval V)) ms : lst V :=
  mkLs (l_now s) (with_dict (l_kn s) d) (l_net s) (l_log s ++ lines c (l_now s) ms).
Definition dn (b : bool) : done := if b then Fine else Refused.

Lemma l_set_ok c st caller s n v ow : has_days c ->
  l_set c st caller s n v ow =
  let '(d, ok) := set_know (n_dict (l_kn s)) n v ow in
  (after c s d [MSet n v (or_else caller (calling st))], dn ok).
Proof.
  intro H. unfold l_set. rewrite (log_ok c _ s H), who_direct. cbn [with_log l_kn].
  destruct (set_know (n_dict (l_kn s)) n v ow) as [d ok]. reflexivity.
Qed.
Lemma l_clear_ok c st caller s n : has_days c ->
  l_clear c st caller s n =
  let '(d, ok) := clear_know (n_dict (l_kn s)) n in
  (after c s d [MClear n (or_else caller (calling st))], dn ok).
Proof.
  intro H. unfold l_clear. rewrite (log_ok c _ s H), who_direct. cbn [with_log l_kn].
  destruct (clear_know (n_dict (l_kn s)) n) as [d ok]. reflexivity.
Qed.

Lemma after_after c s d d' ms ms' : after c (after c s d ms) d' ms' = after c s d' (ms ++ ms').
Proof.
  unfold after. cbn [l_now l_kn l_net l_log with_dict n_dict n_events n_rehearsing].
  rewrite lines_app, app_assoc. reflexivity.
Qed.
Lemma after_none c s : after c s (n_dict (l_kn s)) [] = s.
Proof.
  unfold after, lines. destruct (c_on c); cbn [map]; rewrite app_nil_r; unfold with_dict; destruct s as [t [d e r] a l]; reflexivity.
Qed.

(** ** Names in bulk *)
Lemma told_app n : forall (a b : list (lmsg V)) x, told n x (a ++ b) = told n (told n x a) b.
Proof. induction a as [|m a IH]; intros b x; [reflexivity|]. destruct m; cbn [app told]; apply IH. Qed.

Definition from_log (d d' : list (key * kval V)) ms : Prop :=
  forall n v, kget n d' = Some v -> kget n d = Some v \/ exists b, In (MSet n v b) ms.

Lemma to_first_cons (bad bad' : nat -> Prop) len k :
  (forall j, bad' j <-> bad (S j)) -> ~ bad O -> to_first bad' len k -> to_first bad (S len) (S k).
Proof.
  intros E N (A & B & C). split; [lia|]. split.
  - intros i Hi. destruct i as [|i]; [exact N|]. rewrite <- E. apply B. lia.
  - destruct C as [C|(i & C & D)]; [left; lia|right; exists (S i); split; [lia|apply E, D]].
Qed.
Lemma before_first_cons (bad bad' : nat -> Prop) len k :
  (forall j, bad' j <-> bad (S j)) -> ~ bad O -> before_first bad' len k -> before_first bad (S len) (S k).
Proof.
  intros E N (A & B & C). split; [lia|]. split.
  - intros i Hi. destruct i as [|i]; [exact N|]. rewrite <- E. apply B. lia.
  - destruct C as [C|C]; [left; lia|right; apply E, C].
Qed.

Lemma each_set c st caller ow : has_days c -> forall l s s' o,
  each (fun s x => l_set c st caller s (fst x) (snd x) ow) s l = (s', o) ->
  exists i d ok, let ms := map (fun x => MSet (fst x) (snd x) (or_else caller (calling st))) (firstn i l) in
    set_bulk (n_dict (l_kn s)) l ow = (d, ok) /\ s' = after c s d ms /\ o = dn ok /\
    to_first (fun j => ow = false /\ taken_name (look (l_kn s)) (map fst l) j) (List.length l) i /\
    (ok = true -> forall n, kget n d = told n (kget n (n_dict (l_kn s))) ms) /\
    from_log (n_dict (l_kn s)) d ms.
Proof.
  intro H. induction l as [|[n v] l IH]; intros s s' o E; cbn [each] in E.
  - injection E as <- <-. exists O, (n_dict (l_kn s)), true. cbn [firstn map set_bulk].
    split; [reflexivity|]. split; [symmetry; apply after_none|]. split; [reflexivity|]. split; [|split].
    + split; [auto|]. split; [intros i Hi; lia|left; reflexivity].
    + intros _ k. reflexivity.
    + intros k w Hw. left. exact Hw.
  - cbn [fst snd] in E. rewrite (l_set_ok c st caller s n v ow H) in E. cbn [set_bulk].
    destruct (set_know (n_dict (l_kn s)) n v ow) as [d1 ok1] eqn:K.
    destruct (set_know_spec V _ _ _ _ _ _ K) as [(-> & Hn & Hd)|(-> & -> & -> & Hn)]; cbn [dn] in E.
    + destruct (IH _ _ _ E) as (i & d & ok & I1 & I2 & I3 & I4 & I5 & I6). clear IH E.
      exists (S i), d, ok. cbn [firstn map fst snd].
      change (n_dict (l_kn (after c s d1 [MSet n v (or_else caller (calling st))]))) with d1 in *.
      split; [exact I1|]. split; [rewrite I2, after_after; reflexivity|]. split; [exact I3|]. split; [|split].
      * cbn [List.length]. eapply to_first_cons; [| |exact I4]; cbn beta.
        -- intro j. unfold taken_name, look. cbn [map fst nth_error].
           change (n_dict (l_kn (after c s d1 [MSet n v (or_else caller (calling st))]))) with d1.
           split.
           ++ intros (Eo & m & M1 & M2). split; [exact Eo|]. exists m. split; [exact M1|].
              rewrite Hd in M2. destruct M2 as [M2|(q & Q1 & Q2)].
              ** destruct (Z.eqb n m) eqn:Em; [|left; exact M2].
                 apply Z.eqb_eq in Em. subst m. right. exists O. split; [lia|reflexivity].
              ** right. exists (S q). split; [lia|exact Q2].
           ++ intros (Eo & m & M1 & M2). split; [exact Eo|]. exists m. split; [exact M1|].
              rewrite Hd. destruct M2 as [M2|(q & Q1 & Q2)].
              ** left. destruct (Z.eqb n m); [discriminate|exact M2].
              ** destruct q as [|q]; [left; injection Q2 as ->; rewrite Z.eqb_refl; discriminate|].
                 right. exists q. split; [lia|exact Q2].
        -- intros (Eo & m & M1 & M2). cbn in M1. injection M1 as <-. destruct Hn as [Hn|Hn]; [|congruence].
           destruct M2 as [M2|(q & Q1 & _)]; [apply M2; exact Hn|lia].
      * intros Ok k. rewrite (I5 Ok k), Hd. cbn [told]. reflexivity.
      * intros k w Hw. destruct (I6 k w Hw) as [L|[b L]].
        -- rewrite Hd in L. destruct (Z.eqb n k) eqn:Ek; [|left; exact L].
           apply Z.eqb_eq in Ek. subst k. injection L as <-. right. eexists. left. reflexivity.
        -- right. exists b. right. exact L.
    + injection E as <- <-. exists 1%nat, (n_dict (l_kn s)), false. cbn [firstn map fst snd].
      split; [reflexivity|]. split; [reflexivity|]. split; [reflexivity|]. split; [|split].
      * split; [cbn; lia|]. split; [intros i Hi; lia|]. right. exists O. split; [reflexivity|]. split; [reflexivity|].
        exists n. split; [reflexivity|]. left. exact Hn.
      * discriminate.
      * intros k w Hw. left. exact Hw.
Qed.

Lemma missing_shift (m m1 : amap V) n l : (forall k, m1 k = if Z.eqb k n then None else m k) ->
  forall j, missing_name m1 l j <-> missing_name m (n :: l) (S j).
Proof.
  intros Hd j. unfold missing_name. cbn [nth_error]. split; intros (x & M1 & M2); exists x; (split; [exact M1|]).
  - rewrite Hd in M2. destruct M2 as [M2|(q & Q1 & Q2)].
    + destruct (Z.eqb x n) eqn:Em; [|left; exact M2].
      apply Z.eqb_eq in Em. subst x. right. exists O. split; [lia|reflexivity].
    + right. exists (S q). split; [lia|exact Q2].
  - rewrite Hd. destruct M2 as [M2|(q & Q1 & Q2)].
    + left. destruct (Z.eqb x n); [reflexivity|exact M2].
    + destruct q as [|q]; [left; cbn in Q2; injection Q2 as ->; rewrite Z.eqb_refl; reflexivity|].
      right. exists q. split; [lia|exact Q2].
Qed.
Lemma missing_head (m : amap V) n l : m n <> None -> ~ missing_name m (n :: l) O.
Proof.
  intros Hn (x & M1 & M2). cbn in M1. injection M1 as <-.
  destruct M2 as [M2|(q & Q1 & _)]; [exact (Hn M2)|lia].
Qed.
Lemma told_clear n m x b : told m x [MClear n b] = (if Z.eqb n m then None else x : option (kval V)).
Proof. cbn. reflexivity. Qed.

Lemma each_clear c st caller : has_days c -> forall l s s' o,
  each (fun s n => l_clear c st caller s n) s l = (s', o) ->
  exists i d ok, let ms := map (fun n => MClear n (or_else caller (calling st))) (firstn i l) in
    clear_bulk (n_dict (l_kn s)) l = (d, ok) /\ s' = after c s d ms /\ o = dn ok /\
    to_first (missing_name (look (l_kn s)) l) (List.length l) i /\
    (forall n, kget n d = told n (kget n (n_dict (l_kn s))) ms) /\
    from_log (n_dict (l_kn s)) d ms.
Proof.
  intro H. induction l as [|n l IH]; intros s s' o E; cbn [each] in E.
  - injection E as <- <-. exists O, (n_dict (l_kn s)), true. cbn [firstn map clear_bulk].
    split; [reflexivity|]. split; [symmetry; apply after_none|]. split; [reflexivity|]. split; [|split].
    + split; [auto|]. split; [intros i Hi; lia|left; reflexivity].
    + intros k. reflexivity.
    + intros k w Hw. left. exact Hw.
  - rewrite (l_clear_ok c st caller s n H) in E. cbn [clear_bulk].
    destruct (clear_know (n_dict (l_kn s)) n) as [d1 ok1] eqn:K.
    destruct (clear_know_spec V _ _ _ _ K) as [(-> & Hn & Hd)|(-> & -> & Hn)]; cbn [dn] in E.
    + destruct (IH _ _ _ E) as (i & d & ok & I1 & I2 & I3 & I4 & I5 & I6). clear IH E.
      exists (S i), d, ok. cbn [firstn map].
      change (n_dict (l_kn (after c s d1 [MClear n (or_else caller (calling st))]))) with d1 in *.
      split; [exact I1|]. split; [rewrite I2, after_after; reflexivity|]. split; [exact I3|]. split; [|split].
      * cbn [List.length]. eapply to_first_cons; [| |exact I4].
        -- apply missing_shift. exact Hd.
        -- apply missing_head. exact Hn.
      * intros k. rewrite (I5 k), Hd. cbn [told]. rewrite Z.eqb_sym. reflexivity.
      * intros k w Hw. destruct (I6 k w Hw) as [L|[b L]].
        -- rewrite Hd in L. destruct (Z.eqb k n); [discriminate|left; exact L].
        -- right. exists b. right. exact L.
    + injection E as <- <-. exists 1%nat, (n_dict (l_kn s)), false. cbn [firstn map].
      split; [reflexivity|]. split; [reflexivity|]. split; [reflexivity|]. split; [|split].
      * split; [cbn; lia|]. split; [intros i Hi; lia|]. right. exists O. split; [reflexivity|].
        exists n. split; [reflexivity|]. left. exact Hn.
      * intro k. cbn [told]. destruct (Z.eqb n k) eqn:Ek; [apply Z.eqb_eq in Ek; subst k; exact Hn|reflexivity].
      * intros k w Hw. left. exact Hw.
Qed.

Lemma l_take_ok c st caller s n : has_days c ->
  l_take c st caller s n =
  match kget n (n_dict (l_kn s)) with
  | Some v => (after c s (kdel n (n_dict (l_kn s))) [MClear n (or_else caller "get_and_clear_knowledge")], Some (Some v), Fine)
  | None => (s, None, Refused)
  end.
Proof.
  intro H. unfold l_take, get_know, kmem. destruct (kget n (n_dict (l_kn s))) as [v|] eqn:E; cbn [negb andb].
  - rewrite (l_clear_ok c _ caller s n H). unfold clear_know, kmem. rewrite E. cbn [negb].
    destruct caller; reflexivity.
  - reflexivity.
Qed.

Lemma each_take c st caller : has_days c -> forall l s acc s' m o,
  each_taken (fun s n => l_take c st caller s n) s l acc = (s', m, o) ->
  exists i d r, let ms := map (fun n => MClear n (or_else caller "get_and_clear_knowledge")) (firstn i l) in
    take_bulk (n_dict (l_kn s)) l acc = (d, r) /\ s' = after c s d ms /\
    match r with Some m' => o = Fine /\ m = m' | None => o = Refused end /\
    before_first (missing_name (look (l_kn s)) l) (List.length l) i /\
    (forall n, kget n d = told n (kget n (n_dict (l_kn s))) ms) /\
    from_log (n_dict (l_kn s)) d ms.
Proof.
  intro H. induction l as [|n l IH]; intros s acc s' m o E; cbn [each_taken] in E.
  - injection E as <- <- <-. exists O, (n_dict (l_kn s)), (Some acc). cbn [firstn map take_bulk].
    split; [reflexivity|]. split; [symmetry; apply after_none|]. split; [split; reflexivity|]. split; [|split].
    + split; [auto|]. split; [intros i Hi; lia|left; reflexivity].
    + intros k. reflexivity.
    + intros k w Hw. left. exact Hw.
  - rewrite (l_take_ok c st caller s n H) in E. cbn [take_bulk]. unfold get_know, kmem.
    destruct (kget n (n_dict (l_kn s))) as [v|] eqn:K; cbn [negb andb].
    + unfold clear_know, kmem. rewrite K. cbn [negb].
      destruct (IH _ _ _ _ _ E) as (i & d & r & I1 & I2 & I3 & I4 & I5 & I6). clear IH E.
      exists (S i), d, r. cbn [firstn map].
      set (d1 := kdel n (n_dict (l_kn s))) in *.
      change (n_dict (l_kn (after c s d1 [MClear n (or_else caller "get_and_clear_knowledge")]))) with d1 in *.
      assert (Hd : forall k, kget k d1 = if Z.eqb k n then None else kget k (n_dict (l_kn s))) by (intro; apply kget_kdel).
      split; [exact I1|]. split; [rewrite I2, after_after; reflexivity|]. split; [exact I3|]. split; [|split].
      * cbn [List.length]. eapply before_first_cons; [| |exact I4].
        -- apply missing_shift. exact Hd.
        -- apply missing_head. unfold look. rewrite K. discriminate.
      * intros k. rewrite (I5 k), Hd. cbn [told]. rewrite Z.eqb_sym. reflexivity.
      * intros k w Hw. destruct (I6 k w Hw) as [L|[b L]].
        -- rewrite Hd in L. destruct (Z.eqb k n); [discriminate|left; exact L].
        -- right. exists b. right. exact L.
    + injection E as <- <- <-. exists O, (n_dict (l_kn s)), None. cbn [firstn map].
      split; [reflexivity|]. split; [symmetry; apply after_none|]. split; [reflexivity|]. split; [|split].
      * split; [lia|]. split; [intros i Hi; lia|]. right. exists n. split; [reflexivity|left; exact K].
      * intro k. reflexivity.
      * intros k w Hw. left. exact Hw.
Qed.

(** ** One call *)
Definition puts (o : nop V) : Prop :=
  match o with NSet _ _ _ | NSetBulk _ _ | NCreateEvent _ => True | _ => False end.

Definition step_ok c s s' (ms : list (lmsg V)) : Prop :=
  l_log s' = l_log s ++ lines c (l_now s) ms /\ l_now s' = l_now s.

Lemma lines_nil c t : @lines V c t [] = [].
Proof. unfold lines. destruct (c_on c); reflexivity. Qed.
Lemma step_ok_refl c s : step_ok c s s [].
Proof. split; [rewrite lines_nil, app_nil_r|]; reflexivity. Qed.
Lemma from_log_refl d ms : from_log d d ms.
Proof. intros n v Hv. left. exact Hv. Qed.

Definition know_ok c s o s' (r : lout V) (T : list (lmsg V) -> Prop) : Prop :=
  exists ms, T ms /\ step_ok c s s' ms /\ l_net s' = l_net s /\
    (exists r', r = LKn r' /\ nstep (l_kn s) o = (l_kn s', r')) /\
    (~ (r = LKn NSimError /\ puts o) -> forall n, look (l_kn s') n = told n (look (l_kn s) n) ms) /\
    from_log (n_dict (l_kn s)) (n_dict (l_kn s')) ms.

Lemma set_know_one (d : list (key * kval V)) n v ow d' ok by_ : set_know d n v ow = (d', ok) ->
  (ok = true -> forall k, kget k d' = told k (kget k d) [MSet n v by_]) /\ from_log d d' [MSet n v by_].
Proof.
  intro K. destruct (set_know_spec V _ _ _ _ _ _ K) as [(-> & _ & Hd)|(-> & -> & _ & _)].
  - split; [intros _ k; rewrite Hd; reflexivity|]. intros k w Hw. rewrite Hd in Hw.
    destruct (Z.eqb n k) eqn:E; [|left; exact Hw]. apply Z.eqb_eq in E. subst k. injection Hw as <-.
    right. eexists. left. reflexivity.
  - split; [discriminate|apply from_log_refl].
Qed.
Lemma clear_know_one (d : list (key * kval V)) n d' ok by_ : clear_know d n = (d', ok) ->
  (forall k, kget k d' = told k (kget k d) [MClear n by_]) /\ from_log d d' [MClear n by_].
Proof.
  intro K. destruct (clear_know_spec V _ _ _ _ K) as [(-> & _ & Hd)|(-> & -> & Hn)].
  - split; [intro k; rewrite Hd, Z.eqb_sym; reflexivity|]. intros k w Hw. rewrite Hd in Hw.
    destruct (Z.eqb k n); [discriminate|left; exact Hw].
  - split; [|apply from_log_refl]. intro k. cbn [told].
    destruct (Z.eqb n k) eqn:E; [apply Z.eqb_eq in E; subst k; exact Hn|reflexivity].
Qed.

Lemma actor_know_ok c st caller s o s' r : has_days c -> actor_know c st caller s o = (s', r) ->
  know_ok c s o s' r (tells (l_kn s) o (or_else caller (calling st)) (or_else caller (bulk_name o))
                        (or_else caller "get_and_clear_knowledge") "create_knowledge_event").
Proof.
  intros H E. destruct o as [n must|n v ow|n|n|l ow|l|l must|l|n|n p|e p|e|e]; cbn [actor_know] in E.
  - cbn [nstep] in E. injection E as <- <-. exists []. split; [reflexivity|].
    unfold with_know. rewrite lst_eta. split; [apply step_ok_refl|]. split; [reflexivity|].
    split; [eexists; split; reflexivity|]. split; [reflexivity|apply from_log_refl].
  - rewrite l_set_ok in E by exact H. destruct (set_know (n_dict (l_kn s)) n v ow) as [d ok] eqn:K.
    injection E as <- <-. eexists. split; [reflexivity|]. split; [split; reflexivity|]. split; [reflexivity|].
    destruct (set_know_one _ _ _ _ _ _ (or_else caller (calling st)) K) as [A B].
    split; [|split; [|exact B]].
    + eexists. split; [|cbn [nstep]; rewrite K; reflexivity]. destruct ok; reflexivity.
    + intros N k. apply A. destruct ok; [reflexivity|]. exfalso. apply N. split; [reflexivity|exact I].
  - rewrite l_clear_ok in E by exact H. destruct (clear_know (n_dict (l_kn s)) n) as [d ok] eqn:K.
    injection E as <- <-. eexists. split; [reflexivity|]. split; [split; reflexivity|]. split; [reflexivity|].
    destruct (clear_know_one _ _ _ _ (or_else caller (calling st)) K) as [A B].
    split; [|split; [intros _; exact A|exact B]].
    eexists. split; [|cbn [nstep]; rewrite K; reflexivity]. destruct ok; reflexivity.
  - rewrite l_take_ok in E by exact H. destruct (kget n (n_dict (l_kn s))) as [v|] eqn:K; injection E as <- <-.
    + exists [MClear n (or_else caller "get_and_clear_knowledge")].
      assert (C : clear_know (n_dict (l_kn s)) n = (kdel n (n_dict (l_kn s)), true))
        by (unfold clear_know, kmem; rewrite K; reflexivity).
      destruct (clear_know_one _ _ _ _ (or_else caller "get_and_clear_knowledge") C) as [A B].
      split; [cbn [tells]; unfold look; rewrite K; reflexivity|]. split; [split; reflexivity|]. split; [reflexivity|].
      split; [|split; [intros _; exact A|exact B]].
      eexists. split; [reflexivity|]. cbn [nstep]. unfold get_know, kmem. rewrite K. cbn [negb andb]. rewrite C. reflexivity.
    + exists []. split; [cbn [tells]; unfold look; rewrite K; reflexivity|]. split; [apply step_ok_refl|]. split; [reflexivity|].
      split; [|split; [reflexivity|apply from_log_refl]].
      eexists. split; [reflexivity|]. cbn [nstep]. unfold get_know, kmem. rewrite K. reflexivity.
  - match type of E with context [each ?f s l] => destruct (each f s l) as [s1 d] eqn:K end. injection E as <- <-.
    destruct (each_set c _ caller ow H l s s1 d K) as (i & d' & ok & A1 & -> & -> & A4 & A5 & A6).
    eexists. split; [|split; [split; reflexivity|split; [reflexivity|split; [|split]]]].
    + exists i. split; [|exact A4]. cbn [bulk_name]. destruct caller; reflexivity.
    + eexists. split; [|cbn [nstep]; rewrite A1; reflexivity]. destruct ok; reflexivity.
    + intro N. apply A5. destruct ok; [reflexivity|]. exfalso. apply N. split; [reflexivity|exact I].
    + exact A6.
  - match type of E with context [each ?f s l] => destruct (each f s l) as [s1 d] eqn:K end. injection E as <- <-.
    destruct (each_clear c _ caller H l s s1 d K) as (i & d' & ok & A1 & -> & -> & A4 & A5 & A6).
    eexists. split; [|split; [split; reflexivity|split; [reflexivity|split; [|split]]]].
    + exists i. split; [|exact A4]. cbn [bulk_name]. destruct caller; reflexivity.
    + eexists. split; [|cbn [nstep]; rewrite A1; reflexivity]. destruct ok; reflexivity.
    + intros _. exact A5.
    + exact A6.
  - cbn [nstep] in E. injection E as <- <-. exists []. split; [reflexivity|].
    unfold with_know. rewrite lst_eta. split; [apply step_ok_refl|]. split; [reflexivity|].
    split; [eexists; split; reflexivity|]. split; [reflexivity|apply from_log_refl].
  - match type of E with context [each_taken ?f s l ?a] => destruct (each_taken f s l a) as [[s1 m] d] eqn:K end.
    injection E as <- <-.
    destruct (each_take c _ caller H l s [] s1 m d K) as (i & d' & ro & A1 & -> & A3 & A4 & A5 & A6).
    eexists. split; [|split; [split; reflexivity|split; [reflexivity|split; [|split]]]].
    + exists i. split; [reflexivity|exact A4].
    + eexists. split; [|cbn [nstep]; rewrite A1; reflexivity].
      destruct ro as [m'|]; [destruct A3 as [-> ->]|subst d]; reflexivity.
    + intros _. exact A5.
    + exact A6.
  - rewrite l_set_ok in E by exact H.
    cbn [with_know l_kn n_dict] in E.
    destruct (set_know (n_dict (l_kn s)) n (KEvent (List.length (n_events (l_kn s)))) (n_rehearsing (l_kn s))) as [d ok] eqn:K.
    injection E as <- <-. eexists. split; [reflexivity|]. split; [split; reflexivity|]. split; [reflexivity|].
    destruct (set_know_one _ _ _ _ _ _ "create_knowledge_event" K) as [A B].
    split; [|split; [|exact B]].
    + eexists. split; [|cbn [nstep]; rewrite K; reflexivity]. destruct ok; reflexivity.
    + intros N k. apply A. destruct ok; [reflexivity|]. exfalso. apply N. split; [reflexivity|exact I].
  - destruct (kget n (n_dict (l_kn s))) as [[e| |v]|] eqn:K.
    2-4: injection E as <- <-; exists []; split; [cbn [tells]; unfold look; rewrite K; reflexivity|];
         split; [apply step_ok_refl|]; split; [reflexivity|]; split; [|split; [reflexivity|apply from_log_refl]];
         eexists; split; [reflexivity|]; cbn [nstep]; rewrite K; reflexivity.
    rewrite l_clear_ok in E by exact H.
    assert (C : clear_know (n_dict (l_kn s)) n = (kdel n (n_dict (l_kn s)), true))
        by (unfold clear_know, kmem; rewrite K; reflexivity).
    rewrite C in E. cbn [dn or_else] in E.
    destruct (clear_know_one _ _ _ _ "actor.succeed_knowledge_event" C) as [A B].
    exists [MClear n "actor.succeed_knowledge_event"]. split; [cbn [tells]; unfold look; rewrite K; reflexivity|].
    cbn [after l_kn with_dict n_events] in E.
    destruct (fire (n_events (l_kn s)) e p) as [evs q] eqn:F; injection E as <- <-.
    all: split; [split; reflexivity|]; split; [reflexivity|]; split; [|split; [intros _; exact A|exact B]];
         eexists; split; [reflexivity|]; cbn [nstep]; rewrite K, C, F; reflexivity.
  - cbn [nstep] in E. destruct (fire (n_events (l_kn s)) e p) as [evs q] eqn:F; injection E as <- <-; exists [];
      (split; [reflexivity|]); (split; [split; [cbn; rewrite lines_nil, app_nil_r; reflexivity|reflexivity]|]);
      (split; [reflexivity|]); (split; [|split; [reflexivity|apply from_log_refl]]);
      eexists; (split; [reflexivity|]); cbn [nstep]; rewrite F; reflexivity.
  - cbn [nstep] in E. injection E as <- <-; exists [];
      (split; [reflexivity|]); (split; [split; [cbn; rewrite lines_nil, app_nil_r; reflexivity|reflexivity]|]);
      (split; [reflexivity|]); (split; [|split; [reflexivity|apply from_log_refl]]);
      eexists; (split; [reflexivity|]); reflexivity.
  - cbn [nstep] in E. injection E as <- <-; exists [];
      (split; [reflexivity|]); (split; [split; [cbn; rewrite lines_nil, app_nil_r; reflexivity|reflexivity]|]);
      (split; [reflexivity|]); (split; [|split; [reflexivity|apply from_log_refl]]);
      eexists; (split; [reflexivity|]); reflexivity.
Qed.

(** ** Tasks pass calls on *)
Definition wrapped (o : nop V) : Prop :=
  match o with NCreateEvent _ | NSucceed _ _ | NFire _ _ | NReset _ | NProcessed _ => False | _ => True end.
Lemma task_actor c st st' cls caller s o : wrapped o ->
  task_know c st cls caller s o = actor_know c st' (Some cls) s o.
Proof. destruct o; cbn [wrapped]; intro W; try contradiction; reflexivity. Qed.

Lemma task_know_ok c st cls caller s o s' r : has_days c -> task_know c st cls caller s o = (s', r) ->
  know_ok c s o s' r (tells (l_kn s) o cls cls cls "create_knowledge_event").
Proof.
  intros H E. assert (D : wrapped o \/ ~ wrapped o) by (destruct o; cbn [wrapped]; tauto). destruct D as [W|W].
  - rewrite (task_actor c st st) in E by exact W. exact (actor_know_ok _ _ _ _ _ _ _ H E).
  - destruct o; cbn [wrapped] in W; try (exfalso; apply W; exact I); exact (actor_know_ok _ _ _ _ _ _ _ H E).
Qed.

(** ** Queues *)
Definition queue_ok c s s' (r : lout V) (a' : ast * qout) (T : list (lmsg V) -> Prop) : Prop :=
  exists ms, T ms /\ step_ok c s s' ms /\ l_kn s' = l_kn s /\ (l_net s', r) = (fst a', LQu (snd a')) /\
    (forall n x, told n x ms = x).

Lemma set_queue_ok c st s n l s' r : has_days c -> l_set_queue c st s n l = (s', r) ->
  queue_ok c s s' r (set_queue (l_net s) n l) (fun ms => ms = [MSetQueue (calling st)]).
Proof.
  intros H E. unfold l_set_queue in E. rewrite (log_ok c _ s H), who_direct in E.
  cbn [with_log l_net or_else] in E. destruct (set_queue (l_net s) n l) as [a q] eqn:K. injection E as <- <-.
  eexists. split; [reflexivity|]. split; [split; reflexivity|]. split; [reflexivity|]. split; reflexivity.
Qed.
Definition as_q (n : string) (o : lqop) : qop :=
  match o with QuClear => QClear n | QuSet l => QSet n l | QuGet => QGet n | QuNext => QNext n end.
Lemma actor_queue_ok c st s n o s' r : has_days c -> actor_queue c st s n o = (s', r) ->
  queue_ok c s s' r (qstep (l_net s) (as_q n o))
    (fun ms => ms = match o with QuClear => [MClearQueue (calling st)] | QuSet _ => [MSetQueue (calling st)] | _ => [] end).
Proof.
  intros H E. destruct o as [|l| |]; cbn [actor_queue as_q qstep] in E |- *.
  - rewrite (log_ok c _ s H), who_direct in E. injection E as <- <-.
    eexists. split; [reflexivity|]. split; [split; reflexivity|]. split; [reflexivity|]. split; reflexivity.
  - exact (set_queue_ok c st s n l s' r H E).
  - injection E as <- <-. exists []. split; [reflexivity|]. split; [apply step_ok_refl|]. split; [reflexivity|].
    split; [|reflexivity]. destruct (sget n (a_queues (l_net s))); reflexivity.
  - injection E as <- <-. exists []. split; [reflexivity|]. split; [apply step_ok_refl|]. split; [reflexivity|].
    split; [|reflexivity]. destruct (get_next (l_net s) n); reflexivity.
Qed.

Lemma sget_sset {X} n (x : X) d : sget n (sset n x d) = Some x.
Proof.
  induction d as [|[m y] d IH]; cbn [sset sget]; [rewrite String.eqb_refl; reflexivity|].
  destruct (String.eqb m n) eqn:E; cbn [sget]; rewrite E; [reflexivity|exact IH].
Qed.

Lemma begin_ok c st s n t s' r : has_days c -> l_begin c st s n t = (s', r) ->
  queue_ok c s s' r (begin_next (l_net s) n t) (says (l_kn s) (l_net s) (OBegin st n t)).
Proof.
  intros H E. unfold l_begin in E. unfold begin_next. cbn [says].
  destruct (sget n (a_queues (l_net s))) as [[|x q]|] eqn:G.
  - destruct (l_set_queue c (mkFr "_begin_next_task" "Actor._begin_next_task" :: st) s n [t]) as [s1 r1] eqn:S1.
    destruct (set_queue_ok _ _ _ _ _ _ _ H S1) as (ms & -> & (L & N) & K & Q & _).
    assert (SQ : set_queue (l_net s) n [t] = (with_queue (l_net s) n [t], QOk)) by (unfold set_queue; rewrite G; reflexivity).
    rewrite SQ in Q |- *. cbn [fst snd] in Q. injection Q as Qn ->.
    rewrite (log_ok c _ s1 H) in E. cbn [with_log l_net] in E. rewrite Qn in E.
    cbn [with_queue a_queues] in E |- *. rewrite sget_sset in E |- *. injection E as <- <-.
    exists [MSetQueue "_begin_next_task"; MBegin t]. split; [cbn [says]; rewrite G; reflexivity|]. split.
    + split; [|exact N]. cbn [with_net l_log with_log]. rewrite L, N.
      change [MSetQueue "_begin_next_task"; MBegin t] with ([@MSetQueue V "_begin_next_task"] ++ [MBegin t]).
      rewrite lines_app, <- app_assoc. reflexivity.
    + split; [exact K|]. split; reflexivity.
  - destruct (String.eqb x t) eqn:X.
    + rewrite (log_ok c _ s H) in E. cbn [with_log l_net] in E. rewrite G in E. injection E as <- <-.
      exists [MBegin t]. split; [cbn [says]; rewrite G, X; reflexivity|]. split; [split; reflexivity|]. split; [reflexivity|]. split; reflexivity.
    + injection E as <- <-. exists []. split; [cbn [says]; rewrite G, X; reflexivity|]. split; [apply step_ok_refl|]. split; [reflexivity|].
      split; reflexivity.
  - destruct (l_set_queue c (mkFr "_begin_next_task" "Actor._begin_next_task" :: st) s n [t]) as [s1 r1] eqn:S1.
    destruct (set_queue_ok _ _ _ _ _ _ _ H S1) as (ms & -> & (L & N) & K & Q & _).
    assert (SQ : set_queue (l_net s) n [t] = (l_net s, QKeyErr)) by (unfold set_queue; rewrite G; reflexivity).
    rewrite SQ in Q |- *. cbn [fst snd] in Q. injection Q as Qn ->. injection E as <- <-.
    exists [MSetQueue "_begin_next_task"]. split; [cbn [says]; rewrite G; reflexivity|]. split; [split; [exact L|exact N]|]. split; [exact K|].
    split; [rewrite Qn|]; reflexivity.
Qed.

(** ** Any call *)
Definition moved (o : lop V) (t : Q) : Q := match o with OWait dt => t + dt | _ => t end.

Lemma step_all c s o s' r : has_days c -> lstep c s o = (s', r) ->
  exists ms, says (l_kn s) (l_net s) o ms /\ l_log s' = l_log s ++ lines c (l_now s) ms /\
    l_now s' = moved o (l_now s) /\
    (o <> ORead -> plain (l_kn s) (l_net s) o = (l_kn s', l_net s', r)) /\
    (~ put_refused o r -> forall n, look (l_kn s') n = told n (look (l_kn s) n) ms) /\
    from_log (n_dict (l_kn s)) (n_dict (l_kn s')) ms.
Proof.
  intros H E. destruct o as [st caller o|st cls caller o|st n o|st net o|st n t|m| |dt]; cbn [lstep] in E.
  - destruct (actor_know_ok _ _ _ _ _ _ _ H E) as (ms & A1 & (A2 & A3) & A4 & (r' & -> & A5) & A6 & A7).
    exists ms. split; [exact A1|]. split; [exact A2|]. split; [exact A3|]. split; [|split; [|exact A7]].
    + intros _. cbn [plain]. rewrite A5, A4. reflexivity.
    + intro N. apply A6. intros (X & Y). apply N. split; [exact X|]. destruct o; try contradiction; exact I.
  - destruct (task_know_ok _ _ _ _ _ _ _ _ H E) as (ms & A1 & (A2 & A3) & A4 & (r' & -> & A5) & A6 & A7).
    exists ms. split; [exact A1|]. split; [exact A2|]. split; [exact A3|]. split; [|split; [|exact A7]].
    + intros _. cbn [plain]. rewrite A5, A4. reflexivity.
    + intro N. apply A6. intros (X & Y). apply N. split; [exact X|]. destruct o; try contradiction; exact I.
  - destruct (actor_queue_ok _ _ _ _ _ _ _ H E) as (ms & A1 & (A2 & A3) & A4 & A5 & A6).
    exists ms. split; [destruct o; exact A1|]. split; [exact A2|]. split; [exact A3|].
    rewrite A4. split; [|split; [intros _ k; symmetry; apply A6|apply from_log_refl]].
    intros _. cbn [plain]. unfold as_q in A5. destruct (qstep (l_net s) _) as [a q]. cbn [fst snd] in A5.
    injection A5 as -> ->. reflexivity.
  - destruct net as [n|]; cbn [task_queue] in E.
    + destruct (actor_queue_ok _ _ _ _ _ _ _ H E) as (ms & A1 & (A2 & A3) & A4 & A5 & A6).
      exists ms. split; [destruct o; exact A1|]. split; [exact A2|]. split; [exact A3|].
      rewrite A4. split; [|split; [intros _ k; symmetry; apply A6|apply from_log_refl]].
      intros _. cbn [plain]. unfold as_q in A5. destruct (qstep (l_net s) _) as [a q]. cbn [fst snd] in A5.
      injection A5 as -> ->. reflexivity.
    + injection E as <- <-. exists []. split; [reflexivity|]. split; [rewrite lines_nil, app_nil_r; reflexivity|].
      split; [reflexivity|]. split; [reflexivity|]. split; [reflexivity|apply from_log_refl].
  - destruct (begin_ok _ _ _ _ _ _ _ H E) as (ms & A1 & (A2 & A3) & A4 & A5 & A6).
    exists ms. split; [exact A1|]. split; [exact A2|]. split; [exact A3|].
    rewrite A4. split; [|split; [intros _ k; symmetry; apply A6|apply from_log_refl]].
    intros _. cbn [plain]. destruct (begin_next (l_net s) n t) as [a q]. cbn [fst snd] in A5.
    injection A5 as -> ->. reflexivity.
  - rewrite (log_ok c _ s H) in E. injection E as <- <-. exists [MSay m]. split; [reflexivity|]. split; [reflexivity|].
    split; [reflexivity|]. split; [reflexivity|]. split; [reflexivity|apply from_log_refl].
  - injection E as <- <-. exists []. split; [reflexivity|]. split; [rewrite lines_nil, app_nil_r; reflexivity|].
    split; [reflexivity|]. split; [intro X; contradiction|]. split; [reflexivity|apply from_log_refl].
  - injection E as <- <-. exists []. split; [reflexivity|]. split; [rewrite lines_nil, app_nil_r; reflexivity|].
    split; [reflexivity|]. split; [reflexivity|]. split; [reflexivity|apply from_log_refl].
Qed.

(** ** Histories *)
Lemma run_same c c' : has_days c -> has_days c' -> forall os s s2 t1 t2 rs1 rs2,
  l_kn s = l_kn s2 -> l_net s = l_net s2 ->
  lrun c s os = (t1, rs1) -> lrun c' s2 os = (t2, rs2) ->
  l_kn t1 = l_kn t2 /\ l_net t1 = l_net t2 /\
  Forall2 (fun x y : lout V => x = y \/ exists l l', x = LRead l /\ y = LRead l') rs1 rs2.
Proof.
  intros H H'. induction os as [|o os IH]; intros s s2 t1 t2 rs1 rs2 Ek En E1 E2; cbn [lrun] in E1, E2.
  - injection E1 as <- <-. injection E2 as <- <-. split; [exact Ek|]. split; [exact En|constructor].
  - destruct (lstep c s o) as [u1 r1] eqn:S1. destruct (lstep c' s2 o) as [u2 r2] eqn:S2.
    destruct (lrun c u1 os) as [v1 q1] eqn:R1. destruct (lrun c' u2 os) as [v2 q2] eqn:R2.
    injection E1 as <- <-. injection E2 as <- <-.
    assert (X : l_kn u1 = l_kn u2 /\ l_net u1 = l_net u2 /\ (r1 = r2 \/ exists l l', r1 = LRead l /\ r2 = LRead l')).
    { assert (D : o = ORead \/ o <> ORead) by (destruct o; (left; reflexivity) || (right; discriminate)).
      destruct D as [->|D].
      - cbn [lstep] in S1, S2. injection S1 as <- <-. injection S2 as <- <-.
        split; [exact Ek|]. split; [exact En|]. right. eauto.
      - destruct (step_all _ _ _ _ _ H S1) as (_ & _ & _ & _ & P1 & _).
        destruct (step_all _ _ _ _ _ H' S2) as (_ & _ & _ & _ & P2 & _).
        specialize (P1 D). specialize (P2 D). rewrite <- Ek, <- En, P1 in P2. injection P2 as -> -> ->. auto. }
    destruct X as (X1 & X2 & X3). destruct (IH _ _ _ _ _ _ X1 X2 R1 R2) as (Y1 & Y2 & Y3).
    split; [exact Y1|]. split; [exact Y2|]. constructor; assumption.
Qed.

Definition at_least (t : Q) (e : entry V) : Prop := t <= e_time e.
Lemma run_order c : has_days c -> forall os s s' rs, Forall no_wait_back os -> lrun c s os = (s', rs) ->
  l_now s <= l_now s' /\
  exists new, l_log s' = l_log s ++ new /\ Forall (fun e => l_now s <= e_time e /\ e_time e <= l_now s') new /\
    StronglySorted (fun a b : entry V => e_time a <= e_time b) new /\
    (c_on c = false -> new = []).
Proof.
  intro H. induction os as [|o os IH]; intros s s' rs W E; cbn [lrun] in E.
  - injection E as <- <-. split; [lra|]. exists []. rewrite app_nil_r. repeat split; constructor.
  - destruct (lstep c s o) as [u r] eqn:S. destruct (lrun c u os) as [v q] eqn:R. injection E as <- <-.
    inversion W as [|? ? Wo Wos]; subst.
    destruct (step_all _ _ _ _ _ H S) as (ms & _ & L & N & _).
    assert (M : l_now s <= l_now u).
    { rewrite N. destruct o; cbn [moved no_wait_back] in *; lra. }
    destruct (IH _ _ _ Wos R) as (I0 & new & I1 & I2 & I3 & I4).
    split; [lra|]. exists (lines c (l_now s) ms ++ new).
    split; [rewrite I1, L, app_assoc; reflexivity|].
    assert (T : Forall (fun e => e_time e = l_now s) (lines c (l_now s) ms)).
    { unfold lines. destruct (c_on c); [|constructor]. apply Forall_forall. intros e He. apply in_map_iff in He.
      destruct He as (m & <- & _). reflexivity. }
    split; [|split].
    + apply Forall_app. split.
      * eapply Forall_impl; [|exact T]. intros e ->. split; lra.
      * eapply Forall_impl; [|exact I2]. intros e [A B]. split; lra.
    + clear L. induction T as [|e es He T IHT]; [exact I3|]. cbn [app]. constructor; [exact IHT|].
      apply Forall_app. split.
      * eapply Forall_impl; [|exact T]. intros x ->. rewrite He. lra.
      * eapply Forall_impl; [|exact I2]. intros x [A B]. rewrite He. lra.
    + intro Off. rewrite (I4 Off), app_nil_r. unfold lines. rewrite Off. reflexivity.
Qed.

Lemma lines_msgs c t ms : c_on c = true -> map e_msg (@lines V c t ms) = ms.
Proof. intro On. unfold lines. rewrite On, map_map. cbn. apply map_id. Qed.

Lemma run_told c : has_days c -> c_on c = true -> forall os s s' rs, lrun c s os = (s', rs) ->
  exists ms, map e_msg (l_log s') = map e_msg (l_log s) ++ ms /\
    from_log (n_dict (l_kn s)) (n_dict (l_kn s')) ms /\
    (Forall2 (fun o r => ~ put_refused o r) os rs ->
     forall n, look (l_kn s') n = told n (look (l_kn s) n) ms).
Proof.
  intros H On. induction os as [|o os IH]; intros s s' rs E; cbn [lrun] in E.
  - injection E as <- <-. exists []. rewrite app_nil_r. split; [reflexivity|]. split; [apply from_log_refl|reflexivity].
  - destruct (lstep c s o) as [u r] eqn:S. destruct (lrun c u os) as [v q] eqn:R. injection E as <- <-.
    destruct (step_all _ _ _ _ _ H S) as (ms & _ & L & _ & _ & T & F).
    destruct (IH _ _ _ R) as (ms2 & L2 & F2 & T2).
    exists (ms ++ ms2). split; [|split].
    + rewrite L2, L, map_app, (lines_msgs c _ _ On), app_assoc. reflexivity.
    + intros n x Hx. destruct (F2 n x Hx) as [A|[b A]].
      * destruct (F n x A) as [B|[b B]]; [left; exact B|right; exists b; apply in_or_app; left; exact B].
      * right. exists b. apply in_or_app. right. exact A.
    + intros Hf n. inversion Hf; subst. rewrite told_app, (T2 ltac:(assumption) n), (T ltac:(assumption) n). reflexivity.
Qed.
End P.
