From Coq Require Import Qround.
From Verif Require Import Common CrossModel CrossSpec.

Section CrossProofs.
Variable P : Type.
Variable inside : P -> bool.
Notation crossings := (crossings P inside). Notation crossing := (crossing P inside).

Lemma crossings_cons p q l :
  crossings (p :: q :: l) = (if xorb (inside p) (inside q) then [(p, q)] else []) ++ crossings (q :: l).
Proof. unfold CrossSpec.crossings, neighbours. cbn. destruct (xorb _ _); reflexivity. Qed.
Lemma last_same (l : list P) x : forall y z, last (x :: l) y = last (x :: l) z.
Proof. revert x. induction l as [|w l IH]; intros x y z; [reflexivity|]. apply (IH w). Qed.
Lemma last_cons2 (x y : P) l z : last (x :: y :: l) z = last (y :: l) z.
Proof. reflexivity. Qed.

Definition lower (a : option nat) (n : nat) : Prop := forall m, a = Some m -> (m < n)%nat.
Lemma lower_eqb a n : lower a n -> onat_eqb a n = false.
Proof.
  intro L. destruct a as [m|]; [|reflexivity]. cbn. apply Nat.eqb_neq. specialize (L m eq_refl). lia.
Qed.
Lemma scan_spec lla : forall rest pre p lo li cross, lla = pre ++ p :: rest ->
  (if inside p then li = Some (length pre) /\ lower lo (length pre) else lo = Some (length pre) /\ lower li (length pre)) ->
  scan P inside lla (S (length pre)) lo li cross rest =
  Ok (cross ++ map crossing (crossings (p :: rest)),
      match rest with [] => None | _ => Some (inside (last rest p)) end).
Proof.
  induction rest as [|q rest IH]; intros pre p lo li cross E I.
  - cbn. now rewrite app_nil_r.
  - assert (E' : lla = (pre ++ [p]) ++ q :: rest) by (rewrite <- app_assoc; exact E).
    assert (L : length (pre ++ [p]) = S (length pre)) by (rewrite app_length; cbn; lia).
    assert (NP : nth_error lla (length pre) = Some p).
    { rewrite E, nth_error_app2, Nat.sub_diag by lia. reflexivity. }
    assert (REST : forall lo' li' cross',
       (if inside q then li' = Some (S (length pre)) /\ lower lo' (S (length pre)) else lo' = Some (S (length pre)) /\ lower li' (S (length pre))) ->
       match scan P inside lla (S (S (length pre))) lo' li' cross' rest with
       | Ok (c, None) => Ok (c, Some (inside q)) | r => r end =
       Ok (cross' ++ map crossing (crossings (q :: rest)), Some (inside (last (q :: rest) p)))).
    { intros lo' li' cross' I'. specialize (IH (pre ++ [p]) q lo' li' cross' E'). rewrite L in IH. rewrite IH by exact I'.
      destruct rest as [|r rest]; [reflexivity|].
      now rewrite last_cons2, (last_same rest r p q). }
    assert (UP : forall a, lower a (length pre) -> lower a (S (length pre))).
    { intros a H m X. specialize (H m X). lia. }
    assert (SL : lower (Some (length pre)) (S (length pre))) by (intros m X; inversion X; lia).
    cbn [scan]. rewrite crossings_cons.
    destruct (inside p) eqn:Ip, (inside q) eqn:Iq; destruct I as [-> NI]; cbn [xorb andb negb onat_eqb];
      rewrite ?Nat.eqb_refl, ?(lower_eqb _ _ NI), ?NP; cbn [negb app map]; rewrite REST by auto; auto.
    + rewrite <- app_assoc. cbn [app]. unfold CrossSpec.crossing at 2. cbn [fst snd]. now rewrite Iq.
    + rewrite <- app_assoc. cbn [app]. unfold CrossSpec.crossing at 2. cbn [fst snd]. now rewrite Iq.
Qed.
Lemma find_crossing_spec p rest :
  find_crossing P inside (p :: rest) =
  Ok (start_of P inside p :: map crossing (crossings (p :: rest)) ++ [end_of P inside (last rest p)]).
Proof.
  unfold find_crossing. cbn [scan app].
  assert (R : exists z l, rev (p :: rest) = z :: l /\ z = last rest p).
  { clear. destruct rest as [|x rest _] using rev_ind; [now exists p, []|].
    exists x, (rev rest ++ [p]). split; [cbn; rewrite rev_unit; reflexivity|]. now rewrite last_last. }
  destruct R as (z & l & R & ->). rewrite R.
  rewrite (scan_spec (p :: rest) rest [] p) by (auto; destruct (inside p); (split; [reflexivity|intros m X; discriminate])).
  fold (start_of P inside p). destruct rest as [|q rest]; reflexivity.
Qed.

(** Entries and exits take turns. *)
Lemma crossings_turn l : forall p, turns P (inside p) (map crossing (crossings (p :: l))).
Proof.
  induction l as [|q l IH]; intro p; [exact I|].
  rewrite crossings_cons. specialize (IH q). destruct (inside p) eqn:Ip, (inside q) eqn:Iq; cbn [xorb app map]; auto;
    (split; [unfold CrossSpec.crossing; cbn; now rewrite Iq|exact IH]).
Qed.
Lemma crossings_parity l : forall p,
  Nat.even (length (crossings (p :: l))) = negb (xorb (inside p) (inside (last l p))).
Proof.
  induction l as [|q l IH]; intro p; [cbn; now destruct (inside p)|].
  rewrite crossings_cons, app_length. specialize (IH q).
  replace (last (q :: l) p) with (last l q).
  2:{ destruct l as [|r l]; [reflexivity|]. rewrite last_cons2. apply last_same. }
  destruct (inside p), (inside q), (inside (last l q)); cbn [xorb negb length plus] in *;
    rewrite ?Nat.even_succ, <- ?Nat.negb_even, ?IH; reflexivity.
Qed.

(** ** How many segments *)
Lemma segments_ok fuel : forall dist b n, segments fuel dist b = Ok n ->
  exists k, n = points_for dist (halved b k) /\ (3 <= n)%nat /\
    (forall j, (j < k)%nat -> (points_for dist (halved b j) <= 2)%nat) /\ (k = 0%nat \/ 100 <= halved b k).
Proof.
  induction fuel as [|f IH]; intros dist b n; cbn [segments]; destruct (Qeqb b 0); try discriminate;
    destruct (points_for dist b <=? 2)%nat eqn:E.
  - destruct (Qltb (b / 2) 100); discriminate.
  - intros [= <-]. exists 0%nat. apply Nat.leb_gt in E. cbn. split; [reflexivity|]. split; [lia|]. split; [intros; lia|now left].
  - destruct (Qltb (b / 2) 100) eqn:L; [discriminate|]. intro H. destruct (IH _ _ _ H) as (k & -> & G & B & K).
    exists (S k). cbn [halved]. split; [reflexivity|]. split; [exact G|]. split.
    + intros [|j] J; cbn [halved]; [now apply Nat.leb_le|]. apply B. lia.
    + right. destruct K as [-> |K]; [cbn; qbool; lra|exact K].
  - intros [= <-]. exists 0%nat. apply Nat.leb_gt in E. cbn. split; [reflexivity|]. split; [lia|]. split; [intros; lia|now left].
Qed.
Lemma segments_small fuel : forall dist b, segments fuel dist b = Err TooSmall ->
  exists k, (forall j, (j <= k)%nat -> (points_for dist (halved b j) <= 2)%nat) /\ halved b (S k) < 100.
Proof.
  induction fuel as [|f IH]; intros dist b; cbn [segments]; destruct (Qeqb b 0); try discriminate;
    destruct (points_for dist b <=? 2)%nat eqn:E; try discriminate; apply Nat.leb_le in E;
    destruct (Qltb (b / 2) 100) eqn:L; try discriminate.
  - intros _. exists 0%nat. split; [|cbn; now qbool]. intros j J. replace j with 0%nat by lia. exact E.
  - intros _. exists 0%nat. split; [|cbn; now qbool]. intros j J. replace j with 0%nat by lia. exact E.
  - intro H. destruct (IH _ _ H) as (k & B & S1). exists (S k). split; [|exact S1].
    intros [|j] J; cbn [halved]; [exact E|]. apply B. lia.
Qed.
Lemma segments_fuel fuel : forall dist b, b <= inject_Z (Z.of_nat fuel) -> segments fuel dist b <> OutOfFuel.
Proof.
  induction fuel as [|f IH]; intros dist b H; cbn [segments]; destruct (Qeqb b 0); try discriminate;
    destruct (points_for dist b <=? 2)%nat; try discriminate;
    destruct (Qltb (b / 2) 100) eqn:L; try discriminate.
  - exfalso. qbool. change (inject_Z (Z.of_nat 0)) with 0 in H. assert (100 <= b / 2) by lra. assert (b / 2 == b * (1 # 2)) by field. lra.
  - apply IH. qbool. assert (b / 2 == b * (1 # 2)) by field.
    rewrite Nat2Z.inj_succ, <- Z.add_1_r, inject_Z_plus in H. change (inject_Z 1) with 1 in H. lra.
Qed.
Lemma segments_errors fuel : forall dist b e, segments fuel dist b = Err e -> 0 < b -> e = TooSmall.
Proof.
  induction fuel as [|f IH]; intros dist b e; cbn [segments]; destruct (Qeqb b 0) eqn:Z0.
  - intros _ H. qbool. lra.
  - destruct (points_for dist b <=? 2)%nat; [|discriminate]. destruct (Qltb (b / 2) 100); [|discriminate]. now intros [= <-].
  - intros _ H. qbool. lra.
  - destruct (points_for dist b <=? 2)%nat; [|discriminate]. destruct (Qltb (b / 2) 100) eqn:L; [now intros [= <-]|].
    intros H _. apply (IH _ _ _ H). qbool. lra.
Qed.
Lemma halvings_enough b : b <= inject_Z (Z.of_nat (halvings b)).
Proof.
  unfold halvings. pose proof (Qle_ceiling b) as H.
  assert (Qceiling b <= Z.of_nat (Z.to_nat (Qceiling b)))%Z by lia.
  rewrite Zle_Qle in H0. lra.
Qed.

(** ** Refining *)
Variable gdist : P -> P -> Q.
Variable line : P -> P -> nat -> list P.
Hypothesis GL : good_line P line.
Notation fcp := (find_crossing_points P inside gdist line).
Lemma fcp_ok a b between l : fcp a b between = Ok l ->
  exists n, l = start_of P inside a :: map crossing (crossings (line a b n)) ++ [end_of P inside b] /\ (3 <= n)%nat /\
    exists k, n = Z.to_nat (Qfloor (gdist a b / halved between k) + 1) /\ (k = 0%nat \/ 100 <= halved between k).
Proof.
  unfold find_crossing_points. destruct (segments _ _ _) as [n|e|] eqn:S1; try discriminate.
  apply segments_ok in S1. destruct S1 as (k & EN & N & _ & K). destruct n as [|n]; [lia|].
  destruct (GL a b n) as [mid E]. rewrite E, find_crossing_spec. intros [= <-]. exists (S n). rewrite E.
  split; [rewrite last_last; reflexivity|]. split; [exact N|]. now exists k.
Qed.
Lemma fcp_total a b between : 0 < between -> (exists l, fcp a b between = Ok l) \/ fcp a b between = Err TooSmall.
Proof.
  intro B. unfold find_crossing_points. destruct (segments _ _ _) as [n|e|] eqn:S1.
  - left. apply segments_ok in S1. destruct S1 as (k & _ & N & _). destruct n as [|n]; [lia|].
    destruct (GL a b n) as [mid E]. rewrite E, find_crossing_spec. eexists. reflexivity.
  - right. f_equal. exact (segments_errors _ _ _ _ S1 B).
  - destruct (segments_fuel _ _ _ (halvings_enough between) S1).
Qed.
Lemma crossings_in l pq : In pq (crossings l) -> In pq (neighbours P l) /\ xorb (inside (fst pq)) (inside (snd pq)) = true.
Proof. intro I. apply filter_In in I. exact I. Qed.
Lemma crossing_dir a b n pq : xorb (inside a) (inside b) = true -> crossings (line a b (S n)) = [pq] ->
  inside (fst pq) = inside a /\ inside (snd pq) = inside b.
Proof.
  intros X E. destruct (GL a b n) as [mid L]. rewrite L in E.
  pose proof (crossings_turn (mid ++ [b]) a) as T. rewrite E in T. cbn in T. destruct T as [T _].
  assert (I : In pq (crossings (a :: mid ++ [b]))) by (rewrite E; now left).
  apply crossings_in in I. destruct I as [_ X'].
  destruct (inside a), (inside b), (inside (fst pq)), (inside (snd pq)); try discriminate; split; reflexivity.
Qed.
Lemma split_down_ok levels : forall a b between last c, split_down P inside gdist line a b between levels last = Ok c ->
  (match last with Some l => l = crossing (a, b) | None => levels <> [] end) -> xorb (inside a) (inside b) = true ->
  exists p q, c = crossing (p, q) /\ inside p = inside a /\ inside q = inside b /\ between_samples P inside gdist line between levels (a, b) (p, q).
Proof.
  induction levels as [|d levels IH]; intros a b between last c H L X; cbn [split_down] in H.
  - destruct last as [l|]; [|now destruct L]. inversion H; subst. exists a, b. repeat split; auto. constructor.
  - destruct (Qeqb d 0); [discriminate|].
    destruct (fcp a b (between / d)) as [l|e|] eqn:F; try discriminate.
    apply fcp_ok in F. destruct F as (n & -> & N & k & EN & HK).
    destruct n as [|n]; [lia|].
    destruct (crossings (line a b (S n))) as [|[p q] [|pq' rest]] eqn:C.
    + discriminate.
    + cbn [map app] in H.
      destruct (crossing_dir a b n (p, q) X C) as [Da Db]. cbn [fst snd] in Da, Db.
      assert (K : kind_eqb (c_kind P (crossing (p, q))) ENTER || kind_eqb (c_kind P (crossing (p, q))) EXIT = true).
      { unfold CrossSpec.crossing. cbn. destruct (inside q); reflexivity. }
      rewrite K in H. cbn [c_end CrossSpec.crossing snd c_begin fst] in H.
      destruct (IH p q _ _ _ H) as (r & s & Ec & Ir & Is & B).
      * unfold CrossSpec.crossing. cbn. reflexivity.
      * now rewrite Da, Db.
      * exists r, s. split; [exact Ec|]. split; [congruence|]. split; [congruence|].
        assert (I : In (p, q) (crossings (line a b (S n)))) by (rewrite C; now left).
        eapply Finer; [exact EN|exact N|exact HK| | |exact B].
        -- exact (proj1 (crossings_in _ _ I)).
        -- cbn. now rewrite Da, Db.
    + cbn [map app] in H. destruct rest; discriminate.
Qed.
Lemma split_down_total levels : crosses_once P inside line -> Forall (fun d => 0 < d) levels ->
  forall a b between last, 0 < between -> (match last with Some l => True | None => levels <> [] end) -> xorb (inside a) (inside b) = true ->
  (exists c, split_down P inside gdist line a b between levels last = Ok c) \/
  split_down P inside gdist line a b between levels last = Err TooSmall.
Proof.
  intros CO F. induction F as [|d levels D F IH]; intros a b between last B L X; cbn [split_down].
  - destruct last as [l|]; [left; now exists l|now destruct L].
  - assert (Z : Qeqb d 0 = false) by (destruct (Qeqb d 0) eqn:E; [qbool; lra|reflexivity]). rewrite Z.
    assert (B' : 0 < between / d) by (apply Qlt_shift_div_l; lra).
    destruct (fcp_total a b (between / d) B') as [[l E]| ->]; [|now right]. rewrite E.
    apply fcp_ok in E. destruct E as (n & -> & N & _). destruct n as [|n]; [lia|].
    pose proof (CO a b (S n) X) as O1.
    destruct (GL a b n) as [mid E]. pose proof (crossings_parity (mid ++ [b]) a) as PA. rewrite last_last, X, <- E in PA.
    destruct (crossings (line a b (S n))) as [|[p q] [|pq' rest]] eqn:C; cbn in O1, PA; try discriminate; [|lia].
    cbn [map app]. destruct (crossing_dir a b n (p, q) X C) as [Da Db]. cbn [fst snd] in Da, Db.
    assert (K : kind_eqb (c_kind P (crossing (p, q))) ENTER || kind_eqb (c_kind P (crossing (p, q))) EXIT = true).
    { unfold CrossSpec.crossing. cbn. destruct (inside q); reflexivity. }
    rewrite K. cbn [c_end CrossSpec.crossing snd c_begin fst]. apply IH; auto. now rewrite Da, Db.
Qed.
Lemma kind_eqb_refl k : kind_eqb k k = true.
Proof. now destruct k. Qed.
(** The refined crossings: for each rough one, in order. *)
Definition refined (between : Q) (levels : list Q) (pq : P * P) (c : cond P) : Prop :=
  exists p q, between_samples P inside gdist line between levels pq (p, q) /\ inside p = inside (fst pq) /\ inside q = inside (snd pq) /\
    c = mkC P (if inside (snd pq) then ENTER else EXIT) (if inside (snd pq) then q else p) None.
Lemma refine_ok between levels : levels <> [] -> forall prs l,
  (forall pq, In pq prs -> xorb (inside (fst pq)) (inside (snd pq)) = true) ->
  refine P inside gdist line between levels (map crossing prs) = Ok l -> Forall2 (refined between levels) prs l.
Proof.
  intros NE. induction prs as [|[a b] prs IH]; intros l X H; cbn [map refine] in H.
  - inversion H. constructor.
  - cbn [CrossSpec.crossing c_end snd c_begin fst c_kind] in H.
    destruct (split_down P inside gdist line a b between levels None) as [c|e|] eqn:S1; try discriminate.
    assert (Xab : xorb (inside a) (inside b) = true) by (apply (X (a, b)); now left).
    destruct (split_down_ok _ _ _ _ _ _ S1 NE Xab) as (p & q & -> & Ip & Iq & B).
    unfold CrossSpec.crossing in H at 1 2 3. cbn [c_kind snd c_begin fst c_end] in H. rewrite Iq, kind_eqb_refl in H.
    destruct (refine P inside gdist line between levels (map crossing prs)) as [r|e|] eqn:R.
    + assert (EL : l = mkC P (if inside b then ENTER else EXIT) (if inside b then q else p) None :: r).
      { destruct (inside b); cbn in H; now inversion H. }
      subst l. constructor.
      * exists p, q. split; [exact B|]. split; [exact Ip|]. split; [exact Iq|reflexivity].
      * apply IH; [|reflexivity]. intros pq I. apply X. now right.
    + destruct (inside b); cbn in H; discriminate.
    + destruct (inside b); cbn in H; discriminate.
Qed.
Lemma refine_total between levels : crosses_once P inside line -> Forall (fun d => 0 < d) levels -> levels <> [] -> 0 < between ->
  forall prs, (forall pq, In pq prs -> xorb (inside (fst pq)) (inside (snd pq)) = true) ->
  (exists l, refine P inside gdist line between levels (map crossing prs) = Ok l) \/
  refine P inside gdist line between levels (map crossing prs) = Err TooSmall.
Proof.
  intros CO F NE B. induction prs as [|[a b] prs IH]; intro X; cbn [map refine]; [left; now exists []|].
  assert (Xab : xorb (inside a) (inside b) = true) by (apply (X (a, b)); now left).
  cbn [CrossSpec.crossing c_end snd c_begin fst c_kind].
  destruct (split_down_total levels CO F a b between None B NE Xab) as [[c S1]|S1]; rewrite S1; [|now right].
  destruct (split_down_ok _ _ _ _ _ _ S1 NE Xab) as (p & q & -> & Ip & Iq & _).
  unfold CrossSpec.crossing at 1 2 3 5 6 7. cbn [c_kind snd c_begin fst c_end]. rewrite Iq, kind_eqb_refl.
  destruct IH as [[r R]|R]; [intros pq I; apply X; now right| |]; rewrite R; destruct (inside b); cbn [kind_eqb];
    try (left; eexists; reflexivity); now right.
Qed.
Lemma get_ok a b between levels l : levels <> [] ->
  get_intersections P inside gdist line a b between levels = Ok l ->
  exists n mid, (3 <= n)%nat /\ (exists k, n = Z.to_nat (Qfloor (gdist a b / halved between k) + 1) /\ (k = 0%nat \/ 100 <= halved between k)) /\
    l = (if inside a then [start_of P inside a] else []) ++ mid ++ (if inside b then [end_of P inside b] else []) /\
    Forall2 (refined between levels) (crossings (line a b n)) mid.
Proof.
  intros NE. unfold get_intersections.
  destruct (fcp a b between) as [rough|e|] eqn:F; try discriminate.
  apply fcp_ok in F. destruct F as (n & -> & N & HK). cbn [tl]. rewrite removelast_last.
  destruct (refine _ _ _ _ _ _ _) as [r|e|] eqn:R; try discriminate.
  cbn [rev]. rewrite rev_unit. cbn [app]. intros [= <-]. exists n, r. split; [exact N|]. split; [exact HK|]. split.
  - f_equal; [cbn; now destruct (inside a)|]. f_equal. cbn. now destruct (inside b).
  - eapply refine_ok; [exact NE| |exact R]. intros pq I. now apply crossings_in in I.
Qed.
Lemma get_total a b between levels : crosses_once P inside line -> Forall (fun d => 0 < d) levels -> levels <> [] -> 0 < between ->
  (exists l, get_intersections P inside gdist line a b between levels = Ok l) \/
  get_intersections P inside gdist line a b between levels = Err TooSmall.
Proof.
  intros CO F NE B. unfold get_intersections.
  destruct (fcp_total a b between B) as [[rough E]| ->]; [|now right]. rewrite E.
  apply fcp_ok in E. destruct E as (n & -> & N & _). cbn [tl]. rewrite removelast_last.
  destruct (refine_total between levels CO F NE B (crossings (line a b n))) as [[r R]|R].
  - intros pq I. now apply crossings_in in I.
  - left. rewrite R. cbn [rev]. rewrite rev_unit. eexists. reflexivity.
  - right. now rewrite R.
Qed.
End CrossProofs.
