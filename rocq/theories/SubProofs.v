From Coq Require Import Qround.
From Verif Require Import Common CrossModel CrossSpec CrossProofs CrossProps SubModel SubSpec.

(** ** Numbers *)
Lemma natQ n : (0 < n)%nat -> 0 < inject_Z (Z.of_nat n).
Proof. intro H. change 0 with (inject_Z 0). rewrite <- Zlt_Qlt. lia. Qed.
Lemma frac_le i j n : (0 < n)%nat -> (i <= j)%nat -> frac i n <= frac j n.
Proof.
  intros N L. unfold frac. pose proof (natQ n N). apply Qle_shift_div_l; [exact H|].
  setoid_replace (inject_Z (Z.of_nat i) / inject_Z (Z.of_nat n) * inject_Z (Z.of_nat n)) with (inject_Z (Z.of_nat i)).
  - rewrite <- Zle_Qle. lia.
  - field. lra.
Qed.
Lemma frac_0 n : frac 0 n == 0.
Proof. unfold frac. change (inject_Z (Z.of_nat 0)) with 0. unfold Qdiv. lra. Qed.
Lemma frac_n n : (0 < n)%nat -> frac n n == 1.
Proof. intro N. unfold frac. pose proof (natQ n N). field. lra. Qed.
Lemma frac_S k n : (0 < n)%nat -> frac (S k) n == frac k n + / inject_Z (Z.of_nat n).
Proof.
  intro N. unfold frac. pose proof (natQ n N). rewrite Nat2Z.inj_succ, <- Z.add_1_r, inject_Z_plus.
  change (inject_Z 1) with 1. field. lra.
Qed.
Lemma frac_lt_inv i j n : (0 < n)%nat -> frac i n < frac j n -> (i < j)%nat.
Proof.
  intros N L. destruct (Nat.lt_ge_cases i j) as [H|H]; [exact H|].
  apply (frac_le j i n N) in H. lra.
Qed.
(** With a distance of at least two steps there is no halving. *)
Lemma points_big dist h : 0 < h -> 2 * h <= dist ->
  let n := points_for dist h in (3 <= n)%nat /\ (2 # 3) * h <= dist / inject_Z (Z.of_nat n) /\ dist / inject_Z (Z.of_nat n) < h.
Proof.
  intros H L n.
  assert (Q2 : 2 <= dist / h) by (apply Qle_shift_div_l; lra).
  assert (F2 : (2 <= Qfloor (dist / h))%Z) by (change 2%Z with (Qfloor 2); now apply Qfloor_resp_le).
  assert (EN : inject_Z (Z.of_nat n) == inject_Z (Qfloor (dist / h)) + 1).
  { unfold n, points_for. rewrite Z2Nat.id by lia. rewrite inject_Z_plus. reflexivity. }
  assert (N3 : (3 <= n)%nat) by (unfold n, points_for; lia).
  pose proof (natQ n ltac:(lia)) as NP.
  pose proof (Qfloor_le (dist / h)) as FL. pose proof (Qlt_floor (dist / h)) as FU.
  rewrite inject_Z_plus in FU. change (inject_Z 1) with 1 in FU.
  assert (DQ : dist == (dist / h) * h) by (field; lra).
  set (y := dist / h) in *. clearbody y. set (z := inject_Z (Z.of_nat n)) in *. clearbody z.
  split; [exact N3|]. split.
  - apply Qle_shift_div_l; [exact NP|]. nra.
  - apply Qlt_shift_div_r; [exact NP|]. nra.
Qed.
Lemma segments_big fuel dist h : 0 < h -> 2 * h <= dist -> segments fuel dist h = Ok (points_for dist h).
Proof.
  intros H L. destruct (points_big dist h H L) as (N & _).
  assert (E : Qeqb h 0 = false) by (destruct (Qeqb h 0) eqn:E; [qbool; lra|reflexivity]).
  assert (E2 : (points_for dist h <=? 2)%nat = false) by (apply Nat.leb_gt; lia).
  destruct fuel; cbn [segments]; rewrite E, E2; reflexivity.
Qed.

(** ** Changes of conjunctions *)
Lemma changes_and A B m : forall s,
  (changes (map (fun k => A k && B k) (seq s m)) <= changes (map A (seq s m)) + changes (map B (seq s m)))%nat.
Proof.
  induction m as [|m IH]; intro s; [cbn; lia|]. specialize (IH (S s)).
  destruct m as [|m]; [cbn; lia|].
  change (seq s (S (S m))) with (s :: seq (S s) (S m)). cbn [map].
  change (seq (S s) (S m)) with (S s :: seq (S (S s)) m) in *. cbn [map] in *.
  cbn [changes] in *. destruct (A s), (B s), (A (S s)), (B (S s)); cbn [xorb andb] in *; lia.
Qed.

Lemma nth_error_same {A} (l : list A) : forall l', (forall k, nth_error l k = nth_error l' k) -> l = l'.
Proof.
  induction l as [|x l IH]; intros [|y l'] H; [reflexivity|specialize (H 0%nat); discriminate|specialize (H 0%nat); discriminate|].
  pose proof (H 0%nat) as H0. cbn in H0. inversion H0; subst. f_equal. apply IH. intro k. exact (H (S k)).
Qed.

Section SubProofs.
Variable P : Type.
Variable on : P -> Q -> Prop.
Variable inside : P -> bool.
Variable gdist : P -> P -> Q.
Variable line : P -> P -> nat -> list P.
Variables D u v : Q.
Hypothesis GL : good_line P line.
Hypothesis EV : even_line P on line.
Hypothesis ME : measured P on gdist D.
Hypothesis IR : in_range P on inside u v.
Hypothesis DP : 0 < D.
Notation crossings := (crossings P inside). Notation crossing := (crossing P inside).

Lemma out p x : on p x -> (inside p = false <-> x < u \/ v < x).
Proof.
  intro O. pose proof (IR p x O) as I. split; intro H.
  - destruct (Qlt_le_dec x u); [now left|]. destruct (Qlt_le_dec v x); [now right|].
    destruct I as [_ I]. rewrite I in H by (split; assumption). discriminate.
  - destruct (inside p); [|reflexivity]. destruct I as [I _]. specialize (I eq_refl). lra.
Qed.
Lemma nb_at (l : list P) pq : In pq (neighbours P l) ->
  exists k, (S k < length l)%nat /\ nth_error l k = Some (fst pq) /\ nth_error l (S k) = Some (snd pq).
Proof.
  unfold neighbours. induction l as [|x [|y l] IH]; intro I.
  - destruct I.
  - destruct I.
  - cbn [tl combine] in I. destruct I as [<-|I].
    + exists 0%nat. cbn. repeat split. lia.
    + destruct (IH I) as (k & L & A & B). exists (S k). cbn [length] in *. repeat split; [lia|exact A|exact B].
Qed.
Section Leg.
Variables a b : P.
Variables s t : Q.
Hypothesis Oa : on a s.
Hypothesis Ob : on b t.
Hypothesis ST : s < t.
Variable n : nat.
Hypothesis N : (0 < n)%nat.
Let at_ k := s + (t - s) * frac k n.
Lemma at_le i j : (i <= j)%nat -> at_ i <= at_ j.
Proof. intro L. pose proof (frac_le i j n N L). unfold at_. nra. Qed.
Lemma at_0 : at_ 0 == s.
Proof. unfold at_. rewrite frac_0. lra. Qed.
Lemma at_n : at_ n == t.
Proof. unfold at_. rewrite (frac_n n N). lra. Qed.
Lemma at_S k : at_ (S k) == at_ k + (t - s) / inject_Z (Z.of_nat n).
Proof. unfold at_, Qdiv. rewrite (frac_S k n N). lra. Qed.
Lemma at_lt i j : at_ i < at_ j -> (i < j)%nat.
Proof. intro H. destruct (Nat.lt_ge_cases i j) as [L|L]; [exact L|]. apply at_le in L. lra. Qed.
Lemma at_in k : (k <= n)%nat -> s <= at_ k <= t.
Proof. intro L. pose proof (at_le 0 k ltac:(lia)). pose proof (at_le k n L). rewrite at_0 in *. rewrite at_n in *. lra. Qed.
Lemma sample k x : nth_error (line a b n) k = Some x -> on x (at_ k).
Proof. destruct (EV a b s t n Oa Ob ST N) as [_ H]. apply H. Qed.
Lemma samples : length (line a b n) = S n.
Proof. now destruct (EV a b s t n Oa Ob ST N). Qed.
Lemma flag k x : nth_error (line a b n) k = Some x -> inside x = Qleb u (at_ k) && Qleb (at_ k) v.
Proof.
  intro E. apply sample in E. pose proof (IR _ _ E) as I. destruct (inside x) eqn:X.
  - destruct I as [I _]. specialize (I eq_refl). symmetry. apply andb_true_iff. now rewrite !Qleb_le.
  - apply (out _ _ E) in X. symmetry. apply andb_false_iff. rewrite !Qleb_gt. tauto.
Qed.
Lemma flags : map inside (line a b n) = map (fun k => Qleb u (at_ k) && Qleb (at_ k) v) (seq 0 (S n)).
Proof.
  apply nth_error_same. intro k. rewrite !nth_error_map.
  destruct (Nat.lt_ge_cases k (S n)) as [L|L].
  - assert (S1 : nth_error (seq 0 (S n)) k = Some k).
    { rewrite (nth_error_nth' _ 0%nat) by now rewrite seq_length. now rewrite seq_nth. }
    rewrite S1. cbn [option_map]. destruct (nth_error (line a b n) k) as [x|] eqn:E; cbn.
    + now rewrite (flag k x E).
    + apply nth_error_None in E. rewrite samples in E. lia.
  - assert (E1 : nth_error (line a b n) k = None) by (apply nth_error_None; rewrite samples; lia).
    assert (E2 : nth_error (seq 0 (S n)) k = None) by (apply nth_error_None; rewrite seq_length; lia).
    now rewrite E1, E2.
Qed.
Lemma at_most_two : (length (crossings (line a b n)) <= 2)%nat.
Proof.
  rewrite crossings_changes, flags.
  pose proof (changes_and (fun k => Qleb u (at_ k)) (fun k => Qleb (at_ k) v) (S n) 0) as H.
  assert (A : (changes (map (fun k => Qleb u (at_ k)) (seq 0 (S n))) <= 1)%nat).
  { apply changes_rev_mono. intros i j L E. qbool. apply Qleb_le. pose proof (at_le i j L). lra. }
  assert (B : (changes (map (fun k => Qleb (at_ k) v) (seq 0 (S n))) <= 1)%nat).
  { apply changes_mono. intros i j L E. qbool. apply Qleb_le. pose proof (at_le i j L). lra. }
  lia.
Qed.
Lemma parity : Nat.even (length (crossings (line a b n))) = negb (xorb (inside a) (inside b)).
Proof.
  destruct n as [|m]; [lia|]. destruct (GL a b m) as [mid E]. rewrite E, crossings_parity, last_last. reflexivity.
Qed.
Lemma crossing_at pq : In pq (crossings (line a b n)) ->
  exists k, (k < n)%nat /\ on (fst pq) (at_ k) /\ on (snd pq) (at_ (S k)) /\ xorb (inside (fst pq)) (inside (snd pq)) = true.
Proof.
  intro I. apply crossings_in in I. destruct I as [I X]. apply nb_at in I. destruct I as (k & L & A & B).
  rewrite samples in L. exists k. split; [lia|]. split; [now apply sample|]. split; [now apply sample|exact X].
Qed.
(** Without a crossing all samples are alike. *)
Lemma none_alike l x : crossings (x :: l) = [] -> Forall (fun p => inside p = inside x) (x :: l).
Proof.
  revert x. induction l as [|y l IH]; intros x E; [repeat constructor|].
  rewrite crossings_cons in E. destruct (xorb (inside x) (inside y)) eqn:X; [discriminate|]. cbn [app] in E.
  assert (Y : inside y = inside x) by (destruct (inside x), (inside y); try discriminate; reflexivity).
  constructor; [reflexivity|]. specialize (IH y E). rewrite Forall_forall in *. intros z I. rewrite (IH z I). exact Y.
Qed.
Lemma no_crossing k : crossings (line a b n) = [] -> (k <= n)%nat -> inside a = false -> at_ k < u \/ v < at_ k.
Proof.
  intros E K A. destruct (nth_error (line a b n) k) as [x|] eqn:X.
  - assert (inside x = false).
    { destruct n as [|m]; [lia|]. destruct (GL a b m) as [mid L]. rewrite L in *. apply none_alike in E.
      rewrite Forall_forall in E. rewrite (E x); [exact A|]. now apply nth_error_In in X. }
    now apply (out _ _ (sample _ _ X)).
  - apply nth_error_None in X. rewrite samples in X. lia.
Qed.
End Leg.

Definition finest (between : Q) (levels : list Q) : Q := fold_left Qdiv levels between.
(** One sampling of a segment at least [lo] long with samples wanted [h] apart: it is
    done, and neighbours are then at least [lo'] and less than [h] apart. *)
Definition sampled (h lo lo' : Q) : Prop :=
  0 < lo' /\ forall dist, lo <= dist -> exists n, segments (halvings h) dist h = Ok n /\ (3 <= n)%nat /\
    lo' <= dist / inject_Z (Z.of_nat n) /\ dist / inject_Z (Z.of_nat n) < h.
Inductive deep : Q -> list Q -> Q -> Prop :=
| Deep0 between lo : deep between [] lo
| Deep1 between d levels lo lo' : ~ d == 0 -> sampled (between / d) lo lo' -> deep (between / d) levels lo' ->
    deep between (d :: levels) lo.
Lemma fcp_on h a b n : segments (halvings h) (gdist a b) h = Ok n -> (0 < n)%nat ->
  find_crossing_points P inside gdist line a b h =
  Ok (start_of P inside a :: map crossing (crossings (line a b n)) ++ [end_of P inside b]).
Proof.
  intros SG N. unfold find_crossing_points. rewrite SG. destruct n as [|m]; [lia|]. destruct (GL a b m) as [mid E].
  rewrite E, find_crossing_spec, last_last. reflexivity.
Qed.
Lemma split_on between levels lo : deep between levels lo -> forall a b s t last,
  on a s -> on b t -> s < t -> lo <= (t - s) * D -> (t - s) * D < between ->
  (match last with Some l => l = crossing (a, b) | None => levels <> [] end) -> xorb (inside a) (inside b) = true ->
  exists p q s' t', split_down P inside gdist line a b between levels last = Ok (crossing (p, q)) /\
    inside p = inside a /\ inside q = inside b /\ on p s' /\ on q t' /\ s <= s' /\ s' < t' /\ t' <= t /\
    (t' - s') * D < finest between levels.
Proof.
  intro F. induction F as [between lo|between d levels lo lo' DZ [LP SA] F IH]; intros a b s t last Oa Ob ST LO HI LA X; cbn [split_down].
  - destruct last as [l|]; [subst l|now destruct LA]. exists a, b, s, t. repeat split; auto; lra.
  - assert (Z : Qeqb d 0 = false) by (destruct (Qeqb d 0) eqn:E; [qbool; contradiction|reflexivity]). rewrite Z.
    change (finest between (d :: levels)) with (finest (between / d) levels). set (h := between / d) in *. clearbody h.
    assert (DI : gdist a b == (t - s) * D) by (apply ME; auto; lra).
    destruct (SA (gdist a b) ltac:(lra)) as (n & SG & N3 & PL & PU). assert (N : (0 < n)%nat) by lia.
    rewrite (fcp_on _ _ _ _ SG N).
    pose proof (at_most_two a b s t Oa Ob ST n N) as M2. pose proof (parity a b 0 0 n N) as PA. rewrite X in PA.
    pose proof (fun pq => crossing_at a b s t Oa Ob ST n N pq) as CA.
    destruct (crossings (line a b n)) as [|[p q] [|pq2 [|pq3 rest]]] eqn:C; cbn in PA, M2; try discriminate; [|lia].
    cbn [map app]. destruct n as [|m]; [lia|].
    destruct (crossing_dir P inside line GL a b m (p, q) X C) as [Da Db]. cbn [fst snd] in Da, Db.
    assert (K : kind_eqb (c_kind P (crossing (p, q))) ENTER || kind_eqb (c_kind P (crossing (p, q))) EXIT = true).
    { unfold CrossSpec.crossing. cbn. destruct (inside q); reflexivity. }
    rewrite K. cbn [c_end CrossSpec.crossing snd c_begin fst].
    destruct (CA (p, q) ltac:(now left)) as (k & KN & Op & Oq & _). cbn [fst snd] in Op, Oq.
    set (s1 := s + (t - s) * frac k (S m)) in *. set (t1 := s + (t - s) * frac (S k) (S m)) in *.
    assert (AS : t1 == s1 + (t - s) / inject_Z (Z.of_nat (S m))) by exact (at_S s t (S m) N k).
    assert (I1 : s <= s1 <= t) by exact (at_in s t ST (S m) N k ltac:(lia)).
    assert (I2 : s <= t1 <= t) by exact (at_in s t ST (S m) N (S k) ltac:(lia)).
    clearbody s1 t1.
    assert (W : (t1 - s1) * D == gdist a b / inject_Z (Z.of_nat (S m))).
    { rewrite AS, DI. unfold Qdiv. ring. }
    assert (S1T1 : s1 < t1) by nra.
    destruct (IH p q s1 t1 (Some (crossing (p, q)))) as (p' & q' & s' & t' & E & Ip & Iq & Op' & Oq' & A1 & A2 & A3 & A4); auto.
    + lra.
    + lra.
    + now rewrite Da, Db.
    + exists p', q', s', t'. unfold CrossSpec.crossing in E at 1. cbn [snd fst] in E. 
      split; [exact E|]. split; [congruence|]. split; [congruence|].
      split; [exact Op'|]. split; [exact Oq'|]. split; [lra|]. split; [exact A2|]. split; [lra|].
      exact A4.
Qed.

(** ** The whole leg *)
Variables a b : P.
Hypothesis Oa : on a 0.
Hypothesis Ob : on b 1.
Variable between : Q.
Variable levels : list Q.
Variables shortest lo : Q.
Hypothesis DS : shortest <= D.
Hypothesis SA : sampled between shortest lo.
Hypothesis DE : deep between levels lo.
Hypothesis LN : levels <> [].
Notation hit := (hit P). Notation mkH := (mkH P). Notation h_kind := (h_kind P). Notation h_frac := (h_frac P). Notation h_place := (h_place P).
Notation right := (right P on D u v (finest between levels)).
Definition cond_of (h : hit) : cond P := mkC P (h_kind h) (h_place h) None.
Definition stands (n : nat) (pq : P * P) (h : hit) : Prop :=
  (exists k, (k < n)%nat /\ on (fst pq) (frac k n) /\ on (snd pq) (frac (S k) n) /\ frac k n <= h_frac h <= frac (S k) n) /\
  h_kind h = (if inside (snd pq) then ENTER else EXIT) /\ right h.
Lemma frac_in k n : (0 < n)%nat -> (k <= n)%nat -> 0 <= frac k n <= 1.
Proof.
  intros N K. pose proof (frac_le 0 k n N ltac:(lia)). pose proof (frac_le k n n N K). rewrite frac_0 in *. rewrite (frac_n n N) in *. lra.
Qed.
Hypothesis ONE : forall p x y, x == y -> on p x -> on p y.
Lemma refine_on n : (0 < n)%nat -> lo <= D / inject_Z (Z.of_nat n) -> D / inject_Z (Z.of_nat n) < between ->
  forall prs, (forall pq, In pq prs -> exists k, (k < n)%nat /\ on (fst pq) (frac k n) /\ on (snd pq) (frac (S k) n) /\
                                        xorb (inside (fst pq)) (inside (snd pq)) = true) ->
  exists hs, refine P inside gdist line between levels (map crossing prs) = Ok (map cond_of hs) /\ Forall2 (stands n) prs hs.
Proof.
  intros N LO HI. induction prs as [|[p q] prs IH]; intro A; cbn [map refine]; [exists []; split; [reflexivity|constructor]|].
  destruct (A (p, q) ltac:(now left)) as (k & K & Op & Oq & X). cbn [fst snd] in Op, Oq, X.
  cbn [CrossSpec.crossing c_end snd c_begin fst c_kind].
  pose proof (frac_S k n N) as FS. pose proof (frac_in k n N ltac:(lia)) as I1. pose proof (frac_in (S k) n N ltac:(lia)) as I2.
  assert (W : (frac (S k) n - frac k n) * D == D / inject_Z (Z.of_nat n)) by (rewrite FS; unfold Qdiv; ring).
  assert (LT : frac k n < frac (S k) n) by (destruct SA as [LP _]; nra).
  destruct (split_on between levels lo DE p q (frac k n) (frac (S k) n) None Op Oq LT ltac:(lra) ltac:(lra) LN X)
    as (p' & q' & s' & t' & E & Ip & Iq & Op' & Oq' & A1 & A2 & A3 & A4).
  rewrite E. cbv beta iota. unfold CrossSpec.crossing at 1 2 3. cbn [c_kind snd c_begin fst c_end]. rewrite Iq, kind_eqb_refl.
  destruct IH as (hs & R & F2); [intros pq I; apply A; now right|]. rewrite R.
  pose proof (IR _ _ Op') as RP. pose proof (IR _ _ Oq') as RQ. pose proof (out _ _ Op') as UP. pose proof (out _ _ Oq') as UQ.
  destruct (inside q) eqn:Q1; destruct (inside p) eqn:P1; try discriminate; cbn [kind_eqb].
  - exists (mkH ENTER q' t' :: hs). split; [reflexivity|]. constructor; [|exact F2]. split; [|split].
    + exists k. cbn. split; [exact K|]. split; [exact Op|]. split; [exact Oq|]. lra.
    + cbn. now rewrite Q1.
    + unfold SubSpec.right. cbn. rewrite Ip in UP. destruct UP as [UP _]. specialize (UP eq_refl).
      rewrite Iq in RQ. destruct RQ as [RQ _]. specialize (RQ eq_refl).
      split; [exact Oq'|]. split; [lra|]. split; [lra|]. split; [lra|]. nra.
  - exists (mkH EXIT p' s' :: hs). split; [reflexivity|]. constructor; [|exact F2]. split; [|split].
    + exists k. cbn. split; [exact K|]. split; [exact Op|]. split; [exact Oq|]. lra.
    + cbn. now rewrite Q1.
    + unfold SubSpec.right. cbn. rewrite Iq in UQ. destruct UQ as [UQ _]. specialize (UQ eq_refl).
      rewrite Ip in RP. destruct RP as [RP _]. specialize (RP eq_refl).
      split; [exact Op'|]. split; [lra|]. split; [lra|]. split; [lra|]. nra.
Qed.
Lemma leg_described : exists hs,
  get_intersections P inside gdist line a b between levels = Ok (map cond_of hs) /\
  describes P on D u v between (finest between levels) hs.
Proof.
  assert (DI : gdist a b == D) by (rewrite (ME a b 0 1 Oa Ob ltac:(lra)); ring).
  destruct SA as [LP SA']. destruct (SA' (gdist a b) ltac:(lra)) as (n & SG & N3 & PL & PU). assert (N : (0 < n)%nat) by lia.
  rewrite DI in PL, PU. pose proof (fcp_on _ _ _ _ SG N) as FC.
  assert (Z1 : 0 < 1) by lra.
  pose proof (at_most_two a b 0 1 Oa Ob Z1 n N) as M2. pose proof (parity a b 0 0 n N) as PA.
  assert (CA : forall pq, In pq (crossings (line a b n)) -> exists k, (k < n)%nat /\ on (fst pq) (frac k n) /\ on (snd pq) (frac (S k) n) /\
                                        xorb (inside (fst pq)) (inside (snd pq)) = true).
  { intros pq I. destruct (crossing_at a b 0 1 Oa Ob Z1 n N pq I) as (k & K & O1 & O2 & X). exists k.
    split; [exact K|]. split; [eapply ONE; [|exact O1]; ring|]. split; [eapply ONE; [|exact O2]; ring|exact X]. }
  destruct (refine_on n N PL PU _ CA) as (mid & R & F2).
  set (pre := if inside a then [mkH START_INSIDE a 0] else []). set (post := if inside b then [mkH END_INSIDE b 1] else []).
  exists (pre ++ mid ++ post). split.
  { unfold get_intersections. rewrite FC. cbn [tl]. rewrite removelast_last, R. cbn [rev]. rewrite rev_unit. cbn [app].
    rewrite !map_app. unfold pre, post, start_of, end_of. cbn [c_kind]. destruct (inside a), (inside b); reflexivity. }
  pose proof (IR _ _ Oa) as Ra. pose proof (IR _ _ Ob) as Rb. pose proof (out _ _ Oa) as Ua. pose proof (out _ _ Ob) as Ub.
  assert (TU : turns P (inside a) (map crossing (crossings (line a b n)))).
  { destruct n as [|m]; [lia|]. destruct (GL a b m) as [md E]. rewrite E. apply crossings_turn. }
  unfold pre, post. clear pre post R FC.
  destruct (inside a) eqn:A1, (inside b) eqn:B1; cbn [xorb negb] in PA.
  - (* inside at both ends *)
    destruct Ra as [Ra _]. specialize (Ra eq_refl). destruct Rb as [Rb _]. specialize (Rb eq_refl).
    assert (E : crossings (line a b n) = []).
    { destruct (crossings (line a b n)) as [|[p q] rest] eqn:C; [reflexivity|]. exfalso.
      cbn [map turns] in TU. destruct TU as [TU _]. unfold CrossSpec.crossing in TU. cbn in TU.
      destruct (inside q) eqn:Q1; [discriminate|].
      destruct (CA (p, q) ltac:(now left)) as (k & K & Op & Oq & X). cbn [fst snd] in *.
      apply (out _ _ Oq) in Q1. pose proof (frac_in (S k) n N ltac:(lia)). lra. }
    rewrite E in F2. inversion F2; subst. cbn [app]. unfold describes. cbn.
    split; [unfold one_visit; tauto|]. split; [lra|]. split.
    { constructor; [|constructor; [|constructor]]; unfold SubSpec.right; cbn; (split; [assumption|]); lra. }
    split; [split; [intros _; eexists; split; [left; reflexivity|reflexivity]|intros _; lra]|].
    split; [split; [intros _; eexists; split; [right; left; reflexivity|reflexivity]|intros _; lra]|]. discriminate.
  - (* leaving *)
    destruct Ra as [Ra _]. specialize (Ra eq_refl). destruct Ub as [Ub _]. specialize (Ub eq_refl).
    destruct (crossings (line a b n)) as [|[p q] [|pq2 [|pq3 rest]]] eqn:C; cbn in PA, M2; try discriminate; [|lia].
    cbn [map turns] in TU. destruct TU as [TU _]. unfold CrossSpec.crossing in TU. cbn in TU.
    destruct (inside q) eqn:Q1; [discriminate|].
    inversion F2 as [|? h ? ? S1 F2']; subst. inversion F2'; subst. destruct S1 as (_ & K1 & R1). cbn [snd] in K1. rewrite Q1 in K1.
    cbn [app]. unfold describes. cbn [map SubSpec.h_kind SubSpec.h_frac ordered]. rewrite K1. pose proof R1 as (_ & G1 & G2' & _).
    split; [unfold one_visit; tauto|]. split; [lra|]. split.
    { constructor; [|constructor; [exact R1|constructor]]. unfold SubSpec.right; cbn. split; [assumption|]. lra. }
    split; [split; [intros _; eexists; split; [left; reflexivity|reflexivity]|intros _; lra]|].
    split; [split; [lra|intros (h' & [<-|[<-|[]]] & H); [discriminate|congruence]]|]. discriminate.
  - (* arriving *)
    destruct Rb as [Rb _]. specialize (Rb eq_refl). destruct Ua as [Ua _]. specialize (Ua eq_refl).
    destruct (crossings (line a b n)) as [|[p q] [|pq2 [|pq3 rest]]] eqn:C; cbn in PA, M2; try discriminate; [|lia].
    cbn [map turns] in TU. destruct TU as [TU _]. unfold CrossSpec.crossing in TU. cbn in TU.
    destruct (inside q) eqn:Q1; [|discriminate].
    inversion F2 as [|? h ? ? S1 F2']; subst. inversion F2'; subst. destruct S1 as (_ & K1 & R1). cbn [snd] in K1. rewrite Q1 in K1.
    cbn [app]. unfold describes. cbn [map SubSpec.h_kind SubSpec.h_frac ordered]. rewrite K1. pose proof R1 as (_ & G1 & G2' & _).
    split; [unfold one_visit; tauto|]. split; [lra|]. split.
    { constructor; [exact R1|constructor; [|constructor]]. unfold SubSpec.right; cbn. split; [assumption|]. lra. }
    split; [split; [lra|intros (h' & [<-|[<-|[]]] & H); [congruence|discriminate]]|].
    split; [split; [intros _; eexists; split; [right; left; reflexivity|reflexivity]|intros _; lra]|]. discriminate.
  - (* passing, or not *)
    destruct Ua as [Ua _]. specialize (Ua eq_refl). destruct Ub as [Ub _]. specialize (Ub eq_refl). cbn [app]. rewrite app_nil_r.
    destruct (crossings (line a b n)) as [|[p q] [|[p2 q2] [|pq3 rest]]] eqn:C; cbn in PA, M2; try discriminate; [| |lia].
    + inversion F2; subst. unfold describes. cbn [map ordered].
      split; [unfold one_visit; tauto|]. split; [exact I|]. split; [constructor|].
      split; [split; [lra|intros (h' & [] & _)]|]. split; [split; [lra|intros (h' & [] & _)]|].
      intros _ (x & X1 & X2). assert (U0 : 0 < u) by lra. assert (V1 : v < 1) by lra.
      split; [exact U0|]. split; [exact V1|].
      (* the first sample at or after u is not in range *)
      pose proof (natQ n N) as NP.
      set (z := Qceiling (u * inject_Z (Z.of_nat n))).
      assert (Z0 : (0 <= z)%Z).
      { unfold z. change 0%Z with (Qceiling 0). apply Qceiling_resp_le. nra. }
      pose proof (Qle_ceiling (u * inject_Z (Z.of_nat n))) as C1. pose proof (Qceiling_lt (u * inject_Z (Z.of_nat n))) as C2.
      fold z in C1, C2. unfold Z.sub in C2. rewrite inject_Z_plus in C2. change (inject_Z (- (1))) with (- (1)) in C2.
      assert (EZ : inject_Z (Z.of_nat (Z.to_nat z)) == inject_Z z) by (rewrite Z2Nat.id by lia; reflexivity).
      assert (K1 : u <= frac (Z.to_nat z) n).
      { unfold frac. rewrite EZ. apply Qle_shift_div_l; [exact NP|]. exact C1. }
      assert (ZN : (Z.to_nat z <= n)%nat).
      { assert (z <= Z.of_nat n)%Z; [|lia]. rewrite <- (Qceiling_Z (Z.of_nat n)). unfold z. apply Qceiling_resp_le.
        assert (U1 : u <= 1) by lra. nra. }
      assert (K2 : frac (Z.to_nat z) n < u + / inject_Z (Z.of_nat n)).
      { unfold frac. rewrite EZ. apply Qlt_shift_div_r; [exact NP|].
        setoid_replace ((u + / inject_Z (Z.of_nat n)) * inject_Z (Z.of_nat n)) with (u * inject_Z (Z.of_nat n) + 1) by (field; lra). lra. }
      pose proof (no_crossing a b 0 1 Oa Ob Z1 n N (Z.to_nat z) C ZN A1) as NC.
      assert (EF : 0 + (1 - 0) * frac (Z.to_nat z) n == frac (Z.to_nat z) n) by ring. rewrite EF in NC.
      assert (VU : v - u < / inject_Z (Z.of_nat n)) by lra.
      assert (DV : D / inject_Z (Z.of_nat n) == / inject_Z (Z.of_nat n) * D) by (unfold Qdiv; ring). nra.
    + cbn [map turns] in TU. destruct TU as [TU [TV _]]. unfold CrossSpec.crossing in TU, TV. cbn in TU, TV.
      destruct (inside q) eqn:Q1; [|discriminate]. destruct (inside q2) eqn:Q2; [discriminate|].
      inversion F2 as [|? h ? ? S1 F2']; subst. inversion F2' as [|? h2 ? ? S2 F2'']; subst. inversion F2''; subst.
      destruct S1 as ((k & K & Op & Oq & KF) & K1 & R1). destruct S2 as ((k2 & KK2 & Op2 & Oq2 & KF2) & K2 & R2).
      cbn [fst snd] in *. rewrite Q1 in K1. rewrite Q2 in K2.
      destruct (CA (p, q) ltac:(now left)) as (_ & _ & _ & _ & X). destruct (CA (p2, q2) ltac:(right; now left)) as (_ & _ & _ & _ & X2).
      cbn [fst snd] in X, X2. rewrite Q1 in X. rewrite Q2 in X2.
      assert (P1 : inside p = false) by (destruct (inside p); [discriminate|reflexivity]).
      assert (P2 : inside p2 = true) by (destruct (inside p2); [reflexivity|discriminate]).
      apply (out _ _ Op) in P1. apply (IR _ _ Op2) in P2. apply (IR _ _ Oq) in Q1.
      pose proof (frac_le k (S k) n N ltac:(lia)) as LK.
      assert (KK : (k < k2)%nat) by (apply (frac_lt_inv k k2 n N); lra).
      pose proof (frac_le (S k) k2 n N ltac:(lia)) as LK2.
      unfold describes. cbn [map ordered]. rewrite K1, K2.
      split; [unfold one_visit; tauto|]. split; [lra|]. split; [constructor; [exact R1|constructor; [exact R2|constructor]]|].
      split; [split; [lra|intros (h' & [<-|[<-|[]]] & H); congruence]|].
      split; [split; [lra|intros (h' & [<-|[<-|[]]] & H); congruence]|]. discriminate.
Qed.
End SubProofs.

(** ** Which legs are long enough *)
Lemma points_two dist h : 0 < h -> dist < 2 * h -> (points_for dist h <= 2)%nat.
Proof.
  intros H L. unfold points_for. assert (dist / h < 2) by (apply Qlt_shift_div_r; lra).
  pose proof (Qfloor_le (dist / h)) as F. assert (X : inject_Z (Qfloor (dist / h)) < inject_Z 2) by (change (inject_Z 2) with 2; lra).
  rewrite <- Zlt_Qlt in X. lia.
Qed.
Lemma segments_half fuel dist h : 0 < h -> dist < 2 * h -> 200 <= h -> segments (S fuel) dist h = segments fuel dist (h / 2).
Proof.
  intros H L B. cbn [segments].
  assert (E : Qeqb h 0 = false) by (destruct (Qeqb h 0) eqn:E; [qbool; lra|reflexivity]).
  pose proof (points_two dist h H L) as P2. apply Nat.leb_le in P2. rewrite E, P2.
  assert (E2 : Qltb (h / 2) 100 = false) by (apply Qltb_ge; apply Qle_shift_div_l; lra). now rewrite E2.
Qed.
(** The sampling is done if halving gets to half the distance before it gets below 100. *)
Lemma segments_found k : forall fuel dist h, 0 < h -> (k <= fuel)%nat -> 2 * halved h k <= dist -> (k = 0%nat \/ 100 <= halved h k) ->
  exists j, (j <= k)%nat /\ segments fuel dist h = Ok (points_for dist (halved h j)) /\ 2 * halved h j <= dist /\ 0 < halved h j.
Proof.
  induction k as [|k IH]; intros fuel dist h H F L B.
  - exists 0%nat. cbn in *. rewrite segments_big by assumption. auto.
  - destruct (Qlt_le_dec dist (2 * h)) as [S1|G].
    + destruct fuel as [|fuel]; [lia|]. cbn [halved] in *.
      assert (H2 : h / 2 == h * (1 # 2)) by field.
      assert (100 <= h / 2).
      { destruct B as [B|B]; [discriminate|]. assert (HL : forall m x, 0 < x -> halved x m <= x).
        { clear. induction m as [|m IH]; intros x X; cbn [halved]; [lra|].
          assert (E : x / 2 == x * (1 # 2)) by field. specialize (IH (x / 2) ltac:(lra)). lra. }
        specialize (HL k (h / 2) ltac:(lra)). lra. }
      rewrite segments_half by lra.
      destruct (IH fuel dist (h / 2) ltac:(lra) ltac:(lia) L) as (j & J & E & G & Z).
      { destruct B as [B|B]; [discriminate|now right]. }
      exists (S j). cbn [halved]. split; [lia|]. auto.
    + exists 0%nat. cbn. rewrite segments_big by assumption. split; [lia|]. auto.
Qed.
Lemma sampled_big h : 0 < h -> sampled h (2 * h) ((2 # 3) * h).
Proof.
  intro H. split; [lra|]. intros dist L. exists (points_for dist h). rewrite segments_big by assumption.
  destruct (points_big dist h H L) as (N & A & B). auto.
Qed.
Lemma sampled_more h lo lo1 lo' : lo <= lo1 -> sampled h lo lo' -> sampled h lo1 lo'.
Proof. intros L [A B]. split; [exact A|]. intros dist G. apply B. lra. Qed.
Lemma deep_big levels : Forall (fun d => 3 <= d) levels -> forall between, 0 < between -> deep between levels ((2 # 3) * between).
Proof.
  intro F. induction F as [|d levels L F IH]; intros between B; [constructor|].
  assert (HP : 0 < between / d) by (apply Qlt_shift_div_l; lra).
  apply Deep1 with (lo' := (2 # 3) * (between / d)); [lra| |now apply IH].
  apply sampled_more with (lo := 2 * (between / d)); [|now apply sampled_big].
  assert (E : between == (between / d) * d) by (field; lra). set (y := between / d) in *. clearbody y. nra.
Qed.
Lemma sampled_halved h k : 0 < h -> 100 <= halved h k -> (k <= halvings h)%nat -> sampled h (2 * halved h k) ((2 # 3) * halved h k).
Proof.
  intros H B K.
  assert (HP : forall m x, 0 < x -> 0 < halved x m /\ halved x m <= x).
  { clear. induction m as [|m IH]; intros x X; cbn [halved]; [lra|].
    assert (E : x / 2 == x * (1 # 2)) by field. specialize (IH (x / 2) ltac:(lra)). lra. }
  assert (MO : forall j m x, (j <= m)%nat -> 0 < x -> halved x m <= halved x j).
  { clear - HP. induction j as [|j IH]; intros m x L X; [cbn; now apply HP|].
    destruct m as [|m]; [lia|]. cbn [halved]. apply IH; [lia|]. assert (E : x / 2 == x * (1 # 2)) by field. lra. }
  destruct (HP k h H). split; [lra|]. intros dist L.
  destruct (segments_found k (halvings h) dist h H K L ltac:(now right)) as (j & J & E & G & Z).
  exists (points_for dist (halved h j)). split; [exact E|].
  destruct (points_big dist (halved h j) Z G) as (N & A & C). split; [exact N|].
  pose proof (MO j k h J H). destruct (HP j h H). split; lra.
Qed.
(** The distances subdivide_intersection uses: 9260, 926 and 46.3 metres. *)
Lemma sampled_926 : sampled (9260 / 10) (9260 # 24) (926 # 10).
Proof.
  split; [lra|]. intros dist L. change (9260 / 10) with (9260 # 10).
  assert (K : (3 <= halvings (9260 # 10))%nat) by (unfold halvings; change (Qceiling (9260 # 10)) with 926%Z; lia).
  destruct (segments_found 3 (halvings (9260 # 10)) dist (9260 # 10) ltac:(lra) K) as (j & J & E & G & Z).
  { change (halved (9260 # 10) 3) with (9260 # 80). lra. }
  { right. change (halved (9260 # 10) 3) with (9260 # 80). lra. }
  exists (points_for dist (halved (9260 # 10) j)). split; [exact E|].
  destruct (points_big dist (halved (9260 # 10) j) Z G) as (N & A & C). split; [exact N|].
  assert (HV : (halved (9260 # 10) j == 9260 # 10 \/ halved (9260 # 10) j == 9260 # 20 \/ halved (9260 # 10) j == 9260 # 40) \/
               halved (9260 # 10) j == 9260 # 80).
  { destruct j as [|[|[|[|j]]]]; [left; left|left; right; left|left; right; right|right|lia]; cbn; reflexivity. }
  split; [|destruct HV as [[HV|[HV|HV]]|HV]; lra].
  destruct HV as [HV|HV]; [destruct HV as [HV|[HV|HV]]; lra|].
  (* 3 or more segments of at most 115.75 *)
  clear E A C. set (h := halved (9260 # 10) j) in *. clearbody h.
  assert (DH : dist == (dist / h) * h) by (field; lra).
  pose proof (Qfloor_le (dist / h)) as FL.
  assert (Y3 : 3 < dist / h) by (apply Qlt_shift_div_l; [lra|]; lra).
  assert (F3 : (3 <= Qfloor (dist / h))%Z) by (change 3%Z with (Qfloor 3); apply Qfloor_resp_le; lra).
  assert (EN : inject_Z (Z.of_nat (points_for dist h)) == inject_Z (Qfloor (dist / h)) + 1).
  { unfold points_for. rewrite Z2Nat.id by lia. rewrite inject_Z_plus. reflexivity. }
  pose proof (natQ (points_for dist h) ltac:(lia)) as NP.
  apply Qle_shift_div_l; [exact NP|]. rewrite EN.
  destruct (Z_lt_le_dec (Qfloor (dist / h)) 4) as [F4|F4].
  - assert (E3 : Qfloor (dist / h) = 3%Z) by lia. rewrite E3. change (inject_Z 3) with 3.
    lra.
  - assert (Y4 : 4 <= inject_Z (Qfloor (dist / h))) by (change 4 with (inject_Z 4); now rewrite <- Zle_Qle).
    set (y := dist / h) in *. clearbody y. set (z := inject_Z (Qfloor y)) in *. clearbody z. rewrite DH, HV. lra.
Qed.
Lemma deep_9260 : deep 9260 [10; 20] (9260 # 24).
Proof.
  apply Deep1 with (lo' := 926 # 10); [lra|exact sampled_926|].
  change (9260 / 10) with (9260 # 10). apply Deep1 with (lo' := (2 # 3) * (9260 # 200)); [lra| |constructor].
  change ((9260 # 10) / 20) with (9260 # 200).
  apply sampled_more with (lo := 2 * (9260 # 200)); [|apply sampled_big]; lra.
Qed.
Lemma sampled_9260 : sampled 9260 (9260 # 8) (9260 # 24).
Proof.
  assert (K : (4 <= halvings 9260)%nat) by (unfold halvings; change (Qceiling 9260) with 9260%Z; lia).
  pose proof (sampled_halved 9260 4 ltac:(lra) ltac:(change (halved 9260 4) with (9260 # 16); lra) K) as [A B]. change (halved 9260 4) with (9260 # 16) in B. split; [lra|].
  intros dist L. destruct (B dist) as (n & E & N & X & Y).
  - lra.
  - exists n. split; [exact E|]. split; [exact N|]. split; [|exact Y]. lra.
Qed.
Lemma segments_none fuel dist h : 0 < h -> dist < 2 * h -> h < 200 -> segments fuel dist h = Err TooSmall.
Proof.
  intros H L B.
  assert (E : Qeqb h 0 = false) by (destruct (Qeqb h 0) eqn:E; [qbool; lra|reflexivity]).
  pose proof (points_two dist h H L) as P2. apply Nat.leb_le in P2.
  assert (E2 : Qltb (h / 2) 100 = true) by (apply Qltb_lt; apply Qlt_shift_div_r; lra).
  destruct fuel; cbn [segments]; rewrite E, P2, E2; reflexivity.
Qed.
Lemma segments_short dist : dist < 9260 # 32 -> segments (halvings 9260) dist 9260 = Err TooSmall.
Proof.
  intro L. assert (H : exists f, halvings 9260 = (6 + f)%nat).
  { exists (halvings 9260 - 6)%nat. unfold halvings. change (Qceiling 9260) with 9260%Z. lia. }
  destruct H as [f ->]. cbn [Nat.add].
  rewrite segments_half by lra. change (9260 / 2) with (9260 # 2).
  rewrite segments_half by lra. change ((9260 # 2) / 2) with (9260 # 4).
  rewrite segments_half by lra. change ((9260 # 4) / 2) with (9260 # 8).
  rewrite segments_half by lra. change ((9260 # 8) / 2) with (9260 # 16).
  rewrite segments_half by lra. change ((9260 # 16) / 2) with (9260 # 32).
  rewrite segments_half by lra. change ((9260 # 32) / 2) with (9260 # 64).
  apply segments_none; lra.
Qed.
