(** Proofs for motion between locations whose heights may be in altitude units. *)
From Coq Require Import Reals List Bool String Lra Psatz Field.
From Verif Require Import LocModel LocSpec LocProofs AltModel LinSpec AltSpec.
From Verif Require GeoModel GeoSpec PairModel LinModel LinProofs.
Import ListNotations.
Open Scope R_scope.

Lemma apart_is_by : forall a b, apart_by a b = apart a b.
Proof. intros [[ax ay] az] [[bx by_] bz]. rewrite apart_form. reflexivity. Qed.
Lemma apart_same : forall a, apart a a = 0.
Proof. intro a. rewrite <- apart_is_by. apply apart_zero. reflexivity. Qed.
Lemma apart_nn : forall a b, 0 <= apart a b.
Proof. intros. apply sqrt_pos. Qed.
Lemma apart_none : forall a b, apart a b = 0 <-> a = b.
Proof. intros a b. rewrite <- apart_is_by. apply apart_zero. Qed.
Lemma apart_tri : forall a b c, apart a c <= apart a b + apart b c.
Proof. intros. rewrite <- !apart_is_by. apply apart_triangle. Qed.
Lemma apart_swap : forall a b, apart a b = apart b a.
Proof. exact LinProofs.apart_sym. Qed.
Lemma slack_tol : tolerance = SLACK. Proof. unfold tolerance, SLACK. lra. Qed.
Lemma slack_pos : 0 < SLACK. Proof. unfold SLACK. lra. Qed.
Lemma div_ok : forall a b, b <> 0 -> div a b = Ret (a / b).
Proof. intros a b H. unfold div. rewrite LinProofs.Rzero_false by exact H. reflexivity. Qed.

Section Units.
Variables (st : stage) (f : R).
Hypothesis UNITS : forall x, GeoModel.unit_convert x (altitude_units st) (dist_units st) = GeoModel.Ok (x * f).
Variable speed : R.
Hypothesis S : 0 < speed.
Notation at_ := (spot f).

Fixpoint legs_of (a : cart) (ws : list cart) : list leg :=
  match ws with
  | [] => []
  | b :: ws' => mkLeg (apart (at_ a) (at_ b) / speed) a (LinModel.vsub (at_ b) (at_ a)) :: legs_of b ws'
  end.
Lemma sub_ok : forall c d, cart_sub st c (Cart d) = Ret (apart (at_ c) (at_ d)).
Proof. intros c d. rewrite (cart_sub_ok st f) by (left; exact UNITS). rewrite apart_is_by. reflexivity. Qed.
Lemma arr_ok : forall c, as_array st c = Ret (at_ c).
Proof. intro c. apply array_ok. left. exact UNITS. Qed.
Lemma setup_ok : forall ws a, setup st speed a ws = Gives (legs_of a ws).
Proof.
  induction ws as [|b ws IH]; intro a; [reflexivity|]. cbn [setup legs_of]. rewrite sub_ok, !arr_ok. unfold obind. rewrite div_ok by lra. rewrite IH.
  rewrite (apart_swap (at_ b)). reflexivity.
Qed.

(** ** The steady motion *)
Lemma going_at : forall a b t, a <> b -> 0 <= t -> apart a (going a b speed t) = speed * t.
Proof.
  intros a b t N T. assert (P := LinProofs.apart_pos a b N). rewrite apart_swap. unfold going.
  set (u := t * speed / apart a b). assert (0 <= u) by (unfold u; apply Rmult_le_pos; [nra|left; apply Rinv_0_lt_compat; exact P]).
  assert (H1 := LinProofs.ray_time a b u H). rewrite LinProofs.ray_point in H1. change (LinModel.vnorm (LinModel.vsub (between a b u) a)) with (LinModel.dist (between a b u) a) in H1.
  rewrite LinProofs.dist_apart in H1. rewrite H1. unfold u. field. lra.
Qed.
Lemma going_past : forall a b t, a <> b -> apart a b / speed <= t -> apart b (going a b speed t) = speed * (t - apart a b / speed).
Proof.
  intros a b t N T. assert (P := LinProofs.apart_pos a b N). set (D := apart a b / speed) in *.
  assert (DP : 0 < D) by (apply Rdiv_lt_0_compat; assumption).
  assert (E : apart b (going a b speed t) = apart a (going a b speed (t - D))).
  { unfold apart at 1 2. f_equal. unfold going. assert (t * speed / apart a b = (t - D) * speed / apart a b + 1) as -> by (unfold D; field; lra).
    set (w := (t - D) * speed / apart a b). destruct a as [[a1 a2] a3], b as [[b1 b2] b3]. cbn [gap2 between]. ring. }
  rewrite E. apply going_at; [exact N|lra].
Qed.
Lemma between_same : forall a u, between a a u = a.
Proof. intros [[x y] z] u. cbn [between]. f_equal; [f_equal|]; ring. Qed.
Lemma place_near : forall ws a t, 0 <= t -> apart a (place speed a ws t) <= speed * t.
Proof.
  induction ws as [|b ws IH]; intros a t T; cbn [place].
  - rewrite apart_same. nra.
  - destruct (Rle_dec t (apart a b / speed)) as [L|L].
    + destruct (LinProofs.gap2_pos a b) as [G|G].
      * rewrite going_at; [lra| |exact T]. intros ->. rewrite (proj1 (LinProofs.apart_eq b b 0 (Rle_refl 0)) (apart_same b)) in G. lra.
      * symmetry in G. apply LinProofs.gap2_zero in G. subst b. unfold going. rewrite between_same, apart_same. nra.
    + assert (H := apart_tri a b (place speed b ws (t - apart a b / speed))). assert (H2 := IH b (t - apart a b / speed) ltac:(lra)).
      assert (speed * (t - apart a b / speed) = speed * t - apart a b) by (field; lra). lra.
Qed.

(** ** Where the state is *)
Definition where_ (l : leg) (along : R) : out cart :=
  get frac := div along (g_time l) in
  get a := as_array st (g_start l) in
  let '(x, y, z) := LinModel.vadd a (LinModel.vmul frac (g_vector l)) in
  Gives (mkCart x y z false).
Lemma where_ok : forall a b t, at_ a <> at_ b ->
  exists p, where_ (mkLeg (apart (at_ a) (at_ b) / speed) a (LinModel.vsub (at_ b) (at_ a))) t = Gives p /\ use_alt p = false /\ at_ p = going (at_ a) (at_ b) speed t.
Proof.
  intros a b t N. assert (P := LinProofs.apart_pos _ _ N). unfold where_. cbn [g_time g_start g_vector].
  rewrite div_ok by (assert (0 < apart (at_ a) (at_ b) / speed) by (apply Rdiv_lt_0_compat; assumption); lra).
  rewrite arr_ok. cbn [obind]. rewrite LinProofs.ray_point. unfold going.
  assert (t / (apart (at_ a) (at_ b) / speed) = t * speed / apart (at_ a) (at_ b)) as -> by (field; lra).
  destruct (between (at_ a) (at_ b) (t * speed / apart (at_ a) (at_ b))) as [[x y] z]. eexists. split; [reflexivity|]. split; reflexivity.
Qed.
Definition find_ (ls : list leg) (e s : R) : out cart :=
  match get_index ls e s with None => Sim | Some (l, w) => where_ l (e - w) end.
Lemma active_find : forall ls v e, 0 < e -> active st ls v e = find_ ls e 0.
Proof.
  intros ls v e H. unfold active, find_, where_. unfold GeoModel.Rltb. destruct (Rlt_dec e 0); [lra|].
  rewrite LinProofs.Rzero_false by lra. reflexivity.
Qed.
Lemma lasts_nn : forall ws a, 0 <= lasts speed a ws.
Proof.
  induction ws as [|b ws IH]; intro a; cbn [lasts]; [lra|].
  assert (0 <= apart a b / speed) by (apply Rmult_le_pos; [apply apart_nn|left; apply Rinv_0_lt_compat; exact S]). specialize (IH b). lra.
Qed.
Lemma leg_nn : forall a b, 0 <= apart a b / speed.
Proof. intros. apply Rmult_le_pos; [apply apart_nn|left; apply Rinv_0_lt_compat; exact S]. Qed.

Lemma find_ok : forall ws a e s,
  s < e -> e <= s + lasts speed (at_ a) (map at_ ws) + SLACK -> ws <> [] ->
  (s + SLACK < e \/ match ws with [] => True | b :: _ => at_ a <> at_ b end) ->
  exists p, find_ (legs_of a ws) e s = Gives p /\ use_alt p = false /\
    apart (at_ p) (place speed (at_ a) (map at_ ws) (e - s)) <= 2 * speed * SLACK /\
    ((forall t, In t (arrivals speed (at_ a) (map at_ ws) s) -> e <= t \/ t + SLACK < e) ->
     at_ p = place speed (at_ a) (map at_ ws) (e - s)).
Proof.
  pose proof slack_pos as SP.
  induction ws as [|b ws IH]; intros a e s L U NE O; [contradiction|].
  unfold find_. cbn [legs_of get_index map lasts arrivals place] in *. cbn [g_time]. rewrite slack_tol.
  assert (D0 := leg_nn (at_ a) (at_ b)). set (D := apart (at_ a) (at_ b) / speed) in *.
  destruct (LinProofs.Rleb_spec e (s + D + SLACK)) as [[-> X]|[-> X]].
  - assert (N : at_ a <> at_ b).
    { intro E. assert (D = 0) by (unfold D; rewrite (proj2 (apart_none _ _) E); unfold Rdiv; ring). destruct O as [O|O]; [lra|]. contradiction. }
    replace (e - (s + D - D)) with (e - s) by ring.
    destruct (where_ok a b (e - s) N) as [p [W [P1 P2]]]. fold D in W. exists p. split; [exact W|]. split; [exact P1|]. rewrite P2.
    destruct (Rle_dec (e - s) D) as [Y|Y].
    + split; [|reflexivity]. rewrite apart_same. nra.
    + split.
      * assert (T := apart_tri (going (at_ a) (at_ b) speed (e - s)) (at_ b) (place speed (at_ b) (map at_ ws) (e - s - D))).
        assert (T1 := going_past (at_ a) (at_ b) (e - s) N ltac:(fold D; lra)). rewrite apart_swap in T1. fold D in T1.
        assert (T2 := place_near (map at_ ws) (at_ b) (e - s - D) ltac:(lra)). assert (speed * (e - s - D) <= speed * SLACK) by (apply Rmult_le_compat_l; lra). lra.
      * intro Q. exfalso. destruct (Q (s + D)) as [Q'|Q']; [left; reflexivity| |]; lra.
  - destruct (Rle_dec (e - s) D) as [Y|Y]; [lra|].
    destruct ws as [|c ws].
    { exfalso. cbn [lasts map] in U. lra. }
    destruct (IH b e (s + D)) as [p [F [P1 [P2 P3]]]]; try lra; [discriminate|].
    exists p. unfold find_ in F. split; [exact F|]. split; [exact P1|]. replace (e - s - D) with (e - (s + D)) by ring. split; [exact P2|].
    intro Q. apply P3. intros t Ht. apply Q. right. exact Ht.
Qed.
Lemma find_over : forall ws a e s, s + lasts speed (at_ a) (map at_ ws) + SLACK < e -> find_ (legs_of a ws) e s = Sim.
Proof.
  induction ws as [|b ws IH]; intros a e s H; [reflexivity|].
  unfold find_. cbn [legs_of get_index map lasts] in *. cbn [g_time]. rewrite slack_tol.
  pose proof (lasts_nn (map at_ ws) (at_ b)). destruct (LinProofs.Rleb_spec e (s + apart (at_ a) (at_ b) / speed + SLACK)) as [[-> X]|[-> X]]; [lra|].
  apply (IH b). lra.
Qed.
Lemma place_end : forall ws a t, ws <> [] -> lasts speed a ws = t -> 0 < t -> place speed a ws t = List.last ws a.
Proof.
  induction ws as [|b ws IH]; intros a t NE L T; [contradiction|]. clear NE. cbn [lasts place] in *.
  pose proof (lasts_nn ws b) as LN. pose proof (leg_nn a b).
  destruct (Rle_dec t (apart a b / speed)) as [Y|Y].
  - assert (Z : lasts speed b ws = 0) by lra. assert (t = apart a b / speed) as -> by lra.
    assert (N : a <> b) by (intros ->; rewrite apart_same in T; lra).
    assert (G : going a b speed (apart a b / speed) = b).
    { replace (apart a b / speed) with (1 * (apart a b / speed)) by ring. rewrite (LinProofs.going_between speed S) by exact N. apply LinProofs.between_1. }
    rewrite G. clear - Z S. assert (W : forall ws b, lasts speed b ws = 0 -> List.last ws b = b).
    { clear ws b Z. induction ws as [|c ws IH]; intros b Z; [reflexivity|]. cbn [lasts] in Z. pose proof (lasts_nn ws c). pose proof (leg_nn b c).
      assert (apart b c = 0) by (assert (E : apart b c / speed = 0) by lra; assert (apart b c = apart b c / speed * speed) as -> by (field; lra); rewrite E; ring).
      apply apart_none in H1. subst c. destruct ws; [reflexivity|]. change (List.last (p :: ws) b = b). apply IH. lra. }
    destruct ws; [reflexivity|]. symmetry. change (List.last (p :: ws) a = b). transitivity (List.last (p :: ws) b); [|apply W; exact Z]. clear.
    revert p. induction ws as [|q ws IH]; intro p; [reflexivity|]. change (List.last (q :: ws) a = List.last (q :: ws) b). apply IH.
  - destruct ws as [|c ws]; [cbn [lasts] in L; lra|]. rewrite IH; [|discriminate|lra|lra].
    change (List.last (c :: ws) b = List.last (c :: ws) a). clear. revert c. induction ws as [|q ws IH]; intro p; [reflexivity|]. change (List.last (q :: ws) b = List.last (q :: ws) a). apply IH.
Qed.
Lemma arrive_late : forall ws a s t, In t (arrivals speed a ws s) -> t <= s + lasts speed a ws.
Proof.
  induction ws as [|b ws IH]; intros a s t H; [destruct H|]. cbn [arrivals lasts] in *. pose proof (lasts_nn ws b). destruct H as [<-|H]; [lra|]. apply IH in H. lra.
Qed.
End Units.

(** ** Other locations for the same places *)
Section Same.
Variables (st : stage) (f : R).
Hypothesis UNITS : forall x, GeoModel.unit_convert x (altitude_units st) (dist_units st) = GeoModel.Ok (x * f).
Variable speed : R.
Lemma find_same : forall ws ws' a a' e s, spot f a = spot f a' -> map (spot f) ws = map (spot f) ws' ->
  find_ st (legs_of f speed a ws) e s = find_ st (legs_of f speed a' ws') e s.
Proof.
  induction ws as [|b ws IH]; intros [|b' ws'] a a' e s A W; try discriminate; [reflexivity|]. assert (B : spot f b = spot f b') by exact (f_equal (List.hd (spot f b)) W).
  assert (W1 : map (spot f) ws = map (spot f) ws') by exact (f_equal (@List.tl _) W). clear W.
  unfold find_. cbn [legs_of get_index g_time]. rewrite A, B.
  destruct (LinModel.Rleb e _).
  - unfold where_. cbn [g_time g_start g_vector]. rewrite !(arr_ok st f UNITS). rewrite A. reflexivity.
  - apply (IH ws' b b'); assumption.
Qed.
End Same.

(** ** Detection *)
Section Detect.
Variables (st : stage) (f : R).
Hypothesis UNITS : forall x, GeoModel.unit_convert x (altitude_units st) (dist_units st) = GeoModel.Ok (x * f).
Variable speed : R.
Hypothesis S : 0 < speed.
Variables (a b c : cart) (r : R).
Notation at_ := (spot f).
Definition seen (x : cart * R * PairModel.kind) : point * R * PairModel.kind := let '(p, t, k) := x in (at_ p, t, k).

Lemma untuple_at : forall v, at_ (untuple v) = v.
Proof. intros [[x y] z]. reflexivity. Qed.
Lemma Rleb_iff : forall x y x' y', (x <= y <-> x' <= y') -> LinModel.Rleb x y = LinModel.Rleb x' y'.
Proof.
  intros. destruct (LinProofs.Rleb_spec x y) as [[-> A]|[-> A]]; destruct (LinProofs.Rleb_spec x' y') as [[-> B]|[-> B]]; try reflexivity; exfalso.
  - apply H in A. lra.
  - apply H in B. lra.
Qed.
(** Where the coordinates and the places agree on the ends. *)
Lemma detect_raw : apart (at_ a) (at_ b) = apart (tuple a) (tuple b) ->
  (inside (at_ c) r (at_ a) <-> inside (tuple c) r (tuple a)) -> (inside (at_ c) r (at_ b) <-> inside (tuple c) r (tuple b)) ->
  (inside (at_ c) r (at_ a) -> at_ a = tuple a) -> (inside (at_ c) r (at_ b) -> at_ b = tuple b) ->
  match LinModel.cartesian (tuple a) (tuple b) speed (tuple c) r with
  | PairModel.Ok (l, pt) => exists l', detect st a b speed c r = Gives (l', pt) /\ map seen l' = l
  | PairModel.Err e => detect st a b speed c r = of_pair (PairModel.Err e)
  end.
Proof.
  intros HD HA HB EA EB. unfold LinModel.cartesian, detect. rewrite !(sub_ok st f UNITS). cbn [obind]. rewrite div_ok by lra. cbn [obind].
  rewrite (LinProofs.Rzero_false speed) by lra. rewrite !LinProofs.dist_apart. cbv zeta.
  rewrite (apart_swap (at_ b)), (apart_swap (tuple b)), HD.
  rewrite (apart_swap (at_ c) (at_ a)), (apart_swap (at_ c) (at_ b)), (apart_swap (tuple c) (tuple a)), (apart_swap (tuple c) (tuple b)).
  rewrite (Rleb_iff (apart (at_ a) (at_ c)) r (apart (tuple a) (tuple c)) r) by exact HA.
  rewrite (Rleb_iff (apart (at_ b) (at_ c)) r (apart (tuple b) (tuple c)) r) by exact HB.
  set (P := apart (tuple a) (tuple b) / speed).
  destruct (LinProofs.Rleb_spec (apart (tuple a) (tuple c)) r) as [[-> IA]|[-> IA]];
  destruct (LinProofs.Rleb_spec (apart (tuple b) (tuple c)) r) as [[-> IB]|[-> IB]]; cbn [andb].
  1: { eexists. split; [reflexivity|]. cbn [map seen]. rewrite EA, EB by (apply HA || apply HB; assumption). reflexivity. }
  all: destruct (LinModel.ray_intersection _ _ _ _ _) as [l|e]; cbn [of_pair]; [|destruct e; reflexivity].
  all: destruct (forallb _ l); [eexists; split; reflexivity|].
  all: set (k := filter _ _); cbn [app].
  - rewrite !app_nil_r. destruct k as [|[p t] [|[q u] k]]; cbn [map fst snd]; try reflexivity.
    eexists. split; [reflexivity|]. cbn [map seen]. rewrite untuple_at. rewrite EA by (apply HA; assumption). reflexivity.
  - destruct k as [|[p t] k]; [reflexivity|]. destruct k as [|[q u] k]; cbn [map app fst snd]; [|destruct k; reflexivity].
    eexists. split; [reflexivity|]. cbn [map seen]. rewrite untuple_at. rewrite EB by (apply HB; assumption). reflexivity.
  - rewrite !app_nil_r. destruct k as [|[p t] [|[q u] [|x k]]]; cbn [map fst snd]; try reflexivity.
    eexists. split; [reflexivity|]. cbn [map seen]. rewrite !untuple_at. reflexivity.
Qed.
(** Both ends in range. *)
Lemma detect_both : inside (at_ c) r (at_ a) -> inside (at_ c) r (at_ b) ->
  detect st a b speed c r = Gives ([(a, 0, PairModel.START_INSIDE); (b, apart (at_ a) (at_ b) / speed, PairModel.END_INSIDE)], apart (at_ a) (at_ b) / speed).
Proof.
  unfold inside. intros HA HB. unfold detect. rewrite !(sub_ok st f UNITS). cbn [obind]. rewrite div_ok by lra. cbn [obind].
  rewrite (apart_swap (at_ c) (at_ a)), (apart_swap (at_ c) (at_ b)), (apart_swap (at_ b) (at_ a)).
  rewrite !(proj2 (LinProofs.Rleb_true _ _)) by assumption. reflexivity.
Qed.
(** Not both in range, and the coordinates never are. *)
Lemma detect_none : 0 < r -> tuple a <> tuple b -> ~ (inside (at_ c) r (at_ a) /\ inside (at_ c) r (at_ b)) ->
  (forall u, ~ inside (tuple c) r (between (tuple a) (tuple b) u)) ->
  detect st a b speed c r = Gives ([], -1).
Proof.
  unfold inside. intros R NE NB M. unfold detect. rewrite !(sub_ok st f UNITS). cbn [obind]. rewrite div_ok by lra. cbn [obind].
  rewrite (apart_swap (at_ c) (at_ a)), (apart_swap (at_ c) (at_ b)), (apart_swap (at_ b) (at_ a)).
  assert (N : (LinModel.Rleb (apart (at_ a) (at_ c)) r && LinModel.Rleb (apart (at_ b) (at_ c)) r = false)%bool).
  { apply not_true_iff_false. rewrite andb_true_iff, !LinProofs.Rleb_true. exact NB. }
  cbv zeta. rewrite N. assert (NZ : LinProofs.nonzero (r, r, r)) by (cbn; lra). rewrite LinProofs.ray_eq by assumption.
  destruct (LinProofs.found_cases (tuple a) (tuple b) (tuple c) (r, r, r) NZ NE) as [[-> _]|[r2 [r1 [H1 [H2 _]]]]]; [reflexivity|].
  exfalso. apply (M r2). apply LinProofs.level_le; [exact R|]. apply H2. lra.
Qed.
(** Whatever is reported, the kinds and the time of the path are right. *)
Lemma detect_kinds : forall l pt, detect st a b speed c r = Gives (l, pt) -> l <> [] ->
  pt = apart (at_ a) (at_ b) / speed /\ exists p t q u k1 k2, l = [(p, t, k1); (q, u, k2)] /\
    (inside (at_ c) r (at_ a) /\ k1 = PairModel.START_INSIDE /\ p = a /\ t = 0 \/ ~ inside (at_ c) r (at_ a) /\ k1 = PairModel.ENTER) /\
    (inside (at_ c) r (at_ b) /\ k2 = PairModel.END_INSIDE /\ q = b /\ u = pt \/ ~ inside (at_ c) r (at_ b) /\ k2 = PairModel.EXIT).
Proof.
  intros l pt. unfold detect, inside. rewrite !(sub_ok st f UNITS). cbn [obind]. rewrite div_ok by lra. cbn [obind].
  rewrite (apart_swap (at_ c) (at_ a)), (apart_swap (at_ c) (at_ b)), (apart_swap (at_ b) (at_ a)). cbv zeta. set (P := _ / speed).
  destruct (LinProofs.Rleb_spec (apart (at_ a) (at_ c)) r) as [[-> IA]|[-> IA]];
  destruct (LinProofs.Rleb_spec (apart (at_ b) (at_ c)) r) as [[-> IB]|[-> IB]]; cbn [andb].
  1: { intros E _. injection E as <- <-. split; [reflexivity|]. repeat eexists; left; auto. }
  all: destruct (of_pair _) as [x| | |]; try discriminate.
  all: destruct (forallb _ x); [intros E N; injection E as <- <-; contradiction|].
  all: set (k := map _ _); cbn [app]; intros E _.
  - rewrite app_nil_r in E. destruct k as [|[p t] [|? k]]; try discriminate. injection E as <- <-. split; [reflexivity|].
    do 6 eexists. split; [reflexivity|]. split; [left; auto|right; split; [lra|reflexivity]].
  - destruct k as [|[p t] [|[q u] k]]; cbn [app] in E; try discriminate; [|destruct k; discriminate]. injection E as <- <-. split; [reflexivity|].
    do 6 eexists. split; [reflexivity|]. split; [right; split; [lra|reflexivity]|left; auto].
  - rewrite app_nil_r in E. destruct k as [|[p t] [|[q u] [|? k]]]; try discriminate. injection E as <- <-. split; [reflexivity|].
    do 6 eexists. split; [reflexivity|]. split; right; split; try reflexivity; lra.
Qed.
End Detect.
