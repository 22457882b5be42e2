(** Properties of the crossings of a sampled path with a sensor's sphere: C44, C69. *)
From Coq Require Import Qround.
From Verif Require Import Common CrossModel CrossSpec CrossProofs.

(** C44: for any samples, find_crossing_points gives START_INSIDE or START_OUT by the
    first sample, one ENTER or EXIT for every change between neighbouring samples, in
    order and with these two samples, and END_INSIDE or END_OUT by the last; in
    particular no assertion fails. *)
Theorem C44_crossings P inside (p : P) rest :
  find_crossing P inside (p :: rest) =
  Ok (mkC P (if inside p then START_INSIDE else START_OUT) p None ::
      map (fun pq => mkC P (if inside (snd pq) then ENTER else EXIT) (fst pq) (Some (snd pq)))
          (crossings P inside (p :: rest)) ++
      [mkC P (if inside (last rest p) then END_INSIDE else END_OUT) (last rest p) None]).
Proof. apply find_crossing_spec. Qed.
(** Entries and exits take turns, beginning with an exit if the start is inside, and the
    end is inside just if the last of them (or the start) says so. *)
Theorem C44_turns P inside (p : P) rest :
  turns P (inside p) (map (crossing P inside) (crossings P inside (p :: rest))) /\
  (inside (last rest p) = inside p <-> Nat.even (length (crossings P inside (p :: rest))) = true).
Proof.
  split; [apply crossings_turn|]. rewrite crossings_parity.
  destruct (inside p), (inside (last rest p)); cbn; split; congruence.
Qed.
(** The whole function, with any way of sampling that runs from start to finish: at least
    3 segments, or IntersectionError. *)
Theorem C44_points P inside gdist line (a b : P) between : good_line P line -> 0 < between ->
  (exists k n l, find_crossing_points P inside gdist line a b between = Ok l /\ (3 <= n)%nat /\
     n = Z.to_nat (Qfloor (gdist a b / halved between k) + 1) /\ (k = 0%nat \/ 100 <= halved between k) /\
     l = start_of P inside a :: map (crossing P inside) (crossings P inside (line a b n)) ++ [end_of P inside b]) \/
  (find_crossing_points P inside gdist line a b between = Err TooSmall /\
   exists k, halved between (S k) < 100 /\
     forall j, (j <= k)%nat -> (Z.to_nat (Qfloor (gdist a b / halved between j) + 1) <= 2)%nat).
Proof.
  intros GL B. unfold find_crossing_points. destruct (segments _ _ _) as [n|e|] eqn:S1.
  - left. apply segments_ok in S1. destruct S1 as (k & EN & N & _ & K). exists k, n.
    destruct n as [|n]; [lia|]. destruct (GL a b n) as [mid E].
    rewrite E, find_crossing_spec. eexists. split; [reflexivity|]. rewrite last_last. auto.
  - right. assert (e = TooSmall) by (eapply segments_errors; eauto). subst e. split; [reflexivity|].
    apply segments_small in S1. destruct S1 as (k & H & L). exists k. split; [exact L|exact H].
  - destruct (segments_fuel _ _ _ (halvings_enough between) S1).
Qed.

(** C69: get_intersection_locations gives the start if inside, then for every crossing of
    the sampled path, in order, its kind and a place inside that lies next to a place
    outside on the finest sampling, then the end if inside. *)
Theorem C69_locations P inside gdist line (a b : P) between levels l : good_line P line -> levels <> [] ->
  get_intersections P inside gdist line a b between levels = Ok l ->
  exists n mid, (3 <= n)%nat /\ (exists k, n = Z.to_nat (Qfloor (gdist a b / halved between k) + 1) /\ (k = 0%nat \/ 100 <= halved between k)) /\
    l = (if inside a then [mkC P START_INSIDE a None] else []) ++ mid ++
        (if inside b then [mkC P END_INSIDE b None] else []) /\
    Forall2 (fun pq c => exists p q, between_samples P inside gdist line between levels pq (p, q) /\
               c = (if inside (snd pq) then mkC P ENTER q None else mkC P EXIT p None) /\
               inside p = inside (fst pq) /\ inside q = inside (snd pq))
            (crossings P inside (line a b n)) mid.
Proof.
  intros GL NE H. destruct (get_ok P inside gdist line GL a b between levels l NE H) as (n & mid & N & HK & -> & F).
  exists n, mid. split; [exact N|]. split; [exact HK|]. split.
  - unfold start_of, end_of. destruct (inside a), (inside b); reflexivity.
  - clear - F. induction F as [|pq c prs mid R F IH]; constructor; [|exact IH].
    destruct R as (p & q & B & Ip & Iq & ->). exists p, q.
    split; [exact B|]. split; [now destruct (inside (snd pq))|]. now split.
Qed.
(** ... so each of these places is inside. *)
Theorem C69_inside P inside gdist line (a b : P) between levels l : good_line P line -> levels <> [] ->
  get_intersections P inside gdist line a b between levels = Ok l ->
  forall c, In c l -> inside (c_begin P c) = true.
Proof.
  intros GL NE H c I. destruct (get_ok P inside gdist line GL a b between levels l NE H) as (n & mid & N & HK & -> & F).
  apply in_app_or in I. destruct I as [I|I]; [destruct (inside a) eqn:E; [destruct I as [<-|[]]; exact E|destruct I]|].
  apply in_app_or in I. destruct I as [I|I]; [|destruct (inside b) eqn:E; [destruct I as [<-|[]]; exact E|destruct I]].
  assert (X : Forall (fun pq => xorb (inside (fst pq)) (inside (snd pq)) = true) (crossings P inside (line a b n))).
  { rewrite Forall_forall. intros pq J. now apply crossings_in in J. }
  clear - F I X. induction F as [|pq c' prs mid R F IH]; [destruct I|].
  inversion X; subst. destruct I as [<-|I]; [|now apply IH].
  destruct R as (p & q & _ & Ip & Iq & ->). cbn. destruct (inside (snd pq)) eqn:E; [now rewrite Iq|].
  rewrite Ip. destruct (inside (fst pq)); [reflexivity|discriminate].
Qed.
(** If between an inner and an outer point a line crosses once, nothing but the refusal
    of a short segment can go wrong. *)
Theorem C69_made_partial P inside gdist line (a b : P) between levels : good_line P line -> crosses_once P inside line ->
  0 < between -> levels <> [] -> Forall (fun d => 0 < d) levels ->
  (exists l, get_intersections P inside gdist line a b between levels = Ok l) \/
  get_intersections P inside gdist line a b between levels = Err TooSmall.
Proof. intros. now apply get_total. Qed.

(** ** A model of the hypotheses: the number line *)
Definition place (a b : Q) (n k : nat) : Q := a + (b - a) * (inject_Z (Z.of_nat k) / inject_Z (Z.of_nat n)).
Definition qline (a b : Q) (n : nat) : list Q := a :: map (place a b n) (seq 1 (n - 1)) ++ [b].
Definition near (r x : Q) : bool := Qleb (- r) x && Qleb x r.
Lemma near_iff r x : near r x = true <-> - r <= x /\ x <= r.
Proof. unfold near. now rewrite andb_true_iff, !Qleb_le. Qed.
Lemma near_eq r x y : x == y -> near r x = near r y.
Proof.
  intro E. destruct (near r x) eqn:A, (near r y) eqn:B; try reflexivity.
  - apply near_iff in A. assert (near r y = true) by (apply near_iff; lra). congruence.
  - apply near_iff in B. assert (near r x = true) by (apply near_iff; lra). congruence.
Qed.
Fixpoint changes (l : list bool) : nat :=
  match l with
  | x :: l' => ((match l' with y :: _ => if xorb x y then 1 else 0 | [] => 0 end) + changes l')%nat
  | [] => 0%nat
  end.
Lemma crossings_changes P inside (l : list P) : length (crossings P inside l) = changes (map inside l).
Proof.
  induction l as [|p [|q l] IH]; [reflexivity|reflexivity|].
  rewrite crossings_cons, app_length, IH. cbn [map changes]. destruct (xorb (inside p) (inside q)); reflexivity.
Qed.
Lemma changes_mono g m : forall s, (forall i j, (i <= j)%nat -> g j = true -> g i = true) -> (changes (map g (seq s m)) <= 1)%nat.
Proof.
  induction m as [|m IH]; intros s G; [cbn; lia|]. destruct m as [|m]; [cbn; lia|].
  specialize (IH (S s) G). change (map g (seq s (S (S m)))) with (g s :: map g (seq (S s) (S m))).
  assert (Z : g (S s) = false -> changes (map g (seq (S s) (S m))) = 0%nat).
  { intro E. clear - G E. revert E. generalize (S s). induction m as [|m IH]; intros x E; [reflexivity|].
    change (map g (seq x (S (S m)))) with (g x :: map g (seq (S x) (S m))).
    assert (E' : g (S x) = false).
    { destruct (g (S x)) eqn:K; [|reflexivity]. assert (g x = true) by (apply (G x (S x)); [lia|exact K]). congruence. }
    specialize (IH (S x) E'). cbn [seq map changes] in *. rewrite E, E' in *. cbn [xorb]. exact IH. }
  cbn [changes]. destruct (map g (seq (S s) (S m))) as [|y r] eqn:R; [cbn in R; discriminate|].
  assert (y = g (S s)) by (cbn in R; now inversion R). subst y.
  destruct (g s) eqn:A, (g (S s)) eqn:B; cbn [xorb].
  - exact IH.
  - rewrite Z by reflexivity. lia.
  - assert (g s = true) by (apply (G s (S s)); [lia|exact B]). congruence.
  - rewrite Z by reflexivity. lia.
Qed.
Lemma changes_rev_mono g m : forall s, (forall i j, (i <= j)%nat -> g i = true -> g j = true) -> (changes (map g (seq s m)) <= 1)%nat.
Proof.
  induction m as [|m IH]; intros s G; [cbn; lia|]. destruct m as [|m]; [cbn; lia|].
  specialize (IH (S s) G). change (map g (seq s (S (S m)))) with (g s :: map g (seq (S s) (S m))).
  assert (Z : g (S s) = true -> changes (map g (seq (S s) (S m))) = 0%nat).
  { intro E. clear - G E. revert E. generalize (S s). induction m as [|m IH]; intros x E; [reflexivity|].
    change (map g (seq x (S (S m)))) with (g x :: map g (seq (S x) (S m))).
    assert (E' : g (S x) = true) by (apply (G x (S x)); [lia|exact E]).
    specialize (IH (S x) E'). cbn [seq map changes] in *. rewrite E, E' in *. cbn [xorb]. exact IH. }
  cbn [changes]. destruct (map g (seq (S s) (S m))) as [|y r] eqn:R; [cbn in R; discriminate|].
  assert (y = g (S s)) by (cbn in R; now inversion R). subst y.
  destruct (g s) eqn:A, (g (S s)) eqn:B; cbn [xorb].
  - exact IH.
  - assert (g (S s) = true) by (apply (G s (S s)); [lia|exact A]). congruence.
  - rewrite Z by reflexivity. lia.
  - exact IH.
Qed.
Lemma qline_good : good_line Q qline.
Proof. intros a b n. exists (map (place a b (S n)) (seq 1 (S n - 1))). reflexivity. Qed.
Lemma qline_flags r a b n : (0 < n)%nat -> map (near r) (qline a b n) = map (fun k => near r (place a b n k)) (seq 0 (S n)).
Proof.
  intro N. assert (NZ : ~ inject_Z (Z.of_nat n) == 0).
  { change 0 with (inject_Z 0). rewrite inject_Z_injective. lia. }
  assert (E0 : near r a = near r (place a b n 0)) by (apply near_eq; unfold place; cbn; field; exact NZ).
  assert (E1 : near r b = near r (place a b n n)) by (apply near_eq; unfold place; field; exact NZ).
  assert (S1 : seq 0 (S n) = 0%nat :: seq 1 (n - 1) ++ [n]).
  { cbn [seq]. f_equal. replace n with (S (n - 1)) at 1 by lia. rewrite seq_S. f_equal. f_equal. lia. }
  unfold qline. cbn [map]. rewrite map_app, S1. cbn [map]. rewrite map_app, E0, E1, map_map. reflexivity.
Qed.
Lemma qline_once r : crosses_once Q (near r) qline.
Proof.
  intros a b n X. rewrite crossings_changes. destruct n as [|n].
  - cbn. destruct (xorb _ _); lia.
  - rewrite qline_flags by lia. set (m := S n).
    assert (MP : 0 < inject_Z (Z.of_nat m)) by (change 0 with (inject_Z 0); rewrite <- Zlt_Qlt; unfold m; lia).
    assert (ST : forall i j, (i <= j)%nat -> 0 <= inject_Z (Z.of_nat i) / inject_Z (Z.of_nat m) <= inject_Z (Z.of_nat j) / inject_Z (Z.of_nat m)).
    { intros i j L. assert (0 <= inject_Z (Z.of_nat i) <= inject_Z (Z.of_nat j)).
      { change 0 with (inject_Z 0). rewrite <- !Zle_Qle. lia. }
      split; [apply Qle_shift_div_l; lra|]. apply Qle_shift_div_l; [exact MP|].
      setoid_replace (inject_Z (Z.of_nat i) / inject_Z (Z.of_nat m) * inject_Z (Z.of_nat m)) with (inject_Z (Z.of_nat i)); [lra|].
      field. lra. }
    assert (EX : forall k, exists x, x = inject_Z (Z.of_nat k) / inject_Z (Z.of_nat m)) by (intro k; eexists; reflexivity).
    destruct (near r a) eqn:A, (near r b) eqn:B; try discriminate.
    + apply changes_mono. intros i j L H. apply near_iff in A, H. apply near_iff. unfold place in *.
      specialize (ST i j L). destruct (EX i) as [x Hx], (EX j) as [y Hy]. rewrite <- Hx, <- Hy in *. clear Hx Hy EX.
      destruct (Qlt_le_dec a b); nra.
    + assert (B' : near r b = true -> near r (place a b m m) = true).
      { intro K. rewrite <- K. apply near_eq. unfold place. field. lra. }
      rewrite B in B'. specialize (B' eq_refl).
      (* beyond the end of the line nothing is sampled *)
      assert (CH : map (fun k => near r (place a b m k)) (seq 0 (S m)) = map (fun k => near r (place a b m (min k m))) (seq 0 (S m))).
      { apply map_ext_in. intros k I. apply in_seq in I. f_equal. f_equal. lia. }
      rewrite CH. apply changes_rev_mono. intros i j L H.
      apply near_iff in B', H. apply near_iff. unfold place in *.
      pose proof (ST (min i m) (min j m) ltac:(lia)) as S1. pose proof (ST (min j m) m ltac:(lia)) as S2.
      destruct (EX (min i m)) as [x Hx], (EX (min j m)) as [y Hy], (EX m) as [z Hz]. rewrite <- Hx, <- Hy, <- Hz in *. clear Hx Hy Hz EX.
      destruct (Qlt_le_dec a b); nra.
Qed.
Definition qdist (a b : Q) : Q := if Qltb a b then b - a else a - b.
(** A pass through the sensor's range, 40 km long: entry and exit within 50 m. *)
Definition pass := get_intersections Q (near 5000) qdist qline (-20000) 20000 9260 [10; 20].
Example pass_found :
  match pass with
  | Ok [c1; c2] =>
      c_kind Q c1 = ENTER /\ c_kind Q c2 = EXIT /\
      Qltb (-5000) (c_begin Q c1) = true /\ Qltb (c_begin Q c1) (-4950) = true /\
      Qltb 4950 (c_begin Q c2) = true /\ Qltb (c_begin Q c2) 5000 = true
  | _ => False
  end.
Proof. vm_compute. repeat split. Qed.
Example turns_example :
  find_crossing Q (near 1) [-2; 0; 1; 3; 2; (1 # 2); 5] =
  Ok [mkC Q START_OUT (-2) None; mkC Q ENTER (-2) (Some 0); mkC Q EXIT 1 (Some 3);
      mkC Q ENTER 2 (Some (1 # 2)); mkC Q EXIT (1 # 2) (Some 5); mkC Q END_OUT 5 None].
Proof. vm_compute. reflexivity. Qed.
(** What happens between two samples is not seen. *)
Example between_samples_missed :
  find_crossing_points Q (near 1000) qdist qline (-20000) 20000 9260 =
  Ok [mkC Q START_OUT (-20000) None; mkC Q END_OUT 20000 None].
Proof. vm_compute. reflexivity. Qed.

(** ** Where it fails *)
(** A crossing on a path of a few hundred metres is not found: the segments to refine are
    refused as too small. *)
Theorem C69_short_refuted :
  find_crossing_points Q (near 120) qdist qline 0 300 9260 =
    Ok [mkC Q START_INSIDE 0 None; mkC Q EXIT (300 # 3) (Some (600 # 3)); mkC Q END_OUT 300 None] /\
  get_intersections Q (near 120) qdist qline 0 300 9260 [10; 20] = Err TooSmall.
Proof. split; vm_compute; reflexivity. Qed.

Print Assumptions C44_crossings.
Print Assumptions C44_turns.
Print Assumptions C44_points.
Print Assumptions C69_locations.
Print Assumptions C69_inside.
Print Assumptions C69_made_partial.
Print Assumptions C69_short_refuted.
