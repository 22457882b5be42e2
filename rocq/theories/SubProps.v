(** Properties of subdivide_intersection on a leg: C118, C119. *)
From Coq Require Import Qround.
From Verif Require Import Common CrossModel CrossSpec CrossProofs CrossProps SubModel SubSpec SubProofs.
From Verif Require PairModel.

(** C118: on a leg sampled evenly, of which the part in range is one interval,
    get_intersection_locations describes that interval to within the finest distance
    between samples, for any levels of at least 3 and a leg of at least two samples. *)
Theorem C118_described P on inside gdist line D u v (a b : P) between levels :
  good_line P line -> even_line P on line -> measured P on gdist D -> in_range P on inside u v ->
  (forall p x y, x == y -> on p x -> on p y) -> on a 0 -> on b 1 ->
  0 < between -> 2 * between <= D -> levels <> [] -> Forall (fun d => 3 <= d) levels ->
  exists hs, get_intersections P inside gdist line a b between levels =
               Ok (map (fun h => mkC P (h_kind P h) (h_place P h) None) hs) /\
    describes P on D u v between (fold_left Qdiv levels between) hs.
Proof.
  intros GL EV ME IR ON Oa Ob B L N F.
  apply (leg_described P on inside gdist line D u v GL EV ME IR ltac:(lra) a b Oa Ob between levels (2 * between) ((2 # 3) * between));
    auto; [now apply sampled_big|now apply deep_big].
Qed.
(** subdivide_intersection on a leg of at least 1157.5 metres: no exception, and places,
    times and types of crossings that describe the part in range to within 46.3 metres;
    none only if nothing is in range, or less than 9260 metres not at the ends.  [DS] is
    the leg's length in the stage's units. *)
Theorem C118_subdivide G P to_tuple of_tuple minus inside gdist line on D DS u v (start finish sensor : G) speed radius :
  good_line P line -> even_line P on line -> measured P on gdist D ->
  in_range P on (inside (to_tuple sensor) radius) u v ->
  (forall p x y, x == y -> on p x -> on p y) -> on (to_tuple start) 0 -> on (to_tuple finish) 1 ->
  (forall p x, on p x -> 0 <= x -> minus (of_tuple p) start == x * DS) -> minus finish start == DS ->
  9260 # 8 <= D -> ~ speed == 0 ->
  exists hs times path_time,
    subdivide G P to_tuple of_tuple minus inside gdist line start finish speed sensor radius =
      Ok (map (fun h => of_tuple (h_place P h)) hs, times,
          match hs with [] => [Bad; Bad] | _ => map (fun h => Kind (h_kind P h)) hs end, path_time) /\
    describes P on D u v 9260 (463 # 10) hs /\
    Forall2 (fun h t => t == h_frac P h * DS / speed) hs times /\
    path_time == match hs with [] => 0 | _ => DS / speed end.
Proof.
  intros GL EV ME IR ON Oa Ob MI PD L SP.
  destruct (leg_described P on (inside (to_tuple sensor) radius) gdist line D u v GL EV ME IR ltac:(lra) (to_tuple start) (to_tuple finish)
              Oa Ob 9260 [10; 20] (9260 # 8) (9260 # 24) L sampled_9260 deep_9260 ltac:(discriminate) ON) as (hs & E & DE).
  assert (DE' : describes P on D u v 9260 (463 # 10) hs).
  { destruct DE as (A1 & A2 & A3 & A4). split; [exact A1|]. split; [exact A2|]. split; [|exact A4].
    eapply Forall_impl; [|exact A3]. intros h (B1 & B2 & B3 & B4). split; [exact B1|]. split; [exact B2|]. split; [exact B3|].
    change (finest 9260 [10; 20]) with (9260 # 200) in B4. destruct (h_kind P h); try exact B4; destruct B4; (split; [assumption|lra]). }
  unfold subdivide. assert (Z : Qeqb speed 0 = false) by (destruct (Qeqb speed 0) eqn:Z; [qbool; contradiction|reflexivity]). rewrite Z, E.
  destruct hs as [|h hs]; cbn [map].
  - exists [], [], 0. split; [reflexivity|]. split; [exact DE'|]. split; [constructor|reflexivity].
  - exists (h :: hs). do 2 eexists. split; [cbn [map cond_of c_begin c_kind]; rewrite !map_map; reflexivity|]. split; [exact DE'|].
    split; [|rewrite PD; reflexivity].
    destruct DE' as (_ & _ & A3 & _). 
    assert (T : forall l, Forall (SubSpec.right P on D u v (463 # 10)) l ->
       Forall2 (fun h t => t == h_frac P h * DS / speed) l (map (fun h => minus (of_tuple (h_place P h)) start / speed) l)).
    { induction 1 as [|k l (B1 & B2 & _) F IH]; constructor; [|exact IH]. rewrite (MI _ _ B1) by lra. reflexivity. }
    specialize (T (h :: hs) A3). cbn [map] in T. rewrite ?map_map. exact T.
Qed.
(** A speed of 0 raises ZeroDivisionError; a leg of less than 289.375 metres raises
    IntersectionError, wherever it is. *)
Theorem C118_refused G P to_tuple of_tuple minus inside gdist line (start finish sensor : G) speed radius :
  (speed == 0 -> subdivide G P to_tuple of_tuple minus inside gdist line start finish speed sensor radius = Err DivZero) /\
  (~ speed == 0 -> gdist (to_tuple start) (to_tuple finish) < 9260 # 32 ->
   subdivide G P to_tuple of_tuple minus inside gdist line start finish speed sensor radius = Err TooSmall).
Proof.
  split; intro H; unfold subdivide.
  - apply Qeqb_eq in H. now rewrite H.
  - intro L. assert (Z : Qeqb speed 0 = false) by (destruct (Qeqb speed 0) eqn:Z; [qbool; contradiction|reflexivity]). rewrite Z.
    unfold get_intersections, find_crossing_points. rewrite segments_short by exact L. reflexivity.
Qed.

(** ** A model of the hypotheses: the number line from a to b, in metres *)
Definition lon (a b : Q) (p x : Q) : Prop := p == a + (b - a) * x.
Definition around (c r p : Q) : bool := near r (p - c).
Lemma lon_even a b : even_line Q (lon a b) qline.
Proof.
  intros p q s t n Op Oq ST N. unfold qline. split.
  - cbn [length]. rewrite app_length, map_length, seq_length. cbn. lia.
  - intros k x E. unfold lon in *. pose proof (natQ n N) as NP. destruct k as [|k]; cbn [nth_error] in E.
    + inversion E; subst. rewrite Op, frac_0. ring.
    + destruct (Nat.lt_ge_cases k (n - 1)) as [L|L].
      * rewrite nth_error_app1 in E by now rewrite map_length, seq_length.
        rewrite nth_error_map in E. destruct (nth_error (seq 1 (n - 1)) k) as [j|] eqn:J; [|discriminate].
        assert (j = S k).
        { apply nth_error_nth with (d := 0%nat) in J. rewrite seq_nth in J by exact L. lia. }
        subst j. cbn in E. inversion E; subst. unfold place, frac. rewrite Op, Oq. ring.
      * rewrite nth_error_app2 in E by (rewrite map_length, seq_length; lia). rewrite map_length, seq_length in E.
        destruct (k - (n - 1))%nat as [|m] eqn:K; [|destruct m; discriminate]. cbn in E. inversion E; subst.
        assert (S k = n) by lia. rewrite H, (frac_n n N), Oq. ring.
Qed.
Lemma lon_measured a b : a < b -> measured Q (lon a b) qdist (b - a).
Proof.
  intros L p q s t Op Oq ST. unfold lon, qdist in *. destruct (Qltb p q) eqn:E; qbool.
  - rewrite Op, Oq. ring.
  - rewrite Op, Oq in *. nra.
Qed.
Lemma lon_range a b c r : a < b -> in_range Q (lon a b) (around c r) ((c - r - a) / (b - a)) ((c + r - a) / (b - a)).
Proof.
  intros L p x O. unfold around. rewrite near_iff. unfold lon in O. rewrite O. split; intros [A B]; split.
  - apply Qle_shift_div_r; lra.
  - apply Qle_shift_div_l; lra.
  - assert (E : c - r - a == (c - r - a) / (b - a) * (b - a)) by (field; lra). set (y := (c - r - a) / (b - a)) in *. clearbody y. nra.
  - assert (E : c + r - a == (c + r - a) / (b - a) * (b - a)) by (field; lra). set (y := (c + r - a) / (b - a)) in *. clearbody y. nra.
Qed.
(** Kilometres as the stage's units, metres on the line. *)
Definition km (p : Q) : Q := p * 1000.
Definition of_m (p : Q) : Q := p / 1000.
Definition leg (a b speed c r : Q) := subdivide Q Q km of_m (fun p q => qdist q p) (fun c r => around c (r * 1000)) qdist qline a b speed c r.
Example C118_line_met (a b c r : Q) : a < b -> (9260 # 8) <= (b - a) * 1000 ->
  good_line Q qline /\ even_line Q (lon (km a) (km b)) qline /\ measured Q (lon (km a) (km b)) qdist (km b - km a) /\
  in_range Q (lon (km a) (km b)) (around (km c) (r * 1000)) ((km c - r * 1000 - km a) / (km b - km a)) ((km c + r * 1000 - km a) / (km b - km a)) /\
  lon (km a) (km b) (km a) 0 /\ lon (km a) (km b) (km b) 1 /\ 9260 # 8 <= km b - km a /\
  (forall p x, lon (km a) (km b) p x -> 0 <= x -> qdist a (of_m p) == x * (b - a)) /\ qdist a b == b - a.
Proof.
  intros L M. unfold km, of_m.
  split; [exact qline_good|]. split; [apply lon_even|]. split; [apply lon_measured; lra|]. split; [apply lon_range; lra|].
  split; [unfold lon; ring|]. split; [unfold lon; ring|]. split; [lra|]. split.
  - intros p x O X. unfold lon in O. assert (E : p / 1000 == a + (b - a) * x) by (rewrite O; field).
    unfold qdist. destruct (Qltb a (p / 1000)) eqn:K; qbool; rewrite E in *; nra.
  - unfold qdist. destruct (Qltb a b) eqn:K; qbool; lra.
Qed.
(** A pass of 40 km at 100 km/h past a sensor that reaches 5 km: seen to enter and leave
    within 46.3 m of the true places. *)
Example C118_pass :
  match leg (-20) 20 100 0 5 with
  | Ok ([p; q], [t; u], [Kind ENTER; Kind EXIT], time) =>
      Qleb (-5) p = true /\ Qltb p (-5 + (463 # 10000)) = true /\ Qltb (5 - (463 # 10000)) q = true /\ Qleb q 5 = true /\
      t == (p + 20) / 100 /\ u == (q + 20) / 100 /\ time == 40 / 100
  | _ => False
  end.
Proof. vm_compute. repeat split. Qed.
Example C118_near_short : leg 0 (12 # 10) 1 2 1 <> Err TooSmall /\ leg 0 (2 # 10) 1 2 1 = Err TooSmall /\ leg 0 1 0 2 1 = Err DivZero.
Proof. vm_compute. repeat split. discriminate. Qed.

(** ** C119: where it fails *)
(** A pass in range between two samples is not seen: two kilometres in range, and nothing
    is reported. *)
Theorem C119_missed_refuted :
  leg (-20) 20 100 0 1 = Ok ([], [], [Bad; Bad], 0) /\
  exists p, lon (km (-20)) (km 20) p (1 # 2) /\ around (km 0) (1 * 1000) p = true.
Proof. split; [vm_compute; reflexivity|]. exists 0. split; [vm_compute; reflexivity|reflexivity]. Qed.
(** A mover crossing the edge of a range on a leg of 300 m, or going 200 m far from any
    range: IntersectionError. *)
Theorem C119_short_refuted :
  leg 0 (3 # 10) 100 0 (12 # 100) = Err TooSmall /\ leg 0 (2 # 10) 100 50 1 = Err TooSmall.
Proof. split; vm_compute; reflexivity. Qed.

(** The intersection model as the manager uses it, motion.py:225-247: times and types
    zipped, and the path time. *)
Definition pair_kind (w : word) : PairModel.kind :=
  match w with
  | Kind ENTER => PairModel.ENTER
  | Kind EXIT => PairModel.EXIT
  | Kind START_INSIDE => PairModel.START_INSIDE
  | _ => PairModel.END_INSIDE
  end.
Definition leg_pairs (a b speed c r : Q) : PairModel.res (list (Q * PairModel.kind) * Q) :=
  match leg a b speed c r with
  | Ok (_, times, types, time) => PairModel.Ok (combine times (map pair_kind types), time)
  | _ => PairModel.Err PairModel.SimulationErr
  end.
(** A leg that misses the sensor counts as one that takes no time: a mover that needs 200
    for the first leg and enters 15 later is predicted to enter at 15. *)
Theorem C119_missed_leg_refuted :
  match PairModel.process_pair Q Qplus 0 Q leg_pairs 1 [-220; -20; 20] 0 (0, 5) with
  | PairModel.Ok [((PairModel.ENTER, t), (PairModel.EXIT, _))] => Qltb t 16 = true
  | _ => False
  end /\
  around (km 0) (5 * 1000) (km (-220 + 16)) = false /\ around (km 0) (5 * 1000) (km (-220 + 215)) = true.
Proof. split; [vm_compute; reflexivity|]. split; reflexivity. Qed.
(** If every leg meets the range the predictions are right. *)
Example both_legs :
  match PairModel.process_pair Q Qplus 0 Q leg_pairs 1 [-20; 0; 20] 0 (0, 5) with
  | PairModel.Ok [((PairModel.ENTER, t), (PairModel.EXIT, u))] => Qleb 15 t && Qltb t (151 # 10) && Qltb (249 # 10) u && Qleb u 25 = true
  | _ => False
  end.
Proof. vm_compute. reflexivity. Qed.

Print Assumptions C118_described.
Print Assumptions C118_subdivide.
Print Assumptions C118_refused.
Print Assumptions C119_missed_refuted.
Print Assumptions C119_short_refuted.
Print Assumptions C119_missed_leg_refuted.
