(** Properties of create_table and create_location_table: C45, C68. *)
From Coq Require Import String Sorted.
From Verif Require Import Common NetModel TabModel TabSpec TabProofs.
Open Scope string_scope.
Open Scope list_scope.

(** C45: the table of a history as recording makes it shows that history: one row for
    each value (or field), in order, with its time; the last column tells whether the
    state was active, and on the row before a marker the marker. *)
Theorem C45_history V name kind s key act (h : hist V) : good_history V h ->
  exists l, to_table V name kind s key act h = Some l /\ shows V name kind s key act h l.
Proof.
  intro G. exists (expected V name kind s key (default act) h).
  split; [now apply to_table_expected|apply expected_shows].
Qed.
(** ... and nothing else does: a table showing it is that table. *)
Theorem C45_determined V name kind s key act (h : hist V) l l' :
  shows V name kind s key act h l -> shows V name kind s key act h l' -> l = l'.
Proof. apply shows_unique. Qed.
(** ... so it is in time order if the history is. *)
Theorem C45_time_order V name kind s key act (h : hist V) l : shows V name kind s key act h l ->
  StronglySorted Qle (map fst h) -> StronglySorted Qle (map (r_time V) l).
Proof.
  intros S. rewrite (shows_unique V _ _ _ _ _ _ _ _ S (expected_shows V name kind s key act h)). clear S.
  generalize (default act). induction h as [|[t e] h IH]; intros d SO; [constructor|].
  cbn [map fst] in SO. inversion SO as [|x y SO' F]; subst.
  assert (LE : forall d r, In r (expected V name kind s key d h) -> t <= r_time V r).
  { intros d' r I. apply In_nth_error in I. destruct I as [n N].
    assert (K : (n < ncells V key h)%nat) by (rewrite <- (expected_length V name kind s key h d'); apply nth_error_Some; congruence).
    destruct (cell_at V key h n K) as (pre & t' & e' & post & j & c & E & M & ->). subst h.
    rewrite (expected_nth V name kind s key pre d' t' e' post j c M) in N. inversion N. cbn.
    rewrite Forall_forall in F. apply F. rewrite map_app. apply in_or_app. right. now left. }
  assert (SS : forall m (cs : list (option string * V)),
     StronglySorted Qle (map (r_time V) (annotate V m (map (fun c => mkRow V name kind s (fst c) t (snd c) d) cs) ++ expected V name kind s key d h))).
  { intros m cs. rewrite map_app.
    replace (map (r_time V) (annotate V m (map (fun c => mkRow V name kind s (fst c) t (snd c) d) cs))) with (map (fun _ => t) cs).
    - induction cs as [|c cs IHc]; cbn [map app]; [now apply IH|]. constructor; [exact IHc|].
      rewrite Forall_forall. intros x I. apply in_app_or in I. destruct I as [I|I].
      + apply in_map_iff in I. destruct I as (? & <- & _). apply Qle_refl.
      + apply in_map_iff in I. destruct I as (r & <- & I). now apply (LE d).
    - destruct cs as [|c cs _] using rev_ind; [now destruct m|].
      rewrite !map_app. cbn [map]. rewrite annotate_snoc, map_app, map_map. cbn. f_equal. now destruct m. }
  destruct e; cbn [expected]; [apply SS|apply SS|now apply IH].
Qed.

Section C45.
Variable V : Type.
Variable quant : nat -> res V.
Variable skip_locations save_static : bool.
Variable actors : list (actor V).
Variable monitored : list nat.
Hypothesis W : well_named V actors.
Hypothesis G : good_histories V actors.
Hypothesis M : NoDup monitored.
Notation blk := (block V quant skip_locations save_static actors monitored).
Notation create := (create_table V quant skip_locations save_static actors monitored).

(** The whole table: it consists of blocks, one for every recorded state of every actor
    (one for every key if it is recorded by key), every state holding a resource, every
    unrecorded state if asked for, and every monitored resource that no state holds;
    no block comes twice and there is nothing else. *)
Theorem C45_table l : create = inl l ->
  exists blocks, l = flat_map snd blocks /\ NoDup (map fst blocks) /\
    forall src b, In (src, b) blocks <-> blk src b.
Proof.
  intro C. exists (table_blocks V quant skip_locations save_static actors monitored).
  split; [now apply table_rows|]. split; [now apply table_nodup|]. intros. now apply table_block.
Qed.
(** The rows of a recorded state are those of its history, once. *)
Theorem C45_state_rows i a d v h l : create = inl l ->
  NoDup (map (a_name V) actors) -> state_of V skip_locations actors i a d v ->
  has_history V a (sd_name V d) None h -> sd_name V d <> "Resource" ->
  exists b, shows V (a_name V a) (a_kind V a) (sd_name V d) None (sd_active V d) h b /\
    filter (fun r => String.eqb (r_name V r) (a_name V a) && String.eqb (r_state V r) (sd_name V d)) l = b.
Proof.
  intros C N S H NR. exists (expected V (a_name V a) (a_kind V a) (sd_name V d) None (default (sd_active V d)) h).
  split; [apply expected_shows|].
  rewrite (table_rows V quant skip_locations save_static actors monitored G M l C).
  assert (B0 : blk (FromState i (sd_name V d) None) (expected V (a_name V a) (a_kind V a) (sd_name V d) None (default (sd_active V d)) h)).
  { exists a, d, v, h. split; [exact S|]. split; [reflexivity|]. split; [exact H|apply expected_shows]. }
  apply filter_block with (src0 := FromState i (sd_name V d) None).
  - now apply table_nodup.
  - now apply table_block.
  - intros r I. destruct (shows_all V _ _ _ _ _ _ _ _ (expected_shows V _ _ _ _ _ _) I) as (-> & _ & ->).
    now rewrite !String.eqb_refl.
  - intros src b r B NS R. apply table_block in B; auto.
    destruct (String.eqb (r_name V r) (a_name V a) && String.eqb (r_state V r) (sd_name V d)) eqn:E; [|reflexivity].
    exfalso. apply andb_prop in E. destruct E as [E1 E2]. apply String.eqb_eq in E1, E2.
    assert (SAME : forall j a', nth_error actors j = Some a' -> a_name V a' = a_name V a -> j = i /\ a' = a).
    { intros j a' A' NM. destruct S as (A & _).
      assert (j = i).
      { apply (proj1 (NoDup_nth_error (map (a_name V) actors)) N).
        - rewrite map_length. apply nth_error_Some. congruence.
        - rewrite !nth_error_map, A, A'. cbn. now rewrite NM. }
      subst j. split; congruence. }
    assert (UD : forall d' : sdef V, In d' (a_states V a) -> sd_name V d' = sd_name V d -> d' = d).
    { intros d' D' E. destruct S as (A & D & _). destruct (W a (nth_error_In _ _ A)) as [ND _].
      clear - ND D D' E. induction (a_states V a) as [|x xs IH]; [destruct D|].
      cbn in ND. inversion ND; subst. destruct D as [->|D], D' as [->|D']; auto.
      - exfalso. apply H1. rewrite <- E. now apply in_map.
      - exfalso. apply H1. rewrite E. now apply in_map. }
    pose proof (block_row V quant skip_locations save_static actors monitored src b r B R) as BR.
    destruct src as [j s k|j s q|j s|q].
    + destruct BR as (a' & A' & N' & S'). destruct (SAME j a' A') as [-> ->]; [congruence|].
      destruct k as [k|]; [|congruence].
      destruct B as (a1 & d1 & v1 & h1 & (A1 & _) & _ & NH & _). assert (a1 = a) by congruence. subst a1.
      destruct H as (pre & post & EH & _). apply (NH h). rewrite EH. apply in_or_app. right. left. f_equal. f_equal. congruence.
    + destruct BR as (a' & A' & N' & S'). destruct (SAME j a' A') as [-> ->]; [congruence|].
      destruct B as (a1 & d1 & x1 & (A1 & D1 & _) & N1 & NR1 & _). assert (a1 = a) by congruence. subst a1.
      apply NR1. left. exists h. replace (sd_name V d1) with (sd_name V d) by congruence. exact H.
    + destruct BR as (a' & A' & N' & S'). destruct (SAME j a' A') as [-> ->]; [congruence|].
      destruct B as (_ & a1 & d1 & v1 & (A1 & D1 & _) & N1 & NR1 & _). assert (a1 = a) by congruence. subst a1.
      apply NR1. left. exists h. replace (sd_name V d1) with (sd_name V d) by congruence. exact H.
    + congruence.
Qed.
(** The same for one key of a state recorded by key (dictionaries and dataclasses). *)
Definition is_key (k : string) (o : option string) : bool := match o with Some x => String.eqb x k | None => false end.
Theorem C45_key_rows i a d v h k l : create = inl l ->
  NoDup (map (a_name V) actors) -> state_of V skip_locations actors i a d v ->
  (forall h', ~ In (sd_name V d, None, h') (a_hist V a)) -> In k (keys_of V v) ->
  has_history V a (sd_name V d) (Some k) h -> (forall k' h' t e, In (sd_name V d, Some k', h') (a_hist V a) -> In (t, HFields V e) h' -> False) ->
  sd_name V d <> "Resource" ->
  exists b, shows V (a_name V a) (a_kind V a) (sd_name V d) (Some k) (sd_active V d) h b /\
    filter (fun r => String.eqb (r_name V r) (a_name V a) && String.eqb (r_state V r) (sd_name V d) && is_key k (r_key V r)) l = b.
Proof.
  intros C N S NH IK H NF NR. exists (expected V (a_name V a) (a_kind V a) (sd_name V d) (Some k) (default (sd_active V d)) h).
  split; [apply expected_shows|].
  rewrite (table_rows V quant skip_locations save_static actors monitored G M l C).
  assert (B0 : blk (FromState i (sd_name V d) (Some k)) (expected V (a_name V a) (a_kind V a) (sd_name V d) (Some k) (default (sd_active V d)) h)).
  { exists a, d, v, h. split; [exact S|]. split; [reflexivity|]. split; [exact NH|]. split; [exact IK|]. split; [exact H|apply expected_shows]. }
  assert (KEY : forall k' (h' : hist V) b r, In (sd_name V d, Some k', h') (a_hist V a) ->
     shows V (a_name V a) (a_kind V a) (sd_name V d) (Some k') (sd_active V d) h' b -> In r b -> r_key V r = Some k').
  { intros k' h' b r IN [L P] I. apply In_nth_error in I. destruct I as [n E].
    assert (K : (n < ncells V (Some k') h')%nat) by (rewrite <- L; apply nth_error_Some; congruence).
    destruct (cell_at V (Some k') h' n K) as (pre & t & e & post & j & c & HH & MM & ->).
    rewrite (P _ _ _ _ _ _ HH MM) in E. inversion E. cbn.
    destruct e as [x|fl|mb]; [|exfalso; eapply (NF k' h' t fl IN); rewrite HH; apply in_or_app; right; now left|destruct j; discriminate].
    destruct j as [|[|j]]; inversion MM. reflexivity. }
  apply filter_block with (src0 := FromState i (sd_name V d) (Some k)).
  - now apply table_nodup.
  - now apply table_block.
  - intros r I. pose proof (expected_shows V (a_name V a) (a_kind V a) (sd_name V d) (Some k) (sd_active V d) h) as SH.
    destruct (shows_all V _ _ _ _ _ _ _ _ SH I) as (-> & _ & ->).
    assert (IN : In (sd_name V d, Some k, h) (a_hist V a)).
    { destruct H as (pre & post & -> & _). apply in_or_app. right. now left. }
    rewrite (KEY k h _ r IN SH I). cbn. now rewrite !String.eqb_refl.
  - intros src b r B NS R. apply table_block in B; auto.
    destruct (String.eqb (r_name V r) (a_name V a) && String.eqb (r_state V r) (sd_name V d) && is_key k (r_key V r)) eqn:E; [|reflexivity].
    exfalso. apply andb_prop in E. destruct E as [E E3]. apply andb_prop in E. destruct E as [E1 E2]. apply String.eqb_eq in E1, E2.
    assert (SAME : forall j a', nth_error actors j = Some a' -> a_name V a' = a_name V a -> j = i /\ a' = a).
    { intros j a' A' NM. destruct S as (A & _).
      assert (j = i).
      { apply (proj1 (NoDup_nth_error (map (a_name V) actors)) N).
        - rewrite map_length. apply nth_error_Some. congruence.
        - rewrite !nth_error_map, A, A'. cbn. now rewrite NM. }
      subst j. split; congruence. }
    assert (UD : forall d' : sdef V, In d' (a_states V a) -> sd_name V d' = sd_name V d -> d' = d).
    { intros d' D' EE. destruct S as (A & D & _). destruct (W a (nth_error_In _ _ A)) as [ND _].
      clear - ND D D' EE. induction (a_states V a) as [|x xs IH]; [destruct D|].
      cbn in ND. inversion ND; subst. destruct D as [->|D], D' as [->|D']; auto.
      - exfalso. apply H1. rewrite <- EE. now apply in_map.
      - exfalso. apply H1. rewrite EE. now apply in_map. }
    assert (BK : by_key V a (sd_name V d)).
    { destruct H as (pre & post & EH & _). exists k, h. rewrite EH. apply in_or_app. right. now left. }
    pose proof (block_row V quant skip_locations save_static actors monitored src b r B R) as BR.
    destruct src as [j s k'|j s q|j s|q].
    + destruct BR as (a' & A' & N' & S'). destruct (SAME j a' A') as [-> ->]; [congruence|].
      destruct k' as [k'|].
      * destruct B as (a1 & d1 & v1 & h1 & (A1 & D1 & _) & N1 & _ & _ & H1 & S1). assert (a1 = a) by congruence. subst a1.
        rewrite (UD d1 D1) in * by congruence. subst s.
        assert (IN : In (sd_name V d, Some k', h1) (a_hist V a)).
        { destruct H1 as (pre & post & -> & _). apply in_or_app. right. now left. }
        rewrite (KEY k' h1 b r IN S1 R) in E3. cbn in E3. apply String.eqb_eq in E3. congruence.
      * destruct B as (a1 & d1 & v1 & h1 & (A1 & _) & N1 & H1 & _). assert (a1 = a) by congruence. subst a1.
        destruct H1 as (pre & post & EH & _). apply (NH h1). rewrite EH. apply in_or_app. right. left. f_equal. f_equal. congruence.
    + destruct BR as (a' & A' & N' & S'). destruct (SAME j a' A') as [-> ->]; [congruence|].
      destruct B as (a1 & d1 & x1 & (A1 & D1 & _) & N1 & NR1 & _). assert (a1 = a) by congruence. subst a1.
      apply NR1. right. rewrite (UD d1 D1) by congruence. exact BK.
    + destruct BR as (a' & A' & N' & S'). destruct (SAME j a' A') as [-> ->]; [congruence|].
      destruct B as (_ & a1 & d1 & v1 & (A1 & D1 & _) & N1 & NR1 & _). assert (a1 = a) by congruence. subst a1.
      apply NR1. right. rewrite (UD d1 D1) by congruence. exact BK.
    + congruence.
Qed.
(** Each monitored resource is shown exactly once, if at most one state holds it. *)
Definition about (r : nat) (src : source) : Prop :=
  match src with FromOwn _ _ r' | FromResource r' => r' = r | _ => False end.
Theorem C45_resource_partial r : In r monitored ->
  (forall i s j s', holds V skip_locations actors i s r -> holds V skip_locations actors j s' r -> i = j /\ s = s') ->
  exists src b, about r src /\ blk src b /\ map (fun x => (r_time V x, r_value V x)) b = rs_quant V (quant r) /\
    forall src' b', about r src' -> blk src' b' -> src' = src /\ b' = b.
Proof.
  intros I U.
  assert (QQ : forall f : Q * V -> row V, (forall tv, (r_time V (f tv), r_value V (f tv)) = tv) ->
     map (fun x => (r_time V x, r_value V x)) (map f (rs_quant V (quant r))) = rs_quant V (quant r)).
  { intros f F. rewrite map_map. induction (rs_quant V (quant r)); [reflexivity|]. cbn. now rewrite F, IHl. }
  destruct (in_dec Nat.eq_dec r (owned V (actors_blocks V quant skip_locations save_static 0 actors))) as [O'|O'].
  - pose proof (proj1 (holds_owned V quant skip_locations save_static actors monitored W r) O') as (i & s & HO).
    destruct HO as (a & d & x & S & NM & R). exists (FromOwn i s r). eexists. split; [reflexivity|].
    split; [exists a, d, x; split; [exact S|]; split; [exact NM|]; split; [exact R|reflexivity]|].
    split; [apply QQ; now intros []|].
    intros [j s' k|j s' r'|j s'|r'] b' AB B; cbn in AB; try contradiction; subst r'.
    + destruct B as (a' & d' & x' & S' & NM' & R' & ->).
      destruct (U j s' i s) as [-> ->]; [exists a', d', x'; auto|exists a, d, x; auto|].
      split; [reflexivity|]. destruct S as (A & _), S' as (A' & _). now replace a' with a by congruence.
    + destruct B as (_ & NB & _). exfalso. apply (NB i s). exists a, d, x. auto.
  - assert (NH : forall i s, ~ holds V skip_locations actors i s r).
    { intros i s HH. apply O', (holds_owned V quant skip_locations save_static actors monitored W r). now exists i, s. }
    exists (FromResource r). eexists. split; [reflexivity|].
    split; [split; [exact I|]; split; [exact NH|reflexivity]|].
    split; [apply QQ; now intros []|].
    intros [j s' k|j s' r'|j s'|r'] b' AB B; cbn in AB; try contradiction; subst r'.
    + destruct B as (a' & d' & x' & S' & NM' & R' & _). exfalso. apply (NH j s'). exists a', d', x'. auto.
    + destruct B as (_ & _ & ->). now split.
Qed.
(** The table is made if every state has a value and every key a history. *)
Theorem C45_made_partial : all_set V skip_locations actors -> exists l, create = inl l.
Proof.
  intro A. unfold create_table.
  destruct (actors_rows_ok V quant skip_locations save_static actors actors A G (fun x H => H)) as [[l r] ->].
  eexists. reflexivity.
Qed.
End C45.

(** C68: the table of locations shows the recorded locations of every location state of
    every actor, in order, and nothing else; ... *)
Definition location_histories (as_ : list lactor) : list (lactor * lhist) :=
  flat_map (fun a => map (pair a) (filter lh_location (la_hists a))) as_.
Definition lgood_all (as_ : list lactor) : Prop := forall a h, In (a, h) (location_histories as_) -> lgood (lh_entries h).
Lemma location_rows_expected as_ : forall c, lgood_all as_ ->
  location_rows as_ c = inl (flat_map (fun ah => lexpected (la_name (fst ah)) (la_kind (fst ah)) (lh_state (snd ah)) (default (lh_active (snd ah))) (lh_entries (snd ah))) (location_histories as_),
    match as_ with
    | [] => c
    | a :: _ => Some (if existsb (fun h => geodetic (lh_entries h)) (filter lh_location (la_hists (last as_ a))) then LatLonAlt else XYZ)
    end).
Proof.
  induction as_ as [|a as_ IH]; intros c G; [reflexivity|].
  cbn [location_rows]. unfold actor_location. rewrite lhists_expected.
  - cbn [app andb]. rewrite IH.
    + f_equal. f_equal.
      * unfold location_histories. cbn [flat_map]. rewrite flat_map_app. f_equal.
        induction (filter lh_location (la_hists a)); [reflexivity|]. cbn. now f_equal.
      * destruct as_ as [|b as_]; [cbn; now destruct (existsb _ _)|].
        change (last (a :: b :: as_) a) with (last (b :: as_) a).
        assert (LD : forall (l : list lactor) x y z, last (x :: l) y = last (x :: l) z).
        { induction l as [|q l IHl]; intros; [reflexivity|]. apply (IHl q). }
        now rewrite (LD as_ b a b).
    + intros b h I. apply (G b h). unfold location_histories. cbn [flat_map]. apply in_or_app. now right.
  - intros h I L. apply (G a h). unfold location_histories. cbn [flat_map]. apply in_or_app. left.
    apply in_map_iff. exists h. split; [reflexivity|]. apply filter_In. now split.
Qed.
Theorem C68_rows as_ l c : lgood_all as_ -> create_location_table as_ = inl (l, c) ->
  exists bs, l = List.concat bs /\
    Forall2 (fun ah b => lshows (la_name (fst ah)) (la_kind (fst ah)) (snd ah) b) (location_histories as_) bs.
Proof.
  intros G. unfold create_location_table. rewrite location_rows_expected by exact G.
  destruct as_ as [|a as_]; [discriminate|]. intros [= <- _].
  exists (map (fun ah => lexpected (la_name (fst ah)) (la_kind (fst ah)) (lh_state (snd ah)) (default (lh_active (snd ah))) (lh_entries (snd ah))) (location_histories (a :: as_))).
  split; [apply flat_map_concat_map|]. generalize (location_histories (a :: as_)).
  intro hs. induction hs; cbn [map]; constructor; [apply lexpected_shows|exact IHhs].
Qed.
(** ... it is made when there is an actor; ... *)
Theorem C68_made as_ : lgood_all as_ ->
  (exists x, create_location_table as_ = inl x) <-> as_ <> [].
Proof.
  intro G. unfold create_location_table. rewrite location_rows_expected by exact G.
  destruct as_; split; try discriminate; try (now intros [x E]).
  - intros N. now destruct N.
  - intros _. eexists. reflexivity.
Qed.
(** ... and the column names fit if every actor, or no actor, recorded geodetic
    locations. *)
Definition has_geodetic (a : lactor) : Prop :=
  exists h t x y z, In h (la_hists a) /\ lh_location h = true /\ In (t, LGeo x y z) (lh_entries h).
Lemma has_geodetic_iff a : existsb (fun h => geodetic (lh_entries h)) (filter lh_location (la_hists a)) = true <-> has_geodetic a.
Proof.
  rewrite existsb_exists. unfold has_geodetic, geodetic. split.
  - intros (h & I & E). apply filter_In in I. destruct I as [I L]. apply existsb_exists in E. destruct E as ([t e] & IE & E).
    destruct e as [x y z| |]; try discriminate. exists h, t, x, y, z. auto.
  - intros (h & t & x & y & z & I & L & IE). exists h. split; [apply filter_In; now split|].
    apply existsb_exists. exists (t, LGeo x y z). now split.
Qed.
Theorem C68_columns_partial as_ l c : lgood_all as_ -> create_location_table as_ = inl (l, c) ->
  ((forall a, In a as_ -> has_geodetic a) -> c = LatLonAlt) /\
  ((forall a, In a as_ -> ~ has_geodetic a) -> c = XYZ).
Proof.
  intros G. unfold create_location_table. rewrite location_rows_expected by exact G.
  destruct as_ as [|a as_]; [discriminate|]. intros [= _ <-].
  assert (I : In (last (a :: as_) a) (a :: as_)).
  { destruct (exists_last (l := a :: as_)) as (x & y & E); [discriminate|]. rewrite E, last_last. apply in_or_app. right. now left. }
  destruct (existsb _ _) eqn:E.
  - apply has_geodetic_iff in E. split; [reflexivity|]. intro N. now destruct (N _ I).
  - split; [|reflexivity]. intro N. apply N in I. apply has_geodetic_iff in I. destruct (eq_true_false_abs _ I E).
Qed.

(** ** Examples *)
Definition q0 : nat -> res Z := fun r =>
  match r with
  | 0%nat => mkRs Z "Pump" "SelfMonitoringContainer" [(0, 10%Z); (2, 7%Z)]
  | _ => mkRs Z "Depot" "SelfMonitoringStore" [(0, 0%Z); (1, 1%Z)]
  end.
Definition car : actor Z :=
  mkAc Z "car" "Car"
    [ mkSd Z "fuel" false true (Some (DVal Z 70%Z));
      mkSd Z "items" false false (Some (DDict Z [("a", 1%Z); ("b", 5%Z)]));
      mkSd Z "tank" false false (Some (DRes Z 0 0%Z));
      mkSd Z "seats" false false (Some (DVal Z 4%Z));
      mkSd Z "place" true true (Some (DVal Z 0%Z)) ]
    [ ("fuel", None, [(0, HVal Z 100%Z); (1, HVal Z 100%Z); (1, HMark Z true); (2, HVal Z 80%Z); (3, HVal Z 70%Z); (3, HMark Z false)]);
      ("items", Some "a", [(0, HVal Z 1%Z)]);
      ("items", Some "b", [(1, HVal Z 4%Z); (2, HVal Z 5%Z)]) ].
Definition r0 n k s key t v st := mkRow Z n k s key t v st.
Example table_shown :
  create_table Z q0 true false [car] [0%nat; 1%nat] = inl
    [ r0 "car" "Car" "fuel" None 0 100%Z SInactive; r0 "car" "Car" "fuel" None 1 100%Z SActivating;
      r0 "car" "Car" "fuel" None 2 80%Z SActive; r0 "car" "Car" "fuel" None 3 70%Z SDeactivating;
      r0 "car" "Car" "items" (Some "a") 0 1%Z SNone;
      r0 "car" "Car" "items" (Some "b") 1 4%Z SNone; r0 "car" "Car" "items" (Some "b") 2 5%Z SNone;
      r0 "car" "Car" "tank" None 0 10%Z SNone; r0 "car" "Car" "tank" None 2 7%Z SNone;
      r0 "Depot" "SelfMonitoringStore" "Resource" None 0 0%Z SNone; r0 "Depot" "SelfMonitoringStore" "Resource" None 1 1%Z SNone ].
Proof. vm_compute. reflexivity. Qed.
Example car_meets : well_named Z [car] /\ good_histories Z [car] /\ all_set Z true [car].
Proof.
  split; [|split].
  - intros a [<-|[]]. split; [cbn; repeat constructor; cbn; intuition discriminate|].
    intros d v D E. cbn in D. repeat (destruct D as [<-|D]; [inversion E; cbn; repeat constructor; cbn; intuition discriminate|]). destruct D.
  - intros a s k h [<-|[]] I. cbn in I.
    repeat (destruct I as [I|I]; [inversion I; split; [discriminate|cbn; intuition discriminate]|]). destruct I.
  - assert (NB : forall s, s <> "items" -> ~ by_key Z car s).
    { intros s N (k & h & I). cbn in I. intuition congruence. }
    intros a d [<-|[]] D SK. cbn in D. destruct D as [<-|[<-|[<-|[<-|[<-|[]]]]]]; try discriminate;
      (eexists; split; [reflexivity|]).
    2:{ split; [intros; left; eexists; reflexivity|]. intros _ k [<-|[<-|[]]]; eexists; cbn; auto. }
    all: split; intro B; exfalso; revert B; apply NB; discriminate.
Qed.
Example location_shown :
  create_location_table
    [mkLA "car" "Car" [mkLH "fuel" false true []; mkLH "place" true true [(0, LCart 1 2 0); (0, LMark true); (5, LCart 6 2 0); (5, LMark false)]]] =
  inl ([mkLRow "car" "Car" "place" 0 (1, 2, 0) SActivating; mkLRow "car" "Car" "place" 5 (6, 2, 0) SDeactivating], XYZ).
Proof. vm_compute. reflexivity. Qed.

(** ** Where it fails *)
(** A resource held by two states (or two actors) is shown twice. *)
Theorem C45_shared_refuted :
  let a n := mkAc Z n "Truck" [mkSd Z "pump" false false (Some (DRes Z 0 0%Z))] [] in
  create_table Z q0 true false [a "t1"; a "t2"] [0%nat] = inl
    [ r0 "t1" "Truck" "pump" None 0 10%Z SNone; r0 "t1" "Truck" "pump" None 2 7%Z SNone;
      r0 "t2" "Truck" "pump" None 0 10%Z SNone; r0 "t2" "Truck" "pump" None 2 7%Z SNone ].
Proof. vm_compute. reflexivity. Qed.
(** A state that was never given a value (allow_none_default) makes the whole table fail
    with KeyError, recorded or not. *)
Theorem C45_unset_refuted :
  create_table Z q0 true false
    [car; mkAc Z "a" "Truck" [mkSd Z "driver" false false None] []] [] = inr KeyError.
Proof. vm_compute. reflexivity. Qed.
(** A key of a recorded dictionary without a history (put through raw_object(), or stored
    by an assignment that then failed the type check) makes the whole table fail with
    AssertionError; ... *)
Theorem C45_refused_key_refuted :
  create_table Z q0 true false
    [mkAc Z "a" "Truck" [mkSd Z "items" false false (Some (DDict Z [("a", 1%Z); ("b", 2%Z)]))]
       [("items", Some "a", [(0, HVal Z 1%Z)])]] [] = inr AssertionError.
Proof. vm_compute. reflexivity. Qed.
(** ... and the history of a key no longer in the dictionary is not shown. *)
Theorem C45_removed_key_refuted :
  create_table Z q0 true false
    [mkAc Z "a" "Truck" [mkSd Z "items" false false (Some (DDict Z [("b", 2%Z)]))]
       [("items", Some "a", [(0, HVal Z 1%Z); (1, HVal Z 9%Z)]); ("items", Some "b", [(0, HVal Z 2%Z)])]] []
  = inl [r0 "a" "Truck" "items" (Some "b") 0 2%Z SNone].
Proof. vm_compute. reflexivity. Qed.
(** What a recording function recorded is not shown. *)
Theorem C45_function_refuted :
  create_table Z q0 true false
    [mkAc Z "a" "Truck" [mkSd Z "fuel" false false (Some (DVal Z 5%Z))]
       [("fuel", None, [(0, HVal Z 5%Z)]); ("fuel_squared", None, [(0, HVal Z 25%Z)])]] []
  = inl [r0 "a" "Truck" "fuel" None 0 5%Z SNone].
Proof. vm_compute. reflexivity. Qed.
(** With no actors the table of locations is not made: UnboundLocalError. *)
Theorem C68_empty_refuted : create_location_table [] = inr UnboundLocal.
Proof. reflexivity. Qed.
(** The column names are those of the last actor: after an actor without recorded
    locations, latitudes and longitudes are headed X, Y, Z. *)
Theorem C68_columns_refuted :
  create_location_table
    [ mkLA "plane" "Plane" [mkLH "place" true true [(0, LGeo 33 (-84) 1000)]]; mkLA "tower" "Tower" [] ]
  = inl ([mkLRow "plane" "Plane" "place" 0 (33, -84, 1000) SInactive], XYZ).
Proof. vm_compute. reflexivity. Qed.

Print Assumptions C45_history.
Print Assumptions C45_determined.
Print Assumptions C45_time_order.
Print Assumptions C45_table.
Print Assumptions C45_state_rows.
Print Assumptions C45_key_rows.
Print Assumptions C45_resource_partial.
Print Assumptions C45_made_partial.
Print Assumptions C68_rows.
Print Assumptions C68_made.
Print Assumptions C68_columns_partial.
Print Assumptions C45_shared_refuted.
Print Assumptions C45_unset_refuted.
Print Assumptions C45_refused_key_refuted.
Print Assumptions C45_removed_key_refuted.
Print Assumptions C45_function_refuted.
Print Assumptions C68_empty_refuted.
Print Assumptions C68_columns_refuted.
