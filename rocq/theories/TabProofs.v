From Coq Require Import String.
From Verif Require Import Common NetModel TabModel TabSpec.
Open Scope string_scope.
Open Scope list_scope.

Section TabProofs.
Variable V : Type.
Notation hv := (hv V). Notation hist := (list (Q * hv)). Notation row := (row V).
Notation actor := (actor V). Notation sdef := (sdef V).

Lemma nth_ext_error {A} (l : list A) : forall l', (forall n, nth_error l n = nth_error l' n) -> l = l'.
Proof.
  induction l as [|x l IH]; intros [|y l'] H; try reflexivity; try (specialize (H 0%nat); discriminate).
  pose proof (H 0%nat) as E. cbn in E. inversion E. f_equal. apply IH. intro n. apply (H (S n)).
Qed.

(** ** One history *)
Lemma pop_snoc (l : list row) (r : row) : pop V (l ++ [r]) = Some (l, r).
Proof.
  induction l as [|x l IH]; [reflexivity|].
  cbn [app pop]. rewrite IH. destruct l; reflexivity.
Qed.
Definition annotate (m : option bool) (l : list row) : list row :=
  match m with
  | None => l
  | Some b => match pop V l with Some (a, r) => a ++ [set_status V r (mark_name b)] | None => [] end
  end.
Lemma annotate_snoc m l r :
  annotate m (l ++ [r]) = l ++ [match m with None => r | Some b => set_status V r (mark_name b) end].
Proof. destruct m as [b|]; cbn; [rewrite pop_snoc|]; reflexivity. Qed.
Lemma annotate_app m l l' : l' <> [] -> annotate m (l ++ l') = l ++ annotate m l'.
Proof.
  intro N. destruct (exists_last N) as (a & r & ->).
  now rewrite app_assoc, !annotate_snoc, app_assoc.
Qed.
Lemma annotate_length m l : List.length (annotate m l) = List.length l.
Proof.
  destruct l as [|x l] using rev_ind; [destruct m; reflexivity|].
  rewrite annotate_snoc, !app_length. reflexivity.
Qed.

Fixpoint expected (name kind s : string) (key : option string) (d : status) (h : hist) : list row :=
  match h with
  | [] => []
  | (t, HMark _ b) :: h' => expected name kind s key (if b then SActive else SInactive) h'
  | (t, e) :: h' =>
      annotate (marker_after V h') (map (fun c => mkRow V name kind s (fst c) t (snd c) d) (cells V key e)) ++
      expected name kind s key d h'
  end.
Lemma hist_rows_expected name kind s key h : forall d data,
  (forall t b h', h = (t, HMark _ b) :: h' -> data <> []) -> (forall t, ~ In (t, HFields _ []) h) ->
  hist_rows V name kind s key d data h = Some (annotate (marker_after V h) data ++ expected name kind s key d h).
Proof.
  induction h as [|[t e] h IH]; intros d data F E.
  - cbn. now rewrite app_nil_r.
  - assert (E' : forall t, ~ In (t, HFields _ []) h) by (intros t' H; apply (E t'); now right).
    destruct e as [v|l|b]; cbn [hist_rows].
    + rewrite IH; [|intros; intro K; destruct data; discriminate|exact E'].
      cbn [marker_after expected cells map]. rewrite annotate_app by discriminate.
      cbn [annotate fst snd]. now rewrite <- app_assoc.
    + rewrite IH; [| |exact E'].
      * cbn [marker_after expected cells]. rewrite map_map. cbn [fst snd].
        rewrite annotate_app; [now rewrite <- app_assoc|].
        destruct l; [exfalso; apply (E t); now left|discriminate].
      * intros; intro K. destruct l; [apply (E t); now left|].
        apply app_eq_nil in K. destruct K; discriminate.
    + destruct data as [|r data _] using rev_ind; [exfalso; now apply (F t b h)|].
      rewrite pop_snoc, IH; [|intros; intro K; apply app_eq_nil in K; destruct K; discriminate|exact E'].
      cbn [marker_after expected]. rewrite !annotate_snoc.
      destruct (marker_after V h); cbn; now rewrite ?annotate_snoc.
Qed.
Lemma to_table_expected name kind s key act h :
  good_history V h ->
  to_table V name kind s key act h = Some (expected name kind s key (default act) h).
Proof.
  intros [F E]. unfold to_table. fold (default act). rewrite hist_rows_expected.
  - destruct (marker_after V h) as [b|] eqn:M; [|reflexivity].
    destruct h as [|[t [v|l|b']] h]; try discriminate. now destruct (F t b' h).
  - intros t b h' K. destruct (F t b h' K).
  - exact E.
Qed.
Lemma expected_length name kind s key h : forall d, List.length (expected name kind s key d h) = ncells V key h.
Proof.
  induction h as [|[t e] h IH]; intro d; [reflexivity|].
  unfold ncells in *. cbn [flat_map snd]. rewrite app_length, <- (IH d).
  destruct e; cbn [expected cells]; rewrite ?app_length, ?annotate_length, ?map_length; try reflexivity.
  cbn. now rewrite (IH d), IH.
Qed.
Lemma nth_annotate m l j (r : row) : nth_error l j = Some r ->
  nth_error (annotate m l) j =
  Some (if Nat.eqb (S j) (List.length l) then match m with None => r | Some b => set_status V r (mark_name b) end else r).
Proof.
  intro H. destruct l as [|x l _] using rev_ind; [destruct j; discriminate|].
  rewrite annotate_snoc, app_length. cbn [List.length].
  destruct (Nat.eqb_spec (S j) (List.length l + 1)) as [E|E].
  - assert (j = List.length l) by lia. subst j.
    rewrite nth_error_app2, Nat.sub_diag in H |- * by lia. cbn in H |- *. now inversion H.
  - assert (j < List.length l)%nat.
    { assert (j < List.length (l ++ [x]))%nat by (apply nth_error_Some; congruence). rewrite app_length in H0. cbn in H0. lia. }
    rewrite nth_error_app1 in H |- * by lia. exact H.
Qed.
Lemma expected_nth name kind s key pre : forall d t e post j c,
  nth_error (cells V key e) j = Some c ->
  nth_error (expected name kind s key d (pre ++ (t, e) :: post)) (ncells V key pre + j)%nat =
  Some (mkRow V name kind s (fst c) t (snd c)
          (if Nat.eqb (S j) (List.length (cells V key e))
           then match marker_after V post with
                | Some b => if b then SActivating else SDeactivating
                | None => phase V d pre
                end
           else phase V d pre)).
Proof.
  induction pre as [|[t' e'] pre IH]; intros d t e post j c H.
  - cbn [app ncells flat_map List.length plus phase fold_left].
    assert (L : (j < List.length (cells V key e))%nat) by (apply nth_error_Some; congruence).
    assert (X : expected name kind s key d ((t, e) :: post) =
        annotate (marker_after V post) (map (fun c => mkRow V name kind s (fst c) t (snd c) d) (cells V key e)) ++
        expected name kind s key d post).
    { destruct e; try reflexivity. destruct j; discriminate. }
    rewrite X, nth_error_app1 by (now rewrite annotate_length, map_length).
    erewrite nth_annotate by (rewrite nth_error_map, H; reflexivity).
    rewrite map_length. destruct (Nat.eqb _ _); [|reflexivity].
    destruct (marker_after V post) as [[|]|]; reflexivity.
  - unfold ncells. cbn [flat_map snd]. rewrite app_length. fold (ncells V key pre).
    cbn [app expected phase fold_left snd].
    destruct e' as [v|l|b].
    + rewrite nth_error_app2; rewrite ?annotate_length, ?map_length; [|lia].
      replace (_ + _ + j - _)%nat with (ncells V key pre + j)%nat by lia. now apply IH.
    + rewrite nth_error_app2; rewrite ?annotate_length, ?map_length; [|lia].
      replace (_ + _ + j - _)%nat with (ncells V key pre + j)%nat by lia. now apply IH.
    + cbn [cells List.length plus]. now apply IH.
Qed.
Lemma expected_shows name kind s key act h :
  shows V name kind s key act h (expected name kind s key (default act) h).
Proof.
  split; [apply expected_length|]. intros pre t e post j c -> H. now apply expected_nth.
Qed.
(** Every place of the table of a history is one of its cells. *)
Lemma cell_at key h : forall n, (n < ncells V key h)%nat ->
  exists pre t e post j c, h = pre ++ (t, e) :: post /\ nth_error (cells V key e) j = Some c /\
    n = (ncells V key pre + j)%nat.
Proof.
  induction h as [|[t e] h IH]; intros n L; [cbn in L; lia|].
  unfold ncells in L. cbn [flat_map snd] in L. rewrite app_length in L. fold (ncells V key h) in L.
  destruct (Nat.lt_ge_cases n (List.length (cells V key e))) as [K|K].
  - destruct (nth_error (cells V key e) n) as [c|] eqn:E; [|apply nth_error_None in E; lia].
    exists [], t, e, h, n, c. split; [reflexivity|]. split; [exact E|reflexivity].
  - destruct (IH (n - List.length (cells V key e))%nat) as (pre & t' & e' & post & j & c & -> & N & E); [lia|].
    exists ((t, e) :: pre), t', e', post, j, c. split; [reflexivity|]. split; [exact N|].
    unfold ncells. cbn [flat_map snd]. rewrite app_length. fold (ncells V key pre). lia.
Qed.
Lemma shows_unique name kind s key act h l l' :
  shows V name kind s key act h l -> shows V name kind s key act h l' -> l = l'.
Proof.
  intros [L P] [L' P']. apply nth_ext_error.
  intro n. destruct (Nat.lt_ge_cases n (ncells V key h)) as [K|K].
  - destruct (cell_at key h n K) as (pre & t & e & post & j & c & H & N & ->).
    now rewrite (P _ _ _ _ _ _ H N), (P' _ _ _ _ _ _ H N).
  - rewrite !(proj2 (nth_error_None _ _)); [reflexivity|lia|lia].
Qed.
Lemma shows_all name kind s key act h l r : shows V name kind s key act h l -> In r l ->
  r_name V r = name /\ r_kind V r = kind /\ r_state V r = s.
Proof.
  intros [L P] I. apply In_nth_error in I. destruct I as [n N].
  assert (K : (n < ncells V key h)%nat) by (rewrite <- L; apply nth_error_Some; congruence).
  destruct (cell_at key h n K) as (pre & t & e & post & j & c & H & M & ->).
  rewrite (P _ _ _ _ _ _ H M) in N. inversion N. now cbn.
Qed.

(** ** Looking up histories *)
Lemma key_eqb_eq a b : key_eqb a b = true <-> a = b.
Proof.
  destruct a, b; cbn; try (split; [discriminate|discriminate]); try tauto.
  rewrite String.eqb_eq. split; [intros ->; reflexivity|now intros [= ->]].
Qed.
Lemma hget_history (a : actor) s k h : hget V s k (a_hist V a) = Some h <-> has_history V a s k h.
Proof.
  unfold has_history. destruct a as [n kd st d]. cbn [a_hist]. clear n kd st.
  induction d as [|[[m j] h0] d IH]; cbn [hget].
  - split; [discriminate|]. intros (pre & post & E & _). destruct pre; discriminate.
  - destruct (String.eqb m s && key_eqb j k) eqn:E.
    + apply andb_prop in E. destruct E as [E1 E2]. apply String.eqb_eq in E1. apply key_eqb_eq in E2. subst m j.
      split.
      * intros [= ->]. exists [], d. split; [reflexivity|]. intros h' [].
      * intros ([|p pre] & post & X & N); [inversion X; reflexivity|].
        inversion X; subst. destruct (N h0). now left.
    + rewrite IH. split.
      * intros (pre & post & -> & N). exists ((m, j, h0) :: pre), post. split; [reflexivity|].
        intros h' [X|X]; [|now apply (N h')]. inversion X; subst.
        rewrite String.eqb_refl in E. cbn in E. assert (key_eqb k k = true) by now apply key_eqb_eq. congruence.
      * intros ([|p pre] & post & X & N).
        -- inversion X; subst. rewrite String.eqb_refl in E. cbn in E.
           assert (key_eqb k k = true) by now apply key_eqb_eq. congruence.
        -- inversion X; subst. exists pre, post. split; [reflexivity|]. intros h' I. apply (N h'). now right.
Qed.
Lemma hget_none (a : actor) s k : hget V s k (a_hist V a) = None <-> (forall h, ~ In (s, k, h) (a_hist V a)).
Proof.
  destruct a as [n kd st d]. cbn [a_hist]. clear n kd st.
  induction d as [|[[m j] h0] d IH]; cbn [hget]; [split; [intros _ h []|reflexivity]|].
  destruct (String.eqb m s && key_eqb j k) eqn:E.
  - split; [discriminate|]. intro N. exfalso. apply andb_prop in E. destruct E as [E1 E2].
    apply String.eqb_eq in E1. apply key_eqb_eq in E2. subst. apply (N h0). now left.
  - rewrite IH. split.
    + intros N h [X|X]; [|now apply (N h)]. inversion X; subst.
      rewrite String.eqb_refl in E. cbn in E. assert (key_eqb k k = true) by now apply key_eqb_eq. congruence.
    + intros N h I. apply (N h). now right.
Qed.
Lemma hget_in (a : actor) s k h : hget V s k (a_hist V a) = Some h -> In (s, k, h) (a_hist V a).
Proof.
  intro H. apply hget_history in H. destruct H as (pre & post & -> & _). apply in_or_app. right. now left.
Qed.
Lemma hget_some (a : actor) s k h : In (s, k, h) (a_hist V a) -> exists h', hget V s k (a_hist V a) = Some h'.
Proof.
  intro H. destruct (hget V s k (a_hist V a)) as [h'|] eqn:E; [now exists h'|].
  exfalso. now apply (proj1 (hget_none a s k) E h).
Qed.
Lemma prefilled_iff (a : actor) s : is_prefilled V s (a_hist V a) = true <-> by_key V a s.
Proof.
  unfold is_prefilled, by_key. rewrite existsb_exists. split.
  - intros ([[m j] h] & I & E). cbn in E. apply andb_prop in E. destruct E as [E1 E2].
    apply String.eqb_eq in E1. subst m. destruct j as [k|]; [|discriminate]. now exists k, h.
  - intros (k & h & I). exists (s, Some k, h). split; [exact I|]. cbn. now rewrite String.eqb_refl.
Qed.
Lemma prefilled_not (a : actor) s : is_prefilled V s (a_hist V a) = false <-> ~ by_key V a s.
Proof.
  rewrite <- prefilled_iff. destruct (is_prefilled V s (a_hist V a)); split; congruence.
Qed.

(** ** The blocks of the table *)
Variable quant : nat -> res V.
Variable skip_locations save_static : bool.
Notation ex a d k h := (expected (a_name V a) (a_kind V a) (sd_name V d) k (default (sd_active V d)) h).
Definition key_blocks (i : nat) (a : actor) (d : sdef) (keys : list string) : list (source * list row) :=
  flat_map (fun k => match hget V (sd_name V d) (Some k) (a_hist V a) with
                     | Some h => [(FromState i (sd_name V d) (Some k), ex a d (Some k) h)]
                     | None => []
                     end) keys.
Definition own_rows (a : actor) (d : sdef) (r : nat) : list row :=
  map (fun tv => mkRow V (a_name V a) (a_kind V a) (sd_name V d) None (fst tv) (snd tv) SNone) (rs_quant V (quant r)).
Definition state_blocks (i : nat) (a : actor) (d : sdef) : list (source * list row) :=
  if skip_locations && sd_location V d then [] else
  match sd_stored V d with
  | None => []
  | Some v =>
      match hget V (sd_name V d) None (a_hist V a) with
      | Some h => [(FromState i (sd_name V d) None, ex a d None h)]
      | None =>
          if is_prefilled V (sd_name V d) (a_hist V a) then key_blocks i a d (keys_of V v)
          else match v with
               | DRes _ r _ => [(FromOwn i (sd_name V d) r, own_rows a d r)]
               | _ => if save_static then [(FromStatic i (sd_name V d), static_rows V a d v)] else []
               end
      end
  end.
Definition owned (b : list (source * list row)) : list nat :=
  flat_map (fun sl => match fst sl with FromOwn _ _ r => [r] | _ => [] end) b.
Definition good_actor (a : actor) : Prop := forall s k h, In (s, k, h) (a_hist V a) -> good_history V h.

Lemma own_table a d r :
  to_table V (a_name V a) (a_kind V a) (sd_name V d) None false (map (fun tv => (fst tv, HVal V (snd tv))) (rs_quant V (quant r))) =
  Some (own_rows a d r).
Proof.
  unfold own_rows. rewrite to_table_expected.
  - f_equal. cbn [default]. induction (rs_quant V (quant r)) as [|[t v] l IH]; [reflexivity|].
    cbn [map fst snd expected cells]. rewrite IH.
    destruct l as [|[t' v'] l]; reflexivity.
  - split.
    + intros t b h' E. destruct (rs_quant V (quant r)) as [|[t' v'] l]; discriminate.
    + intros t I. apply in_map_iff in I. destruct I as ([t' v'] & E & _). discriminate.
Qed.
Lemma key_rows_blocks i a d keys : forall l, good_actor a -> key_rows V a d keys = inl l ->
  l = flat_map snd (key_blocks i a d keys) /\ owned (key_blocks i a d keys) = [].
Proof.
  induction keys as [|k keys IH]; intros l G; cbn [key_rows key_blocks flat_map]; [intros [= <-]; split; reflexivity|].
  destruct (hget V (sd_name V d) (Some k) (a_hist V a)) as [h|] eqn:H; [|discriminate].
  rewrite to_table_expected by (eapply G, hget_in, H).
  destruct (key_rows V a d keys) as [l'|] eqn:K; [|discriminate]. intros [= <-].
  destruct (IH l' G eq_refl) as [E O']. split.
  - cbn [app flat_map snd]. now rewrite E.
  - cbn [app]. unfold owned in *. cbn [flat_map fst]. exact O'.
Qed.
Lemma state_rows_blocks i a d l rs : good_actor a -> state_rows V quant skip_locations save_static a d = inl (l, rs) ->
  l = flat_map snd (state_blocks i a d) /\ rs = owned (state_blocks i a d).
Proof.
  intros G. unfold state_rows, state_blocks.
  destruct (skip_locations && sd_location V d); [intros [= <- <-]; split; reflexivity|].
  destruct (sd_stored V d) as [v|]; [|discriminate].
  destruct (hget V (sd_name V d) None (a_hist V a)) as [h|] eqn:H.
  - rewrite to_table_expected by (eapply G, hget_in, H). intros [= <- <-]. cbn. now rewrite app_nil_r.
  - destruct (is_prefilled V (sd_name V d) (a_hist V a)).
    + destruct v as [x|items|ns x|r x]; try discriminate;
      (destruct (key_rows V a d _) as [l'|] eqn:K; [|discriminate]; intros [= <- <-];
       destruct (key_rows_blocks i a d _ _ G K) as [E1 E2]; cbn [keys_of]; split; [exact E1|symmetry; exact E2]).
    + destruct v as [x|items|ns x|r x].
      * destruct save_static; intros [= <- <-]; split; reflexivity.
      * destruct save_static; intros [= <- <-]; split; cbn [flat_map snd static_rows owned fst app]; now rewrite ?app_nil_r.
      * destruct save_static; intros [= <- <-]; split; reflexivity.
      * rewrite own_table. intros [= <- <-]. cbn. now rewrite app_nil_r.
Qed.
Lemma owned_app x y : owned (x ++ y) = owned x ++ owned y.
Proof. apply flat_map_app. Qed.
Lemma states_rows_blocks i a ds : forall l rs, good_actor a -> states_rows V quant skip_locations save_static a ds = inl (l, rs) ->
  l = flat_map snd (flat_map (state_blocks i a) ds) /\ rs = owned (flat_map (state_blocks i a) ds).
Proof.
  induction ds as [|d ds IH]; intros l rs G; cbn [states_rows flat_map]; [intros [= <- <-]; split; reflexivity|].
  destruct (state_rows V quant skip_locations save_static a d) as [[l1 r1]|] eqn:S1; [|discriminate].
  destruct (states_rows V quant skip_locations save_static a ds) as [[l2 r2]|] eqn:S2; [|discriminate].
  intros [= <- <-]. destruct (state_rows_blocks i a d _ _ G S1) as [-> ->].
  destruct (IH _ _ G eq_refl) as [-> ->]. now rewrite flat_map_app, owned_app.
Qed.
Fixpoint actors_blocks (i : nat) (as_ : list actor) : list (source * list row) :=
  match as_ with
  | [] => []
  | a :: as' => flat_map (state_blocks i a) (a_states V a) ++ actors_blocks (S i) as'
  end.
Lemma actors_rows_blocks as_ : forall i l rs, (forall a, In a as_ -> good_actor a) ->
  actors_rows V quant skip_locations save_static as_ = inl (l, rs) ->
  l = flat_map snd (actors_blocks i as_) /\ rs = owned (actors_blocks i as_).
Proof.
  induction as_ as [|a as_ IH]; intros i l rs G; cbn [actors_rows actors_blocks]; [intros [= <- <-]; split; reflexivity|].
  destruct (states_rows V quant skip_locations save_static a (a_states V a)) as [[l1 r1]|] eqn:S1; [|discriminate].
  destruct (actors_rows V quant skip_locations save_static as_) as [[l2 r2]|] eqn:S2; [|discriminate].
  intros [= <- <-]. destruct (states_rows_blocks i a _ _ _ (G a (or_introl eq_refl)) S1) as [-> ->].
  destruct (IH (S i) _ _ (fun b I => G b (or_intror I)) eq_refl) as [-> ->]. now rewrite flat_map_app, owned_app.
Qed.

(** What they are. *)
Section Blocks.
Variable actors : list actor.
Variable monitored : list nat.
Notation blk := (block V quant skip_locations save_static actors monitored).
Notation st_of := (state_of V skip_locations actors).
Lemma not_recorded a d : ~ recorded V a d <->
  hget V (sd_name V d) None (a_hist V a) = None /\ is_prefilled V (sd_name V d) (a_hist V a) = false.
Proof.
  unfold recorded. rewrite prefilled_not. split.
  - intro N. split; [|tauto]. destruct (hget V (sd_name V d) None (a_hist V a)) as [h|] eqn:E; [|reflexivity].
    exfalso. apply N. left. exists h. now apply hget_history.
  - intros [H P] [[h K]|K]; [|tauto]. apply hget_history in K. congruence.
Qed.
Lemma key_blocks_in i a d keys src l : In (src, l) (key_blocks i a d keys) <->
  exists k h, In k keys /\ hget V (sd_name V d) (Some k) (a_hist V a) = Some h /\
    src = FromState i (sd_name V d) (Some k) /\ l = ex a d (Some k) h.
Proof.
  unfold key_blocks. rewrite in_flat_map. split.
  - intros (k & I & H). destruct (hget V (sd_name V d) (Some k) (a_hist V a)) as [h|] eqn:E; [|destruct H].
    destruct H as [H|[]]. inversion H. exists k, h. repeat split; auto.
  - intros (k & h & I & E & -> & ->). exists k. split; [exact I|]. rewrite E. now left.
Qed.
Definition from_actor (src : source) (i : nat) (s : string) : Prop :=
  match src with
  | FromState i' s' _ | FromOwn i' s' _ | FromStatic i' s' => i' = i /\ s' = s
  | FromResource _ => False
  end.
Lemma state_blocks_in i a d src l : nth_error actors i = Some a -> In d (a_states V a) ->
  In (src, l) (state_blocks i a d) -> from_actor src i (sd_name V d) /\ blk src l.
Proof.
  intros A D. unfold state_blocks.
  destruct (skip_locations && sd_location V d) eqn:SK; [intros []|].
  destruct (sd_stored V d) as [v|] eqn:SV; [|intros []].
  assert (ST : st_of i a d v) by (split; [exact A|]; split; [exact D|]; split; assumption).
  destruct (hget V (sd_name V d) None (a_hist V a)) as [h|] eqn:H.
  - intros [E|[]]. inversion E; subst src l; clear E. split; [now split|].
    exists a, d, v, h. split; [exact ST|]. split; [reflexivity|]. split; [now apply hget_history|apply expected_shows].
  - destruct (is_prefilled V (sd_name V d) (a_hist V a)) eqn:P.
    + intro I. apply key_blocks_in in I. destruct I as (k & h & I & K & -> & ->). split; [now split|].
      exists a, d, v, h. split; [exact ST|]. split; [reflexivity|]. split; [now apply hget_none|].
      split; [exact I|]. split; [now apply hget_history|apply expected_shows].
    + assert (N : ~ recorded V a d) by now apply not_recorded.
      destruct v as [x|items|ns x|r x].
      4:{ intros [E|[]]. inversion E; subst src l; clear E. split; [now split|].
          exists a, d, x. split; [exact ST|]. split; [reflexivity|]. split; [exact N|reflexivity]. }
      all: destruct save_static eqn:SS; [|intros []]; intros [E|[]]; inversion E; subst src l; clear E;
        (split; [now split|]); cbn [block]; (split; [reflexivity|]);
        (eexists a, d, _; split; [exact ST|]; split; [reflexivity|]; split; [exact N|]; split; [discriminate|reflexivity]).
Qed.
Lemma in_state_blocks src l : (forall a, In a actors -> NoDup (map (sd_name V) (a_states V a))) ->
  blk src l -> (forall r, src <> FromResource r) ->
  exists i a d, nth_error actors i = Some a /\ In d (a_states V a) /\ In (src, l) (state_blocks i a d).
Proof.
  intros ND B NR. destruct src as [i s [k|]|i s r|i s|r]; [| | | |now destruct (NR r)].
  - destruct B as (a & d & v & h & (A & D & SV & SK) & <- & NH & I & H & SH). exists i, a, d.
    split; [exact A|]. split; [exact D|]. unfold state_blocks. rewrite SK, SV.
    rewrite (proj2 (hget_none a (sd_name V d) None) NH).
    apply hget_history in H.
    assert (P : is_prefilled V (sd_name V d) (a_hist V a) = true).
    { apply prefilled_iff. exists k, h. now apply hget_in. }
    rewrite P. apply key_blocks_in. exists k, h. repeat split; auto.
    eapply shows_unique; [exact SH|apply expected_shows].
  - destruct B as (a & d & v & h & (A & D & SV & SK) & <- & H & SH). exists i, a, d.
    split; [exact A|]. split; [exact D|]. unfold state_blocks. rewrite SK, SV.
    rewrite (proj2 (hget_history a (sd_name V d) None h) H). left. f_equal.
    eapply shows_unique; [apply expected_shows|exact SH].
  - destruct B as (a & d & x & (A & D & SV & SK) & <- & N & ->). exists i, a, d.
    split; [exact A|]. split; [exact D|]. unfold state_blocks. rewrite SK, SV.
    apply not_recorded in N. destruct N as [-> ->]. now left.
  - destruct B as (SS & a & d & v & (A & D & SV & SK) & <- & N & NV & ->). exists i, a, d.
    split; [exact A|]. split; [exact D|]. unfold state_blocks. rewrite SK, SV.
    apply not_recorded in N. destruct N as [-> ->]. rewrite SS.
    destruct v as [x|items|ns x|r x]; try now left. now destruct (NV r x).
Qed.
End Blocks.

Lemma actors_blocks_in as_ : forall i src l, In (src, l) (actors_blocks i as_) <->
  exists j a d, nth_error as_ j = Some a /\ In d (a_states V a) /\ In (src, l) (state_blocks (i + j)%nat a d).
Proof.
  induction as_ as [|a as_ IH]; intros i src l; cbn [actors_blocks].
  - split; [intros []|]. intros (j & a & d & A & _). destruct j; discriminate.
  - rewrite in_app_iff, in_flat_map, IH. split.
    + intros [(d & D & I)|(j & b & d & A & D & I)].
      * exists 0%nat, a, d. rewrite Nat.add_0_r. repeat split; auto.
      * exists (S j), b, d. rewrite Nat.add_succ_r. repeat split; auto.
    + intros ([|j] & b & d & A & D & I).
      * left. inversion A; subst b. exists d. rewrite Nat.add_0_r in I. split; auto.
      * right. exists j, b, d. rewrite Nat.add_succ_r in I. repeat split; auto.
Qed.
Lemma NoDup_app3 {A} (x y : list A) : NoDup x -> NoDup y -> (forall e, In e x -> ~ In e y) -> NoDup (x ++ y).
Proof.
  induction x as [|e x IH]; intros Nx Ny D; [exact Ny|]. inversion Nx; subst. cbn. constructor.
  - rewrite in_app_iff. intros [I|I]; [contradiction|]. apply (D e); [now left|exact I].
  - apply IH; auto. intros e' I. apply D. now right.
Qed.
Lemma key_blocks_nodup i a d keys : NoDup keys -> NoDup (map fst (key_blocks i a d keys)).
Proof.
  induction 1 as [|k keys NI ND IH]; cbn [key_blocks flat_map]; [constructor|].
  rewrite map_app. apply NoDup_app3.
  - destruct (hget V (sd_name V d) (Some k) (a_hist V a)); cbn; repeat constructor. intros [].
  - exact IH.
  - intros e I J. apply in_map_iff in J. destruct J as ([src l] & <- & J).
    apply (key_blocks_in i a d keys) in J. destruct J as (k' & h' & I' & _ & -> & _). cbn [fst] in I.
    destruct (hget V (sd_name V d) (Some k) (a_hist V a)); cbn in I; [|exact I].
    destruct I as [E|[]]. inversion E; subst k'. contradiction.
Qed.
Lemma state_blocks_nodup i a d : (forall v, sd_stored V d = Some v -> NoDup (keys_of V v)) ->
  NoDup (map fst (state_blocks i a d)).
Proof.
  intro K. unfold state_blocks.
  destruct (skip_locations && sd_location V d); [constructor|].
  destruct (sd_stored V d) as [v|]; [|constructor].
  destruct (hget V (sd_name V d) None (a_hist V a)); [cbn; repeat constructor; intros []|].
  destruct (is_prefilled V (sd_name V d) (a_hist V a)); [now apply key_blocks_nodup, K|].
  destruct v; try (destruct save_static); cbn; repeat constructor; intros [].
Qed.
Lemma state_blocks_from i a d src : In src (map fst (state_blocks i a d)) -> from_actor src i (sd_name V d).
Proof.
  intro I. apply in_map_iff in I. destruct I as ([src' l] & E & I). cbn in E. subst src'. revert I.
  unfold state_blocks.
  destruct (skip_locations && sd_location V d); [intros []|].
  destruct (sd_stored V d) as [v|]; [|intros []].
  destruct (hget V (sd_name V d) None (a_hist V a)); [intros [E|[]]; inversion E; now split|].
  destruct (is_prefilled V (sd_name V d) (a_hist V a)).
  - intro I. apply key_blocks_in in I. destruct I as (k & h & _ & _ & -> & _). now split.
  - destruct v; try (destruct save_static); first [intros [E|[]]; inversion E; now split|intros []].
Qed.
Lemma states_blocks_nodup i a ds : NoDup (map (sd_name V) ds) ->
  (forall d v, In d ds -> sd_stored V d = Some v -> NoDup (keys_of V v)) ->
  NoDup (map fst (flat_map (state_blocks i a) ds)).
Proof.
  induction ds as [|d ds IH]; intros N K; cbn [flat_map map]; [constructor|]. cbn in N. inversion N; subst.
  rewrite map_app. apply NoDup_app3.
  - apply state_blocks_nodup. intros v. apply K. now left.
  - apply IH; auto. intros d' v I. apply K. now right.
  - intros src I J. apply state_blocks_from in I. apply in_map_iff in J. destruct J as ([src' l] & E & J). cbn in E. subst src'.
    apply in_flat_map in J. destruct J as (d' & D' & J). apply (in_map fst) in J. apply state_blocks_from in J. cbn [fst] in J.
    apply H1. destruct src; cbn in I, J; try contradiction; destruct I as [_ ->], J as [_ E]; rewrite E; now apply in_map.
Qed.
Lemma actors_blocks_nodup as_ : forall i,
  (forall a, In a as_ -> NoDup (map (sd_name V) (a_states V a)) /\
     forall d v, In d (a_states V a) -> sd_stored V d = Some v -> NoDup (keys_of V v)) ->
  NoDup (map fst (actors_blocks i as_)).
Proof.
  induction as_ as [|a as_ IH]; intros i W; cbn [actors_blocks]; [constructor|]. rewrite map_app. apply NoDup_app3.
  - destruct (W a (or_introl eq_refl)). now apply states_blocks_nodup.
  - apply IH. intros b I. apply W. now right.
  - intros src I J. apply in_map_iff in J. destruct J as ([src' l] & E & J). cbn in E. subst src'.
    apply actors_blocks_in in J. destruct J as (j & b & d & _ & _ & J). apply (in_map fst) in J. apply state_blocks_from in J.
    apply in_map_iff in I. destruct I as ([src' l'] & E & I). cbn in E. subst src'.
    apply in_flat_map in I. destruct I as (d' & _ & I). apply (in_map fst) in I. apply state_blocks_from in I.
    cbn [fst] in I, J. destruct src; cbn in I, J; try contradiction; destruct I, J; lia.
Qed.
Lemma owned_in b r : In r (owned b) <-> exists i s l, In (FromOwn i s r, l) b.
Proof.
  unfold owned. rewrite in_flat_map. split.
  - intros ([[i s k|i s r'|i s|r'] l] & I & H); cbn in H; try contradiction. destruct H as [->|[]]. now exists i, s, l.
  - intros (i & s & l & I). exists (FromOwn i s r, l). split; [exact I|now left].
Qed.

(** ** The table *)
Definition mon_blocks (seen monitored : list nat) : list (source * list row) :=
  flat_map (fun r => if existsb (Nat.eqb r) seen then [] else [(FromResource r, res_rows V quant r)]) monitored.
Lemma mon_blocks_in seen mon src l : In (src, l) (mon_blocks seen mon) <->
  exists r, In r mon /\ ~ In r seen /\ src = FromResource r /\ l = res_rows V quant r.
Proof.
  unfold mon_blocks. rewrite in_flat_map. split.
  - intros (r & I & H). destruct (existsb (Nat.eqb r) seen) eqn:E; [destruct H|].
    destruct H as [H|[]]. inversion H. exists r. repeat split; auto. intro S.
    assert (existsb (Nat.eqb r) seen = true) by (apply existsb_exists; exists r; split; [exact S|apply Nat.eqb_refl]). congruence.
  - intros (r & I & S & -> & ->). exists r. split; [exact I|].
    destruct (existsb (Nat.eqb r) seen) eqn:E; [|now left].
    apply existsb_exists in E. destruct E as (r' & I' & E). apply Nat.eqb_eq in E. subst r'. contradiction.
Qed.
Lemma mon_blocks_nodup seen mon : NoDup mon -> NoDup (map fst (mon_blocks seen mon)).
Proof.
  induction 1 as [|r mon NI ND IH]; cbn [mon_blocks flat_map]; [constructor|].
  rewrite map_app. apply NoDup_app3; [|exact IH|].
  - destruct (existsb (Nat.eqb r) seen); cbn; repeat constructor. intros [].
  - intros e I J. apply in_map_iff in J. destruct J as ([src l] & <- & J).
    apply mon_blocks_in in J. destruct J as (r' & I' & _ & -> & _). cbn [fst] in I.
    destruct (existsb (Nat.eqb r) seen); cbn in I; [exact I|]. destruct I as [E|[]]. inversion E; subst. contradiction.
Qed.
Section Table.
Variable actors : list actor.
Variable monitored : list nat.
Notation blk := (block V quant skip_locations save_static actors monitored).
Definition table_blocks : list (source * list row) :=
  actors_blocks 0 actors ++ mon_blocks (owned (actors_blocks 0 actors)) monitored.
Hypothesis W : well_named V actors.
Hypothesis G : good_histories V actors.
Hypothesis M : NoDup monitored.
Lemma good_actors a : In a actors -> good_actor a.
Proof. intros I s k h. now apply G. Qed.
Lemma table_rows l : create_table V quant skip_locations save_static actors monitored = inl l ->
  l = flat_map snd table_blocks.
Proof.
  unfold create_table. destruct (actors_rows V quant skip_locations save_static actors) as [[l' seen]|] eqn:E; [|discriminate].
  intros [= <-]. destruct (actors_rows_blocks actors 0%nat _ _ good_actors E) as [-> ->].
  unfold table_blocks. rewrite flat_map_app. f_equal.
  unfold mon_blocks. induction monitored as [|r m IH]; [reflexivity|].
  cbn [flat_map]. inversion M; subst. rewrite flat_map_app, IH by assumption.
  destruct (existsb (Nat.eqb r) _); [reflexivity|]. cbn. now rewrite app_nil_r.
Qed.
Lemma actor_block src l : In (src, l) (actors_blocks 0 actors) <-> blk src l /\ forall r, src <> FromResource r.
Proof.
  rewrite actors_blocks_in. split.
  - intros (j & a & d & A & D & I). destruct (state_blocks_in actors monitored j a d src l A D I) as [F B].
    split; [exact B|]. intros r ->. exact F.
  - intros [B NR]. apply (in_state_blocks actors monitored); auto. intros a I. now apply W.
Qed.
Lemma holds_owned r : In r (owned (actors_blocks 0 actors)) <-> exists i s, holds V skip_locations actors i s r.
Proof.
  rewrite owned_in. split.
  - intros (i & s & l & I). apply actor_block in I. destruct I as [(a & d & x & S & N & R & _) _].
    exists i, s, a, d, x. auto.
  - intros (i & s & a & d & x & S & N & R). exists i, s. eexists. apply actor_block. split; [|discriminate].
    exists a, d, x. repeat split; try apply S; auto.
Qed.
Lemma table_block src l : In (src, l) table_blocks <-> blk src l.
Proof.
  unfold table_blocks. rewrite in_app_iff, actor_block, mon_blocks_in. split.
  - intros [[B _]|(r & I & N & -> & ->)]; [exact B|]. split; [exact I|]. split; [|reflexivity].
    intros i s H. apply N, holds_owned. now exists i, s.
  - intro B. destruct src as [i s k|i s r|i s|r]; try (left; split; [exact B|discriminate]).
    right. destruct B as (I & N & ->). exists r. repeat split; auto.
    intro H. apply holds_owned in H. destruct H as (i & s & H). now apply (N i s).
Qed.
Lemma table_nodup : NoDup (map fst table_blocks).
Proof.
  unfold table_blocks. rewrite map_app. apply NoDup_app3; [now apply actors_blocks_nodup|now apply mon_blocks_nodup|].
  intros src I J. apply in_map_iff in I. destruct I as ([s1 l1] & E1 & I). cbn in E1. subst s1.
  apply in_map_iff in J. destruct J as ([s2 l2] & E2 & J). cbn in E2. subst s2.
  apply mon_blocks_in in J. destruct J as (r & _ & _ & -> & _). apply actor_block in I. now apply (proj2 I r).
Qed.
(** A block found by a filter that only accepts its rows. *)
Lemma filter_none {A} (P : A -> bool) l : (forall x, In x l -> P x = false) -> filter P l = [].
Proof.
  induction l as [|x l IH]; intro H; [reflexivity|]. cbn. rewrite H by now left. apply IH. intros y I. apply H. now right.
Qed.
Lemma filter_all {A} (P : A -> bool) l : (forall x, In x l -> P x = true) -> filter P l = l.
Proof.
  induction l as [|x l IH]; intro H; [reflexivity|]. cbn. rewrite H by now left. f_equal. apply IH. intros y I. apply H. now right.
Qed.
Lemma filter_block (P : row -> bool) (bs : list (source * list row)) src0 l0 : NoDup (map fst bs) -> In (src0, l0) bs ->
  (forall r, In r l0 -> P r = true) ->
  (forall src l r, In (src, l) bs -> src <> src0 -> In r l -> P r = false) ->
  filter P (flat_map snd bs) = l0.
Proof.
  intros N I T F. induction bs as [|[s l] bs IH]; [destruct I|]. cbn in N. inversion N; subst.
  cbn [flat_map snd]. rewrite filter_app. destruct I as [I|I].
  - inversion I; subst s l. rewrite (filter_all P l0) by exact T.
    rewrite filter_none; [apply app_nil_r|]. intros r R. apply in_flat_map in R. destruct R as ([s' l'] & J & R).
    apply (F s' l'); auto; [now right|]. intros ->. apply H1. now apply (in_map fst) in J.
  - rewrite (filter_none P l).
    + apply IH; auto. intros s' l' r J. apply F. now right.
    + intros r R. apply (F s l); auto; [now left|]. intros ->. apply H1. now apply (in_map fst) in I.
Qed.
Lemma block_row src l r : blk src l -> In r l ->
  match src with
  | FromState i s _ | FromOwn i s _ | FromStatic i s => exists a, nth_error actors i = Some a /\ r_name V r = a_name V a /\ r_state V r = s
  | FromResource _ => r_state V r = "Resource"
  end.
Proof.
  intros B R. destruct src as [i s [k|]|i s q|i s|q].
  - destruct B as (a & d & v & h & (A & _) & N & _ & _ & _ & S). destruct (shows_all _ _ _ _ _ _ _ _ S R) as (E & _ & E').
    now exists a.
  - destruct B as (a & d & v & h & (A & _) & N & _ & S). destruct (shows_all _ _ _ _ _ _ _ _ S R) as (E & _ & E').
    now exists a.
  - destruct B as (a & d & x & (A & _) & N & _ & ->). apply in_map_iff in R. destruct R as (tv & <- & _). now exists a.
  - destruct B as (_ & a & d & v & (A & _) & N & _ & _ & ->). exists a. split; [exact A|]. subst s.
    destruct v; cbn in R; try (destruct R as [<-|[]]; now split).
    apply in_map_iff in R. destruct R as (kv & <- & _). now split.
  - destruct B as (_ & _ & ->). apply in_map_iff in R. now destruct R as (tv & <- & _).
Qed.
End Table.

(** ** When the table is made *)
Lemma key_rows_ok a d keys : good_actor a ->
  (forall k, In k keys -> exists h, In (sd_name V d, Some k, h) (a_hist V a)) -> exists l, key_rows V a d keys = inl l.
Proof.
  intros G. induction keys as [|k keys IH]; intro H; cbn [key_rows]; [now exists []|].
  destruct (H k (or_introl eq_refl)) as [h I]. apply hget_some in I. destruct I as [h' E]. rewrite E.
  rewrite to_table_expected by (eapply G, hget_in, E).
  destruct IH as [l ->]; [intros k' I; apply H; now right|]. eexists. reflexivity.
Qed.
Lemma state_rows_ok actors a d : all_set V skip_locations actors -> good_histories V actors -> In a actors -> In d (a_states V a) ->
  exists x, state_rows V quant skip_locations save_static a d = inl x.
Proof.
  intros S G A D. assert (GA : good_actor a) by (intros s k h; now apply G).
  unfold state_rows. destruct (skip_locations && sd_location V d) eqn:SK; [eexists; reflexivity|].
  destruct (S a d A D SK) as (v & -> & T & K).
  destruct (hget V (sd_name V d) None (a_hist V a)) as [h|] eqn:H.
  - rewrite to_table_expected by (eapply GA, hget_in, H). eexists. reflexivity.
  - destruct (is_prefilled V (sd_name V d) (a_hist V a)) eqn:P.
    + apply prefilled_iff in P. specialize (T P (proj1 (hget_none _ _ _) H)). specialize (K P).
      destruct (key_rows_ok a d (keys_of V v) GA K) as [l L].
      destruct T as [[items ->]|(ns & x & ->)]; cbn [keys_of] in L; rewrite L; eexists; reflexivity.
    + destruct v; try (destruct save_static; eexists; reflexivity). rewrite own_table. eexists. reflexivity.
Qed.
Lemma states_rows_ok actors a ds : all_set V skip_locations actors -> good_histories V actors -> In a actors -> incl ds (a_states V a) ->
  exists x, states_rows V quant skip_locations save_static a ds = inl x.
Proof.
  intros S G A. induction ds as [|d ds IH]; intro D; cbn [states_rows]; [eexists; reflexivity|].
  destruct (state_rows_ok actors a d S G A (D d (or_introl eq_refl))) as [[l r] ->].
  destruct IH as [[l' r'] ->]; [intros x I; apply D; now right|]. eexists. reflexivity.
Qed.
Lemma actors_rows_ok actors as_ : all_set V skip_locations actors -> good_histories V actors -> incl as_ actors ->
  exists x, actors_rows V quant skip_locations save_static as_ = inl x.
Proof.
  intros S G. induction as_ as [|a as_ IH]; intro I; cbn [actors_rows]; [eexists; reflexivity|].
  destruct (states_rows_ok actors a (a_states V a) S G (I a (or_introl eq_refl)) (fun x H => H)) as [[l r] ->].
  destruct IH as [[l' r'] ->]; [intros x J; apply I; now right|]. eexists. reflexivity.
Qed.
End TabProofs.

(** ** Locations *)
Lemma lpop_snoc l r : lpop (l ++ [r]) = Some (l, r).
Proof.
  induction l as [|x l IH]; [reflexivity|].
  cbn [app lpop]. rewrite IH. destruct l; reflexivity.
Qed.
Definition lannotate (m : option bool) (l : list lrow) : list lrow :=
  match m with
  | None => l
  | Some b => match lpop l with Some (a, r) => a ++ [lset r (mark_name b)] | None => [] end
  end.
Lemma lannotate_snoc m l r :
  lannotate m (l ++ [r]) = l ++ [match m with None => r | Some b => lset r (mark_name b) end].
Proof. destruct m as [b|]; cbn; [rewrite lpop_snoc|]; reflexivity. Qed.
Fixpoint lexpected (name kind s : string) (d : status) (h : list (Q * lv)) : list lrow :=
  match h with
  | [] => []
  | (t, e) :: h' =>
      match coord e with
      | Some c => match lmarker_after h' with
                  | Some b => mkLRow name kind s t c (mark_name b)
                  | None => mkLRow name kind s t c d
                  end :: lexpected name kind s d h'
      | None => lexpected name kind s (match e with LMark true => SActive | _ => SInactive end) h'
      end
  end.
Definition geodetic (h : list (Q * lv)) : bool :=
  existsb (fun te => match snd te with LGeo _ _ _ => true | _ => false end) h.
Lemma lentries_expected name kind s h : forall d data xyz,
  (forall t b h', h = (t, LMark b) :: h' -> data <> []) ->
  lentries name kind s d data xyz h =
  Some (lannotate (lmarker_after h) data ++ lexpected name kind s d h, xyz && negb (geodetic h)).
Proof.
  induction h as [|[t e] h IH]; intros d data xyz F.
  - cbn. now rewrite app_nil_r, andb_true_r.
  - assert (NE : forall r, data ++ [r] <> []) by (intros r K; apply app_eq_nil in K; destruct K; discriminate).
    destruct e as [x y z|x y z|b]; cbn [lentries].
    + rewrite IH by (intros; apply NE). rewrite lannotate_snoc. cbn.
      rewrite <- app_assoc, andb_false_r. cbn. now destruct (lmarker_after h).
    + rewrite IH by (intros; apply NE). rewrite lannotate_snoc. cbn.
      rewrite <- app_assoc. cbn. now destruct (lmarker_after h).
    + destruct data as [|r data _] using rev_ind; [exfalso; now apply (F t b h)|].
      rewrite lpop_snoc, IH by (intros; intro K; apply app_eq_nil in K; destruct K; discriminate).
      cbn [lmarker_after lexpected coord geodetic existsb snd orb]. rewrite !lannotate_snoc.
      destruct (lmarker_after h), b; cbn; now rewrite ?lannotate_snoc.
Qed.
Lemma lexpected_length name kind s h : forall d, List.length (lexpected name kind s d h) = List.length (located h).
Proof.
  induction h as [|[t e] h IH]; intro d; [reflexivity|]. cbn. destruct (coord e); cbn; now rewrite IH.
Qed.
Lemma lexpected_nth name kind s pre : forall d t e post c, coord e = Some c ->
  nth_error (lexpected name kind s d (pre ++ (t, e) :: post)) (List.length (located pre)) =
  Some (mkLRow name kind s t c
          (match lmarker_after post with
           | Some b => if b then SActivating else SDeactivating
           | None => lphase d pre
           end)).
Proof.
  induction pre as [|[t' e'] pre IH]; intros d t e post c H.
  - cbn. rewrite H. cbn. destruct (lmarker_after post) as [[|]|]; reflexivity.
  - cbn [app lexpected located filter snd lphase fold_left]. destruct e' as [x y z|x y z|[|]]; cbn [coord List.length nth_error];
      fold (located pre); now apply IH.
Qed.
Lemma lexpected_shows name kind hd :
  lshows name kind hd (lexpected name kind (lh_state hd) (default (lh_active hd)) (lh_entries hd)).
Proof. split; [apply lexpected_length|]. intros pre t e post c -> H. now apply lexpected_nth. Qed.
Definition loc_hists (a : lactor) : list lhist := filter lh_location (la_hists a).
Lemma lhists_expected name kind hs : forall data xyz, (forall h, In h hs -> lh_location h = true -> lgood (lh_entries h)) ->
  lhists name kind data xyz hs =
  Some (data ++ flat_map (fun h => lexpected name kind (lh_state h) (default (lh_active h)) (lh_entries h)) (filter lh_location hs),
        xyz && negb (existsb (fun h => geodetic (lh_entries h)) (filter lh_location hs))).
Proof.
  induction hs as [|h hs IH]; intros data xyz G; cbn [lhists filter].
  - cbn. now rewrite app_nil_r, andb_true_r.
  - assert (G' : forall h, In h hs -> lh_location h = true -> lgood (lh_entries h)) by (intros h' I; apply G; now right).
    destruct (lh_location h) eqn:L; [|now apply IH].
    pose proof (G h (or_introl eq_refl) L) as GH.
    rewrite lentries_expected by (intros t b h' E; destruct (GH t b h' E)).
    assert (NM : lmarker_after (lh_entries h) = None).
    { destruct (lh_entries h) as [|[t [x y z|x y z|b]] l]; try reflexivity. destruct (GH t b l eq_refl). }
    rewrite NM, IH by exact G'. cbn [lannotate flat_map existsb]. fold (default (lh_active h)).
    rewrite <- app_assoc, negb_orb, andb_assoc. reflexivity.
Qed.
