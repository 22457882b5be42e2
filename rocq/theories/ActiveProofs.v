(** Proofs that the actor model of [ActiveModel] refines the ideal actor. *)
From Verif Require Import Common ActiveModel ActiveSpec.

(** ** Lists *)
Lemma upd_nth {X} i (x : X) l j :
  nth_error (upd i x l) j = if Nat.eqb i j then match nth_error l j with Some _ => Some x | None => None end
                            else nth_error l j.
Proof.
  revert i j. induction l as [|y l IH]; intros [|i] [|j]; cbn; auto.
  destruct (Nat.eqb i j); reflexivity.
Qed.
Lemma upd_same {X} i (x : X) l : nth_error l i = Some x -> upd i x l = l.
Proof.
  revert i. induction l as [|y l IH]; intros [|i]; cbn; intro H; try discriminate.
  - injection H as <-. reflexivity.
  - rewrite IH by exact H. reflexivity.
Qed.
Lemma upd_upd {X} i (x y : X) l : upd i x (upd i y l) = upd i x l.
Proof. revert i. induction l as [|z l IH]; intros [|i]; cbn; auto. rewrite IH. reflexivity. Qed.
Lemma map_upd {X Y} (f : X -> Y) i x l : map f (upd i x l) = upd i (f x) (map f l).
Proof. revert i. induction l as [|z l IH]; intros [|i]; cbn; auto. rewrite IH. reflexivity. Qed.
Lemma upd_F2 {X Y} (R : X -> Y -> Prop) i x y l m :
  Forall2 R l m -> R x y -> Forall2 R (upd i x l) (upd i y m).
Proof. intros H Hr. revert i. induction H; intros [|i]; cbn; constructor; auto. Qed.
Lemma F2_nth {X Y} (R : X -> Y -> Prop) l m :
  Forall2 R l m -> forall i, match nth_error l i, nth_error m i with
                             | Some x, Some y => R x y | None, None => True | _, _ => False end.
Proof. induction 1; intros [|i]; cbn; auto. apply IHForall2. Qed.

Lemma nmem_In n l : nmem n l = true <-> In n l.
Proof.
  unfold nmem. rewrite existsb_exists. split.
  - intros [x [Hx E]]. apply Nat.eqb_eq in E. subst. exact Hx.
  - intro H. exists n. split; [exact H|]. apply Nat.eqb_refl.
Qed.
Lemma nmem_fst n (l : list (nat * Q)) : nmem n (map fst l) = rget n l.
Proof.
  unfold nmem, rget. induction l as [|[k q] l IH]; cbn; [reflexivity|].
  rewrite IH, (Nat.eqb_sym n k). reflexivity.
Qed.
Lemma nrem_fst n (l : list (nat * Q)) : nrem n (map fst l) = map fst (rdel n l).
Proof.
  unfold nrem, rdel. induction l as [|[k q] l IH]; cbn; [reflexivity|].
  rewrite IH. destruct (Nat.eqb k n); reflexivity.
Qed.
Lemma rdel_not_in t l : rget t l = false -> rdel t l = l.
Proof.
  unfold rget, rdel. induction l as [|[k q] l IH]; cbn; [reflexivity|]. intro H.
  apply Bool.orb_false_iff in H. destruct H as [H1 H2]. rewrite H1. cbn. rewrite IH by exact H2. reflexivity.
Qed.
Lemma rdel_gone t l : rget t (rdel t l) = false.
Proof.
  unfold rget, rdel. induction l as [|[k q] l IH]; cbn; [reflexivity|].
  destruct (Nat.eqb k t) eqn:E; cbn; [exact IH|]. rewrite E. exact IH.
Qed.
Lemma rdel_other t u l : t <> u -> rget u (rdel t l) = rget u l.
Proof.
  intro Hn. unfold rget, rdel. induction l as [|[k q] l IH]; cbn; [reflexivity|].
  destruct (Nat.eqb_spec k t) as [->|E]; cbn; rewrite IH; [|reflexivity].
  apply Nat.eqb_neq in Hn. rewrite Hn. reflexivity.
Qed.
Lemma rdel_idem t l : rdel t (rdel t l) = rdel t l.
Proof. apply rdel_not_in, rdel_gone. Qed.
Lemma rdel_nodup t l : NoDup (map fst l) -> NoDup (map fst (rdel t l)).
Proof.
  unfold rdel. induction l as [|[k q] l IH]; cbn; intro H; [constructor|].
  inversion H as [|? ? Hk Hl]; subst. destruct (Nat.eqb k t); cbn; [auto|].
  constructor; [|auto]. intro Hin. apply Hk. apply in_map_iff in Hin. destruct Hin as [p [<- Hp]].
  apply filter_In in Hp. apply in_map. apply Hp.
Qed.
Lemma rget_In t l : rget t l = true <-> In t (map fst l).
Proof. rewrite <- nmem_fst. apply nmem_In. Qed.
Lemma rget_app t l m : rget t (l ++ m) = rget t l || rget t m.
Proof. unfold rget. apply existsb_app. Qed.
Lemma nodup_snoc {X} (l : list X) x : NoDup l -> ~ In x l -> NoDup (l ++ [x]).
Proof.
  intros H Hx. apply NoDup_rev in H. rewrite <- (rev_involutive (l ++ [x])). apply NoDup_rev.
  rewrite rev_app_distr. cbn. constructor; [|exact H]. intro Hin. apply in_rev in Hin. contradiction.
Qed.

(** ** The relation *)
Definition slot_ok (now : Q) (x : sslot) (y : ideal) : Prop :=
  v_kind x = i_kind y /\ v_tasks x = map fst (i_act y) /\ NoDup (map fst (i_act y)) /\
  match i_kind y, i_act y with
  | _, [] => v_data x = None /\ v_val x == i_val y
  | Linear, [(t, r)] =>
      exists d, v_data x = Some d /\ d_rate d = Some r /\ d_started d <= now /\
                v_val x + (now - d_started d) * r == i_val y
  | Shared, act =>
      exists d u, v_data x = Some d /\ d_task d = None /\ d_rates d = Some act /\ d_last d = Some u /\
                  u <= now /\ v_val x + (now - u) * rsum act == i_val y
  | _, _ => False
  end.

Definition owns (a : iactor) (t i : nat) : Prop :=
  exists y, nth_error (i_slots a) i = Some y /\ has t y = true.

Definition rel (a : actor) (b : iactor) : Prop :=
  a_now a = i_now b /\ Forall2 (slot_ok (i_now b)) (a_slots a) (i_slots b) /\
  (forall t i, In (t, i) (a_by_task a) <-> owns b t i) /\ NoDup (a_by_task a).

Lemma has_rget t y : has t y = rget t (i_act y). Proof. reflexivity. Qed.

(** ** Reading *)
Lemma read_ok now x y : slot_ok now x y ->
  exists x' v, read_slot now x = (x', inl v) /\ slot_ok now x' y /\ v == i_val y /\
               v_val x' = v /\ v_tasks x' = v_tasks x /\ v_kind x' = v_kind x /\
               (i_kind y = Shared -> i_act y <> [] ->
                exists d, v_data x' = Some d /\ d_task d = None /\ d_rates d = Some (i_act y) /\ d_last d = Some now).
Proof.
  intros (Hk & Ht & Hn & H). unfold read_slot. rewrite Hk.
  destruct (i_kind y) eqn:Ky.
  - destruct (i_act y) eqn:Ay; [|contradiction]. destruct H as [Hd Hv].
    exists x, (v_val x). split; [reflexivity|]. split.
    { split; [congruence|]. split; [rewrite Ht, Ay; reflexivity|]. split; [rewrite Ay; constructor|].
      rewrite Ky, Ay. auto. }
    repeat (split; auto). intros; discriminate.
  - unfold linear_active. destruct (i_act y) as [|[t r] [|p act]] eqn:Ay.
    + destruct H as [Hd Hv]. rewrite Hd. exists x, (v_val x). split; [reflexivity|]. split.
      { split; [congruence|]. split; [rewrite Ht, Ay; reflexivity|]. split; [rewrite Ay; constructor|].
        rewrite Ky, Ay. auto. }
      repeat (split; auto). intros; discriminate.
    + destruct H as (d & Hd & Hr & Hs & Hv). rewrite Hd, Hr.
      destruct (Qltb now (d_started d)) eqn:El; qbool; [lra|].
      eexists _, _. split; [reflexivity|]. split.
      { split; [cbn; congruence|]. split; [cbn [v_tasks]; rewrite Ht, Ay; reflexivity|].
        split; [rewrite Ay; exact Hn|]. rewrite Ky, Ay.
        eexists. split; [reflexivity|]. cbn [set_data d_rate d_started v_val].
        split; [reflexivity|]. split; [lra|]. rewrite <- Hv. ring. }
      split; [exact Hv|]. cbn. repeat (split; auto). intros; discriminate.
    + contradiction.
  - unfold shared_active. destruct (i_act y) as [|p act] eqn:Ay.
    + destruct H as [Hd Hv]. rewrite Hd. exists x, (v_val x). split; [reflexivity|]. split.
      { split; [congruence|]. split; [rewrite Ht, Ay; reflexivity|]. split; [rewrite Ay; constructor|].
        rewrite Ky, Ay. auto. }
      repeat (split; auto). intros _ C; congruence.
    + destruct H as (d & u & Hd & Htk & Hrs & Hl & Hu & Hv). rewrite Hd, Htk, Hrs, Hl.
      eexists _, _. split; [reflexivity|]. split.
      { split; [cbn; congruence|]. split; [cbn [v_tasks]; rewrite Ht, Ay; reflexivity|].
        split; [rewrite Ay; exact Hn|]. rewrite Ky, Ay.
        eexists _, _. split; [reflexivity|]. cbn [set_data d_task d_rates d_last v_val].
        split; [reflexivity|]. split; [reflexivity|]. split; [reflexivity|]. split; [lra|]. rewrite <- Hv. ring. }
      split; [exact Hv|]. cbn. repeat (split; auto). intros _ _. eexists. repeat split.
Qed.

Lemma read_tasks now x x' v tk : read_slot now x = (x', inl v) ->
  read_slot now (mkSlot (v_kind x) (v_val x) (v_data x) tk) = (mkSlot (v_kind x') (v_val x') (v_data x') tk, inl v).
Proof.
  destruct x as [[] w [d|] tk0]; unfold read_slot, linear_active, shared_active; cbn [v_kind v_val v_data v_tasks];
    try (intro Er; injection Er as <- <-; reflexivity).
  - destruct (d_rate d); [|discriminate]. destruct (Qltb _ _); [discriminate|].
    intro Er; injection Er as <- <-; reflexivity.
  - destruct (d_task d).
    + destruct (d_rate d); [|discriminate]. destruct (rget _ _); [discriminate|].
      intro Er; injection Er as <- <-; reflexivity.
    + intro Er; injection Er as <- <-; reflexivity.
Qed.

(** ** Deactivation of one state *)
Lemma owns_upd b (t : nat) i y y0 u j :
  nth_error (i_slots b) i = Some y0 ->
  (owns (mkIA (i_now b) (upd i y (i_slots b))) u j <->
   if Nat.eqb i j then has u y = true else owns b u j).
Proof.
  intro E. unfold owns. cbn [i_slots]. setoid_rewrite upd_nth.
  destruct (Nat.eqb_spec i j) as [<-|Hn].
  - rewrite E. split; [intros (z & Hz & H); congruence|]. intro H. exists y. auto.
  - tauto.
Qed.

Lemma prem_In t i l p : In p (prem (t, i) l) <-> In p l /\ p <> (t, i).
Proof.
  unfold prem. rewrite filter_In. unfold pair_eqb. destruct p as [u j]. cbn.
  destruct (Nat.eqb_spec u t), (Nat.eqb_spec j i); cbn; intuition (try congruence).
Qed.

Lemma has_without t u y : has u (without t y) = if Nat.eqb t u then false else has u y.
Proof.
  unfold has, without. cbn. fold (rdel t (i_act y)).
  change (rget u (rdel t (i_act y)) = if Nat.eqb t u then false else rget u (i_act y)).
  destruct (Nat.eqb_spec t u) as [<-|Hn]; [apply rdel_gone | apply rdel_other; exact Hn].
Qed.

Lemma rel_deactivated a b i t x' y :
  rel a b -> nth_error (i_slots b) i = Some y -> has t y = true ->
  slot_ok (i_now b) x' (without t y) ->
  rel (mkA (i_now b) (upd i x' (a_slots a)) (prem (t, i) (a_by_task a)))
      (mkIA (i_now b) (at_slot i (without t) (i_slots b))).
Proof.
  intros (Hnow & HF & HB & HD) E Hh Hx. unfold at_slot. rewrite E.
  split; [reflexivity|]. cbn [a_now a_slots a_by_task i_now i_slots].
  split; [apply upd_F2; assumption|]. split.
  - intros u j. rewrite prem_In, HB, (owns_upd b t i _ y) by exact E.
    destruct (Nat.eqb_spec i j) as [<-|Hn].
    + rewrite has_without. destruct (Nat.eqb_spec t u) as [<-|Hu].
      * split; [intros [_ C]; congruence | discriminate].
      * split; [intros [(z & Hz & H) _]; congruence|]. intro H. split; [exists y; auto|]. congruence.
    + split; [tauto|]. intro H. split; [exact H|]. congruence.
  - apply NoDup_filter. exact HD.
Qed.

Lemma deactivate_ok a b i t : rel a b ->
  exists a' b', deactivate a i t = (a', snd (ideal_deactivate_list b [i] t)) /\
                b' = fst (ideal_deactivate_list b [i] t) /\ rel a' b'.
Proof.
  intros HR. pose proof HR as (Hnow & HF & HB & HD). unfold deactivate. cbn [ideal_deactivate_list].
  pose proof (F2_nth _ _ _ HF i) as Hi.
  destruct (nth_error (a_slots a) i) as [x|] eqn:Ex, (nth_error (i_slots b) i) as [y|] eqn:Ey;
    try contradiction.
  2:{ exists a, b. auto. }
  destruct Hi as (Hk & Ht & Hn & Hv). rewrite Ht, nmem_fst, has_rget.
  destruct (rget t (i_act y)) eqn:Eg.
  2:{ exists a, b. rewrite Hk. auto. }
  unfold unlock. rewrite Ht, nrem_fst.
  (* the slot as it was: reading it succeeds *)
  set (x1 := mkSlot (v_kind x) (v_val x) (v_data x) (map fst (rdel t (i_act y)))).
  assert (HS : slot_ok (i_now b) x y) by (repeat (split; auto)).
  destruct (read_ok _ _ _ HS) as (x' & v & Er & HS' & Hvv & Hval & Htk & Hkk & Hsh).
  assert (Er1 : read_slot (i_now b) x1 =
                (mkSlot (v_kind x') (v_val x') (v_data x') (map fst (rdel t (i_act y))), inl v)).
  { apply read_tasks. exact Er. }
  rewrite Hnow, Er1. rewrite Hk in *. destruct (i_kind y) eqn:Ky.
  - destruct (i_act y); [discriminate | contradiction].
  - eexists _, _. split; [reflexivity|]. split; [reflexivity|].
    cbn [fst]. unfold set_slot. cbn [a_now a_slots a_by_task]. rewrite upd_upd.
    apply (rel_deactivated a b i t _ y HR Ey Eg).
    destruct (i_act y) as [|[t0 r] [|p act]] eqn:Ay; [discriminate| |contradiction].
    assert (t0 = t). { cbn in Eg. rewrite Bool.orb_false_r in Eg. apply Nat.eqb_eq in Eg. exact Eg. } subst t0.
    unfold slot_ok, without. cbn [v_kind v_val v_data v_tasks i_kind i_act i_val].
    rewrite Ay, Ky. cbn. rewrite Nat.eqb_refl. cbn. rewrite Hkk.
    split; [reflexivity|]. split; [reflexivity|]. split; [constructor|]. split; [reflexivity|].
    rewrite Hval. exact Hvv.
  - assert (Ane : i_act y <> []) by (destruct (i_act y); [discriminate | congruence]).
    destruct (Hsh eq_refl Ane) as (d & Hd & Htask & Hrates & Hlast).
    unfold shared_deactivate. cbn [v_kind v_val v_data v_tasks]. rewrite Hd, Hrates, Eg.
    unfold shared_active. cbn [v_kind v_val v_data v_tasks set_data d_task d_rates d_last]. rewrite Hlast.
    destruct (rdel t (i_act y)) as [|q act'] eqn:Erd.
    + eexists _, _. split; [reflexivity|]. split; [reflexivity|].
      cbn [fst]. unfold set_slot. cbn [a_now a_slots a_by_task]. rewrite upd_upd.
      apply (rel_deactivated a b i t _ y HR Ey Eg).
      unfold slot_ok, without. cbn [v_kind v_val v_data v_tasks i_kind i_act i_val].
      fold (rdel t (i_act y)). rewrite Erd, Ky, Hkk. cbn [map].
      split; [reflexivity|]. split; [reflexivity|]. split; [constructor|]. split; [reflexivity|].
      rewrite Hval. rewrite <- Hvv. ring.
    + eexists _, _. split; [reflexivity|]. split; [reflexivity|].
      cbn [fst]. unfold set_slot. cbn [a_now a_slots a_by_task]. rewrite upd_upd.
      apply (rel_deactivated a b i t _ y HR Ey Eg).
      unfold slot_ok, without. cbn [v_kind v_val v_data v_tasks i_kind i_act i_val].
      fold (rdel t (i_act y)). rewrite Erd, Ky, Hkk.
      split; [reflexivity|]. split; [reflexivity|]. split.
      { rewrite <- Erd. apply rdel_nodup. exact Hn. }
      eexists _, _. split; [reflexivity|]. cbn [set_data d_task d_rates d_last].
      split; [reflexivity|]. split; [reflexivity|]. split; [reflexivity|]. split; [lra|].
      rewrite Hval, <- Hvv. ring.
Qed.

Lemma deactivate_list_ok l t : forall a b, rel a b ->
  exists a', deactivate_list a l t = (a', snd (ideal_deactivate_list b l t)) /\
             rel a' (fst (ideal_deactivate_list b l t)).
Proof.
  induction l as [|i l IH]; intros a b HR; cbn [deactivate_list].
  - exists a. split; [reflexivity | exact HR].
  - destruct (deactivate_ok a b i t HR) as (a' & b' & E & -> & HR'). rewrite E.
    cbn [ideal_deactivate_list] in *. destruct (nth_error (i_slots b) i) as [y|].
    + destruct (has t y); cbn [fst snd] in *.
      * destruct (IH a' _ HR') as (a'' & E' & HR''). exists a''. split; [exact E' | exact HR''].
      * exists a'. split; [destruct (i_kind y); reflexivity | exact HR'].
    + exists a'. split; [reflexivity | exact HR'].
Qed.

(** ** deactivate_all_states *)
Lemma without_none t y : has t y = false -> without t y = y.
Proof.
  intro H. unfold without. destruct y as [k v act]. cbn in *. f_equal. apply (rdel_not_in t act). exact H.
Qed.
Lemma without_idem t y : without t (without t y) = without t y.
Proof. apply without_none. rewrite has_without, Nat.eqb_refl. reflexivity. Qed.

Lemma ideal_all l t : forall b,
  NoDup l -> (forall i, In i l <-> owns b t i) ->
  ideal_deactivate_list b l t = (mkIA (i_now b) (map (without t) (i_slots b)), AOk).
Proof.
  induction l as [|i l IH]; intros b HN HI; cbn.
  - destruct b as [n sl]. f_equal. f_equal. cbn in *.
    rewrite <- (map_id sl) at 1. apply map_ext_in. intros y Hy.
    destruct (In_nth_error _ _ Hy) as [i Ei]. symmetry. apply without_none.
    destruct (has t y) eqn:E; [|reflexivity]. exfalso. apply (proj2 (HI i)). exists y. auto.
  - destruct (proj1 (HI i) (or_introl eq_refl)) as (y & Ey & Hy). rewrite Ey, Hy.
    inversion HN as [|? ? Hni HN']; subst.
    unfold at_slot. rewrite Ey. rewrite IH; [|exact HN'|].
    + cbn [i_now i_slots]. f_equal. f_equal. rewrite map_upd, without_idem. apply upd_same.
      rewrite nth_error_map, Ey. reflexivity.
    + intro j. rewrite (owns_upd b t i _ y) by exact Ey. destruct (Nat.eqb_spec i j) as [<-|Hn].
      * rewrite has_without, Nat.eqb_refl. split; [contradiction | discriminate].
      * rewrite <- HI. cbn. split; [auto|]. intros [C|H]; [congruence|exact H].
Qed.

Lemma states_of_ok a b t : rel a b ->
  NoDup (states_of a t) /\ (forall i, In i (states_of a t) <-> owns b t i).
Proof.
  intros (_ & _ & HB & HD). unfold states_of. split.
  - clear HB. induction (a_by_task a) as [|[u j] l IH]; cbn; [constructor|].
    inversion HD as [|? ? Hn HD']; subst. destruct (Nat.eqb_spec u t) as [->|]; cbn; [|auto].
    constructor; [|auto]. intro Hin. apply in_map_iff in Hin. destruct Hin as [[u k] [E Hf]].
    apply filter_In in Hf. destruct Hf as [Hf Hu]. cbn in E, Hu. apply Nat.eqb_eq in Hu. subst. contradiction.
  - intro i. rewrite <- HB, in_map_iff. split.
    + intros [[u j] [E Hf]]. apply filter_In in Hf. destruct Hf as [Hf Hu]. cbn in E, Hu.
      apply Nat.eqb_eq in Hu. subst. exact Hf.
    + intro H. exists (t, i). split; [reflexivity|]. apply filter_In. split; [exact H|]. apply Nat.eqb_refl.
Qed.

(** ** Activation *)
Lemma activate_ok a b i t r : rel a b ->
  match nth_error (i_slots b) i with Some y => i_kind y <> Plain | None => True end ->
  exists a', activate a i t (Some r) = (a', snd (ideal_step b (AActivate i t (Some r)))) /\
             rel a' (fst (ideal_step b (AActivate i t (Some r)))).
Proof.
  intros HR HP. pose proof HR as (Hnow & HF & HB & HD). unfold activate. cbn [ideal_step].
  pose proof (F2_nth _ _ _ HF i) as Hi.
  destruct (nth_error (a_slots a) i) as [x|] eqn:Ex, (nth_error (i_slots b) i) as [y|] eqn:Ey;
    try contradiction.
  2:{ exists a. auto. }
  destruct Hi as (Hk & Ht & Hn & Hv). unfold lock, free_for, has.
  assert (Eb : match v_kind x with Shared => nmem t (v_tasks x)
               | _ => match v_tasks x with [] => false | _ => true end end
             = negb (match i_kind y with Shared => negb (rget t (i_act y))
                     | _ => match i_act y with [] => true | _ => false end end)).
  { rewrite Hk, Ht, nmem_fst. destruct (i_kind y); [| |rewrite Bool.negb_involutive; reflexivity];
      destruct (i_act y); reflexivity. }
  rewrite Eb. fold (rget t (i_act y)).
  destruct (match i_kind y with Shared => negb (rget t (i_act y))
            | _ => match i_act y with [] => true | _ => false end end) eqn:Ef; cbn [negb].
  2:{ exists a. auto. }
  assert (Eg : rget t (i_act y) = false).
  { destruct (i_kind y); try (destruct (i_act y); [reflexivity|discriminate]).
    destruct (rget t (i_act y)); [discriminate|reflexivity]. }
  set (y' := mkI (i_kind y) (i_val y) (i_act y ++ [(t, r)])).
  assert (HN' : NoDup (map fst (i_act y ++ [(t, r)]))).
  { rewrite map_app. apply nodup_snoc; [exact Hn|]. cbn. intro C. apply rget_In in C. congruence. }
  assert (Hread : exists x2 v, read_slot (i_now b)
            (mkSlot (v_kind x) (v_val x) (Some (set_data (v_data x) (i_now b) (Some r) (Some t) None None)) (v_tasks x ++ [t]))
            = (x2, inl v) /\ slot_ok (i_now b) x2 y').
  { unfold read_slot. cbn [v_kind]. rewrite Hk. destruct (i_kind y) eqn:Ky; [congruence| |].
    - destruct (i_act y) eqn:Ay; [|discriminate]. destruct Hv as [Hd Hv].
      unfold linear_active. cbn [v_data set_data d_rate d_started v_kind v_val v_tasks].
      destruct (Qltb (i_now b) (i_now b)) eqn:El; qbool; [lra|].
      eexists _, _. split; [reflexivity|]. unfold y'. split; [cbn; congruence|].
      cbn [v_tasks i_act]. split; [rewrite Ht; reflexivity|]. split; [exact HN'|].
      cbn [i_kind app]. eexists. split; [reflexivity|]. cbn [set_data d_rate d_started v_val i_val].
      split; [reflexivity|]. split; [lra|]. rewrite <- Hv. ring.
    - unfold shared_active. cbn [v_data set_data d_rate d_task d_rates d_last d_started v_kind v_val v_tasks].
      destruct (i_act y) as [|p act] eqn:Ay.
      + destruct Hv as [Hd Hv]. rewrite Hd. cbn [rget existsb].
        eexists _, _. split; [reflexivity|]. unfold y'. split; [cbn; congruence|].
        cbn [v_tasks i_act]. split; [rewrite Ht; reflexivity|]. split; [exact HN'|].
        cbn [i_kind app]. eexists _, _. split; [reflexivity|]. cbn [set_data d_task d_rates d_last v_val i_val].
        split; [reflexivity|]. split; [reflexivity|]. split; [reflexivity|]. split; [lra|]. rewrite <- Hv. ring.
      + destruct Hv as (d & u & Hd & Htk & Hrs & Hl & Hu & Hv). rewrite Hd, Hrs, Hl, Eg.
        eexists _, _. split; [reflexivity|]. unfold y'. split; [cbn; congruence|].
        cbn [v_tasks i_act]. split; [rewrite Ht, map_app; reflexivity|]. split; [exact HN'|].
        cbn [i_kind app]. eexists _, _. split; [reflexivity|]. cbn [set_data d_task d_rates d_last v_val i_val].
        split; [reflexivity|]. split; [reflexivity|]. split; [reflexivity|]. split; [lra|]. rewrite <- Hv. ring. }
  destruct Hread as (x2 & v & Er & HS). rewrite Hnow, Er.
  eexists. split.
  { f_equal. cbn [snd]. rewrite Hk. destruct (i_kind y); [congruence|reflexivity|reflexivity]. }
  cbn [fst]. unfold set_slot, at_slot. rewrite Ey. cbn [a_now a_slots a_by_task]. rewrite upd_upd. fold y'.
  split; [reflexivity|]. split; [apply upd_F2; assumption|]. cbn [a_by_task]. split.
  - intros u j. rewrite in_app_iff, HB, (owns_upd b t i _ y) by exact Ey.
    destruct (Nat.eqb_spec i j) as [<-|Hne].
    + unfold y'. rewrite has_rget. cbn [i_act]. rewrite rget_app. cbn. rewrite Bool.orb_false_r.
      destruct (Nat.eqb_spec t u) as [<-|Hu].
      * rewrite Bool.orb_true_r. tauto.
      * rewrite Bool.orb_false_r. split.
        -- intros [(z & Hz & H)|[C|[]]]; [|congruence]. rewrite Ey in Hz. injection Hz as <-. exact H.
        -- intro H. left. exists y. auto.
    + cbn. split; [intros [H|[C|[]]]; [exact H|congruence]|tauto].
  - apply nodup_snoc; [exact HD|]. rewrite HB. intros (z & Hz & H). rewrite Ey in Hz. injection Hz as <-.
    rewrite has_rget in H. congruence.
Qed.

(** ** One step and runs *)
Lemma slot_grow now now' x y : now <= now' -> slot_ok now x y -> slot_ok now' x (grow (now' - now) y).
Proof.
  intros Hl (Hk & Ht & Hn & Hv). unfold slot_ok, grow. cbn [i_kind i_val i_act].
  split; [exact Hk|]. split; [exact Ht|]. split; [exact Hn|].
  destruct (i_kind y).
  - destruct (i_act y); [|contradiction]. destruct Hv as [Hd Hv]. split; [exact Hd|].
    rewrite Hv. cbn. ring.
  - destruct (i_act y) as [|[t r] [|]]; [|  |contradiction].
    + destruct Hv as [Hd Hv]. split; [exact Hd|]. rewrite Hv. cbn. ring.
    + destruct Hv as (d & Hd & Hr & Hs & Hv). exists d. split; [exact Hd|]. split; [exact Hr|].
      split; [lra|]. rewrite <- Hv. cbn. ring.
  - destruct (i_act y) as [|p act].
    + destruct Hv as [Hd Hv]. split; [exact Hd|]. rewrite Hv. cbn. ring.
    + destruct Hv as (d & u & Hd & Htk & Hrs & Hll & Hu & Hv). exists d, u.
      split; [exact Hd|]. split; [exact Htk|]. split; [exact Hrs|]. split; [exact Hll|]. split; [lra|].
      rewrite <- Hv. unfold rsum. ring.
Qed.

Lemma step_ok a b o : rel a b -> allowed b o ->
  same_out (snd (astep a o)) (snd (ideal_step b o)) /\ rel (fst (astep a o)) (fst (ideal_step b o)).
Proof.
  intros HR HA. destruct o as [i t [r|] | i t | l t | t | i | i v | t]; cbn [allowed] in HA.
  - destruct HA as [_ HP]. destruct (activate_ok a b i t r HR HP) as (a' & E & HR').
    cbn [astep]. rewrite E. cbn [fst snd]. split; [|exact HR'].
    cbn [ideal_step]. destruct (nth_error (i_slots b) i); [|reflexivity]. destruct (free_for t i0); reflexivity.
  - destruct HA as [C _]. congruence.
  - cbn [astep ideal_step]. destruct (deactivate_ok a b i t HR) as (a' & b' & E & -> & HR').
    rewrite E. cbn [fst snd]. split; [|exact HR'].
    cbn. destruct (nth_error (i_slots b) i); [|reflexivity]. destruct (has t i0); [reflexivity|].
    destruct (i_kind i0); reflexivity.
  - cbn [astep ideal_step]. destruct (deactivate_list_ok l t a b HR) as (a' & E & HR').
    rewrite E. cbn [fst snd]. split; [|exact HR'].
    assert (G : forall l b, match snd (ideal_deactivate_list b l t) with AVal _ => False | _ => True end).
    { clear. induction l as [|i l IH]; intro b; cbn; [exact I|].
      destruct (nth_error (i_slots b) i); [|exact I]. destruct (has t i0); [apply IH|exact I]. }
    specialize (G l b). destruct (snd (ideal_deactivate_list b l t)); cbn; auto. contradiction.
  - cbn [astep ideal_step].
    destruct (deactivate_list_ok (states_of a t) t a b HR) as (a' & E & HR').
    destruct (states_of_ok a b t HR) as [HN HI].
    rewrite (ideal_all _ _ _ HN HI) in *. rewrite E. cbn. split; [reflexivity | exact HR'].
  - cbn [astep ideal_step]. pose proof HR as (Hnow & HF & HB & HD).
    pose proof (F2_nth _ _ _ HF i) as Hi.
    destruct (nth_error (a_slots a) i) as [x|] eqn:Ex, (nth_error (i_slots b) i) as [y|] eqn:Ey;
      try contradiction.
    2:{ cbn. auto. }
    destruct (read_ok _ _ _ Hi) as (x' & v & Er & HS & Hv & _).
    rewrite Hnow, Er. cbn. split; [exact Hv|]. split; [exact Hnow|]. cbn. split; [|auto].
    rewrite <- (upd_same i y (i_slots b) Ey). apply upd_F2; [exact HF|exact HS].
  - cbn [astep ideal_step]. pose proof HR as (Hnow & HF & HB & HD).
    pose proof (F2_nth _ _ _ HF i) as Hi.
    destruct (nth_error (a_slots a) i) as [x|] eqn:Ex, (nth_error (i_slots b) i) as [y|] eqn:Ey;
      try contradiction.
    2:{ cbn. auto. }
    cbn [fst snd]. split; [reflexivity|]. unfold at_slot. rewrite Ey.
    destruct Hi as (Hk & Ht & Hn & Hvv). rewrite HA in *.
    split; [exact Hnow|]. cbn [set_slot a_slots i_slots i_now a_by_task]. split; [|split; [|exact HD]].
    + apply upd_F2; [exact HF|]. unfold slot_ok. cbn [v_kind v_tasks v_val v_data i_kind i_act i_val].
      split; [exact Hk|]. split; [exact Ht|]. split; [exact Hn|].
      destruct (i_kind y); cbn; (split; [apply Hvv|reflexivity]).
    + intros u j. rewrite HB, (owns_upd b u i _ y) by exact Ey.
      destruct (Nat.eqb_spec i j) as [<-|Hne]; [|tauto].
      unfold owns, has. cbn. split; [intros (z & Hz & H)|discriminate].
      rewrite Ey in Hz. injection Hz as <-. rewrite HA in H. exact H.
  - cbn [astep ideal_step]. pose proof HR as (Hnow & HF & HB & HD). rewrite Hnow.
    destruct (Qleb (i_now b) t) eqn:El; cbn [fst snd]; [|split; [reflexivity|exact HR]]. qbool.
    split; [reflexivity|]. split; [reflexivity|]. cbn [a_slots i_slots i_now a_by_task]. split; [|split; [|exact HD]].
    + clear - HF El. induction HF; cbn; constructor; auto. apply slot_grow; assumption.
    + intros u j. rewrite HB. unfold owns. cbn [i_slots]. rewrite nth_error_map.
      destruct (nth_error (i_slots b) j) as [z|]; cbn.
      * split; intros (w & E & H).
        -- injection E as <-. eexists. split; [reflexivity|]. exact H.
        -- injection E as <-. exists z. split; [reflexivity|]. exact H.
      * split; intros (w & E & H); discriminate.
Qed.

(** Assignment while active, right after a read. *)
Lemma assign_after_read a b i v : rel a b ->
  same_out (snd (astep a (ARead i))) (snd (ideal_step b (ARead i))) /\
  same_out (snd (astep (fst (astep a (ARead i))) (AAssign i v))) (snd (ideal_step b (AAssign i v))) /\
  rel (fst (astep (fst (astep a (ARead i))) (AAssign i v))) (fst (ideal_step b (AAssign i v))).
Proof.
  intro HR. destruct (step_ok a b (ARead i) HR I) as [Ho HR']. split; [exact Ho|].
  clear Ho. cbn [astep ideal_step]. pose proof HR as (Hnow & HF & HB & HD).
  pose proof (F2_nth _ _ _ HF i) as Hi.
  destruct (nth_error (a_slots a) i) as [x|] eqn:Ex, (nth_error (i_slots b) i) as [y|] eqn:Ey;
    try contradiction.
  2:{ cbn [fst snd]. rewrite Ex. split; [reflexivity | exact HR]. }
  destruct (read_ok _ _ _ Hi) as (x' & w & Er & HS & Hv & Hval & Htk & Hkk & Hsh).
  rewrite Hnow, Er. cbn [fst snd set_slot a_slots]. rewrite upd_nth, Nat.eqb_refl, Ex. cbn [fst snd].
  split; [reflexivity|]. unfold at_slot. rewrite Ey.
  split; [exact Hnow|]. cbn [set_slot a_slots i_slots i_now a_by_task a_now]. rewrite upd_upd.
  split; [|split; [|exact HD]].
  - apply upd_F2; [exact HF|].
    (* the slot was evaluated now *)
    destruct HS as (Hk & Ht & Hn & HS). unfold slot_ok. cbn [v_kind v_tasks v_val v_data i_kind i_act i_val].
    split; [exact Hk|]. split; [exact Ht|]. split; [exact Hn|].
    destruct (i_kind y) eqn:Ky.
    + destruct (i_act y); [|contradiction]. split; [apply HS|reflexivity].
    + destruct (i_act y) as [|[t r] [|]] eqn:Ay; [split; [apply HS|reflexivity]| |contradiction].
      destruct HS as (d & Hd & Hr & Hs & Hvv). exists d. split; [exact Hd|]. split; [exact Hr|]. split; [exact Hs|].
      assert (E : d_started d = i_now b).
      { clear - Er Hd Hi Ky Ay. destruct Hi as (Hk & _ & _ & Hi). rewrite Ky, Ay in Hi.
        destruct Hi as (d0 & Hd0 & Hr0 & Hs0 & _). revert Er. unfold read_slot. rewrite Hk, Ky.
        unfold linear_active. rewrite Hd0, Hr0. destruct (Qltb _ _) eqn:El; [discriminate|].
        intro Er. injection Er as <- <-. cbn in Hd. injection Hd as <-. reflexivity. }
      rewrite E. ring.
    + destruct (i_act y) as [|p act] eqn:Ay; [split; [apply HS|reflexivity]|].
      destruct (Hsh eq_refl ltac:(discriminate)) as (d & Hd & Htask & Hrs & Hl).
      exists d, (i_now b). split; [exact Hd|]. split; [exact Htask|]. split; [exact Hrs|].
      split; [exact Hl|]. split; [lra|]. ring.
  - intros u j. rewrite HB, (owns_upd b u i _ y) by exact Ey.
    destruct (Nat.eqb_spec i j) as [<-|Hne]; [|tauto].
    unfold owns. rewrite has_rget. cbn [i_act]. split.
    + intros (z & Hz & H). rewrite Ey in Hz. injection Hz as <-. exact H.
    + intro H. exists y. auto.
Qed.

Lemma read_ideal b i : fst (ideal_step b (ARead i)) = b.
Proof. cbn. destruct (nth_error (i_slots b) i); reflexivity. Qed.

Lemma arun_cons a o os : arun a (o :: os) =
  (fst (arun (fst (astep a o)) os), (o, snd (astep a o)) :: snd (arun (fst (astep a o)) os)).
Proof. cbn. destruct (astep a o) as [a1 r]. cbn. destruct (arun a1 os). reflexivity. Qed.
Lemma irun_cons a o os : ideal_run a (o :: os) =
  (fst (ideal_run (fst (ideal_step a o)) os), (o, snd (ideal_step a o)) :: snd (ideal_run (fst (ideal_step a o)) os)).
Proof. cbn. destruct (ideal_step a o) as [a1 r]. cbn. destruct (ideal_run a1 os). reflexivity. Qed.

Lemma run_ok b os : proper b os -> forall a, rel a b ->
  same_trace (snd (arun a os)) (snd (ideal_run b os)) /\ rel (fst (arun a os)) (fst (ideal_run b os)).
Proof.
  induction 1 as [b | b o os HA HP IH | b i v os HP IH]; intros a HR.
  - split; [constructor|exact HR].
  - rewrite arun_cons, irun_cons. cbn [fst snd].
    destruct (step_ok a b o HR HA) as [Ho HR']. destruct (IH _ HR') as [IH1 IH2].
    split; [|exact IH2]. constructor; [split; [reflexivity|exact Ho]|exact IH1].
  - rewrite !arun_cons, !irun_cons. cbn [fst snd]. rewrite read_ideal.
    destruct (assign_after_read a b i v HR) as (H1 & H2 & H3). destruct (IH _ H3) as [IH1 IH2].
    split; [|exact IH2]. constructor; [split; [reflexivity|exact H1]|].
    constructor; [split; [reflexivity|exact H2]|exact IH1].
Qed.

Lemma init_rel t0 l : rel (ainit t0 l) (ideal_init t0 l).
Proof.
  split; [reflexivity|]. cbn. split; [|split].
  - induction l as [|[k v] l IH]; cbn; constructor; [|exact IH].
    repeat (split; [cbn; try reflexivity; try constructor|]). cbn. destruct k; split; reflexivity.
  - intros t i. split; [intros []|]. intros (y & E & H). cbn in E. rewrite nth_error_map in E.
    destruct (nth_error l i); [|discriminate]. injection E as <-. discriminate.
  - constructor.
Qed.

(** ** Runs of the ideal actor *)
Lemma arun_app os os' : forall a, arun a (os ++ os') =
  (fst (arun (fst (arun a os)) os'), snd (arun a os) ++ snd (arun (fst (arun a os)) os')).
Proof.
  induction os as [|o os IH]; intro a; [cbn; destruct (arun a os'); reflexivity|].
  cbn [app]. rewrite !arun_cons, IH. reflexivity.
Qed.
Lemma irun_app os os' : forall a, ideal_run a (os ++ os') =
  (fst (ideal_run (fst (ideal_run a os)) os'), snd (ideal_run a os) ++ snd (ideal_run (fst (ideal_run a os)) os')).
Proof.
  induction os as [|o os IH]; intro a; [cbn; destruct (ideal_run a os'); reflexivity|].
  cbn [app]. rewrite !irun_cons, IH. reflexivity.
Qed.

Lemma no_reads_ideal os : forall b, fst (ideal_run b (no_reads os)) = fst (ideal_run b os).
Proof.
  induction os as [|o os IH]; intro b; [reflexivity|]. cbn [no_reads filter].
  destruct (is_read o) eqn:E; cbn [negb].
  - destruct o; try discriminate. rewrite irun_cons, read_ideal. apply IH.
  - rewrite !irun_cons. apply IH.
Qed.
Lemma no_reads_proper os os' : forall b, proper b (no_reads os ++ os') -> proper b (os ++ os').
Proof.
  induction os as [|o os IH]; intros b H; [exact H|]. cbn [app]. cbn [no_reads filter] in H.
  destruct (is_read o) eqn:E; cbn [negb] in H.
  - destruct o; try discriminate. apply proper_cons; [exact I|]. rewrite read_ideal. apply IH. exact H.
  - cbn [app] in H. inversion H as [|? ? ? HA HP|]; subst; try discriminate.
    apply proper_cons; [exact HA|]. apply IH. exact HP.
Qed.

(** A trace equal to the ideal's up to numbers. *)
Lemma same_trace_app_r tr1 tr2 tr1' tr2' :
  same_trace (tr1 ++ tr2) (tr1' ++ tr2') -> length tr1 = length tr1' -> same_trace tr2 tr2'.
Proof.
  revert tr1'. induction tr1 as [|p tr1 IH]; intros [|q tr1'] H L; try discriminate; [exact H|].
  cbn in H. inversion H; subst. injection L as L. eapply IH; eassumption.
Qed.
Lemma same_out_sym r r' : same_out r r' -> same_out r' r.
Proof. destruct r, r'; cbn; intro H; try discriminate; symmetry; exact H. Qed.
Lemma same_out_trans r1 r2 r3 : same_out r1 r2 -> same_out r2 r3 -> same_out r1 r3.
Proof. destruct r1, r2, r3; cbn; try congruence. intros H1 H2. rewrite H1. exact H2. Qed.
Lemma same_trace_sym t1 t2 : same_trace t1 t2 -> same_trace t2 t1.
Proof. induction 1 as [|p q l m [E H] _ IH]; constructor; auto. split; [congruence|]. apply same_out_sym, H. Qed.
Lemma same_trace_trans t1 t2 : same_trace t1 t2 -> forall t3, same_trace t2 t3 -> same_trace t1 t3.
Proof.
  induction 1 as [|p q l m [E H] _ IH]; intros t3 H3; inversion H3 as [|? z ? ? [E' H'] H3']; subst; constructor.
  - split; [congruence|]. eapply same_out_trans; eassumption.
  - apply IH. assumption.
Qed.
Lemma arun_length os : forall a, length (snd (arun a os)) = length os.
Proof. induction os as [|o os IH]; intro a; [reflexivity|]. rewrite arun_cons. cbn. f_equal. apply IH. Qed.
Lemma irun_length os : forall a, length (snd (ideal_run a os)) = length os.
Proof. induction os as [|o os IH]; intro a; [reflexivity|]. rewrite irun_cons. cbn. f_equal. apply IH. Qed.

Lemma reads_do_not_matter t0 l os os' : proper (ideal_init t0 l) (no_reads os ++ os') ->
  same_trace (snd (arun (fst (arun (ainit t0 l) os)) os'))
             (snd (arun (fst (arun (ainit t0 l) (no_reads os))) os')).
Proof.
  intro HP. pose proof (no_reads_proper os os' _ HP) as HP'.
  destruct (run_ok _ _ HP _ (init_rel t0 l)) as [H1 _].
  destruct (run_ok _ _ HP' _ (init_rel t0 l)) as [H2 _].
  rewrite arun_app, irun_app in H1, H2. cbn [snd] in H1, H2.
  apply same_trace_app_r in H1; [|rewrite arun_length, irun_length; reflexivity].
  apply same_trace_app_r in H2; [|rewrite arun_length, irun_length; reflexivity].
  rewrite no_reads_ideal in H1. eapply same_trace_trans; [exact H2|]. apply same_trace_sym. exact H1.
Qed.

(** ** What the ideal gains over a quiet stretch *)
Lemma quiet_slot i os : forallb (quiet i) os = true -> forall b y, nth_error (i_slots b) i = Some y ->
  exists y', nth_error (i_slots (fst (ideal_run b os))) i = Some y' /\
             i_act y' = i_act y /\ i_kind y' = i_kind y /\
             i_val y' == i_val y + (i_now (fst (ideal_run b os)) - i_now b) * Qsum (map snd (i_act y)).
Proof.
  intro HQ. induction os as [|o os IH]; intros b y Hy.
  - exists y. cbn. split; [exact Hy|]. split; [reflexivity|]. split; [reflexivity|]. ring.
  - cbn in HQ. apply Bool.andb_true_iff in HQ. destruct HQ as [Hq HQ]. specialize (IH HQ).
    rewrite irun_cons. cbn [fst].
    assert (S : exists y1, nth_error (i_slots (fst (ideal_step b o))) i = Some y1 /\ i_act y1 = i_act y /\
              i_kind y1 = i_kind y /\
              i_val y1 == i_val y + (i_now (fst (ideal_step b o)) - i_now b) * Qsum (map snd (i_act y))).
    { destruct o as [j t r|j t|l t|t|j|j v|t]; cbn [quiet] in Hq; try discriminate.
      - apply Bool.negb_true_iff in Hq. apply Nat.eqb_neq in Hq.
        exists y. cbn [ideal_step]. destruct (nth_error (i_slots b) j) as [z|] eqn:Ez; [destruct r as [r|]|].
        + destruct (free_for t z); cbn [fst i_slots i_now].
          * unfold at_slot. rewrite Ez, upd_nth. destruct (Nat.eqb_spec j i); [congruence|].
            split; [exact Hy|]. split; [reflexivity|]. split; [reflexivity|]. ring.
          * split; [exact Hy|]. split; [reflexivity|]. split; [reflexivity|]. ring.
        + cbn. split; [exact Hy|]. split; [reflexivity|]. split; [reflexivity|]. ring.
        + cbn. split; [exact Hy|]. split; [reflexivity|]. split; [reflexivity|]. ring.
      - apply Bool.negb_true_iff in Hq. apply Nat.eqb_neq in Hq.
        exists y. cbn [ideal_step ideal_deactivate_list]. destruct (nth_error (i_slots b) j) as [z|] eqn:Ez.
        + destruct (has t z); cbn [fst i_slots i_now].
          * unfold at_slot. rewrite Ez, upd_nth. destruct (Nat.eqb_spec j i); [congruence|].
            split; [exact Hy|]. split; [reflexivity|]. split; [reflexivity|]. ring.
          * split; [exact Hy|]. split; [reflexivity|]. split; [reflexivity|]. ring.
        + cbn. split; [exact Hy|]. split; [reflexivity|]. split; [reflexivity|]. ring.
      - rewrite read_ideal. exists y. split; [exact Hy|]. split; [reflexivity|]. split; [reflexivity|]. ring.
      - apply Bool.negb_true_iff in Hq. apply Nat.eqb_neq in Hq.
        exists y. cbn [ideal_step]. destruct (nth_error (i_slots b) j) as [z|] eqn:Ez; cbn [fst i_slots i_now].
        + unfold at_slot. rewrite Ez, upd_nth. destruct (Nat.eqb_spec j i); [congruence|].
          split; [exact Hy|]. split; [reflexivity|]. split; [reflexivity|]. ring.
        + split; [exact Hy|]. split; [reflexivity|]. split; [reflexivity|]. ring.
      - cbn [ideal_step]. destruct (Qleb (i_now b) t); cbn [fst i_slots i_now].
        + rewrite nth_error_map, Hy. eexists. split; [reflexivity|]. cbn [grow i_act i_kind i_val].
          split; [reflexivity|]. split; [reflexivity|]. ring.
        + exists y. split; [exact Hy|]. split; [reflexivity|]. split; [reflexivity|]. ring. }
    destruct S as (y1 & H1 & Ha & Hk & Hv). destruct (IH _ _ H1) as (y' & H2 & Ha' & Hk' & Hv').
    exists y'. split; [exact H2|]. split; [congruence|]. split; [congruence|].
    rewrite Hv', Hv, Ha. ring.
Qed.

Lemma reads_ideal a b i y : rel a b -> nth_error (i_slots b) i = Some y -> reads a i (i_val y).
Proof.
  intros HR Hy. destruct (step_ok a b (ARead i) HR I) as [Ho _]. cbn [ideal_step] in Ho. rewrite Hy in Ho.
  cbn [snd] in Ho. unfold reads. destruct (snd (astep a (ARead i))); cbn in Ho; try contradiction; try discriminate.
  eexists. split; [reflexivity|exact Ho].
Qed.
Lemma reads_uniq a i v w : reads a i v -> reads a i w -> v == w.
Proof. intros (x & E & H) (z & E' & H'). rewrite E in E'. injection E' as <-. rewrite <- H. exact H'. Qed.


Lemma holds_ideal a b t i : rel a b -> (holds a t i <-> owns b t i).
Proof.
  intros (_ & HF & _ & _). unfold holds, owns. pose proof (F2_nth _ _ _ HF i) as Hi.
  destruct (nth_error (a_slots a) i) as [x|] eqn:Ex, (nth_error (i_slots b) i) as [y|] eqn:Ey; try contradiction.
  - destruct Hi as (_ & Ht & _). setoid_rewrite has_rget. split.
    + intros (z & E & H). injection E as <-. exists y. split; [reflexivity|]. apply rget_In. rewrite <- Ht. exact H.
    + intros (z & E & H). injection E as <-. exists x. split; [reflexivity|]. rewrite Ht. apply rget_In. exact H.
  - split; intros (z & E & H); discriminate.
Qed.

(** ** The contributions add up *)
Definition alook (t : nat) (act : list (nat * Q)) : option Q :=
  match find (fun p => Nat.eqb (fst p) t) act with Some p => Some (snd p) | None => None end.
Definition oq (o : option Q) : Q := match o with Some r => r | None => 0 end.

Lemma alook_none t act : rget t act = false -> alook t act = None.
Proof.
  unfold alook, rget. induction act as [|[k r] act IH]; cbn; [reflexivity|]. intro H.
  apply Bool.orb_false_iff in H. destruct H as [H1 H2]. rewrite H1. apply IH. exact H2.
Qed.
Lemma alook_del t u act : alook u (rdel t act) = if Nat.eqb t u then None else alook u act.
Proof.
  destruct (Nat.eqb_spec t u) as [<-|Hn]; [apply alook_none, rdel_gone|].
  unfold alook, rdel. induction act as [|[k r] act IH]; cbn; [reflexivity|].
  destruct (Nat.eqb_spec k t) as [->|Hk]; cbn.
  - apply Nat.eqb_neq in Hn. rewrite Hn. exact IH.
  - destruct (Nat.eqb k u); [reflexivity|exact IH].
Qed.
Lemma alook_snoc t u r act : rget t act = false ->
  alook u (act ++ [(t, r)]) = if Nat.eqb t u then Some r else alook u act.
Proof.
  unfold alook, rget. induction act as [|[k q] act IH]; cbn; intro H.
  - destruct (Nat.eqb t u); reflexivity.
  - apply Bool.orb_false_iff in H. destruct H as [H1 H2]. specialize (IH H2).
    destruct (Nat.eqb_spec k u) as [->|Hk]; [|exact IH].
    rewrite (Nat.eqb_sym t u), H1. reflexivity.
Qed.

Lemma Qsum_cons x l : Qsum (x :: l) = x + Qsum l.
Proof. reflexivity. Qed.

Lemma sum_one (f g : nat -> Q) k r ts : NoDup ts -> In k ts -> f k == r + g k ->
  (forall t, t <> k -> f t == g t) -> Qsum (map f ts) == r + Qsum (map g ts).
Proof.
  intros HN Hin Hk Ho. induction ts as [|t ts IH]; [destruct Hin|].
  inversion HN as [|? ? Hnt HN']; subst. cbn [map]. rewrite !Qsum_cons. destruct Hin as [->|Hin].
  - rewrite Hk. assert (E : Qsum (map f ts) == Qsum (map g ts)).
    { clear - Hnt Ho. induction ts as [|u ts IH]; [reflexivity|]. cbn [map]. rewrite !Qsum_cons.
      rewrite IH by (intro C; apply Hnt; right; exact C). rewrite Ho; [reflexivity|].
      intro C. apply Hnt. left. exact C. }
    rewrite E. ring.
  - rewrite IH by assumption. rewrite (Ho t); [ring|]. intro C. subst. contradiction.
Qed.
Lemma sum_rates ts : NoDup ts -> forall act, NoDup (map fst act) -> (forall t, rget t act = true -> In t ts) ->
  Qsum (map snd act) == Qsum (map (fun t => oq (alook t act)) ts).
Proof.
  intros HT. induction act as [|[k r] act IH]; intros HN HI.
  - clear. induction ts as [|t ts IH]; [reflexivity|]. cbn [map] in *. rewrite Qsum_cons, <- IH. unfold alook. cbn. ring.
  - inversion HN as [|? ? Hk HN']; subst. cbn [map snd]. rewrite Qsum_cons.
    rewrite (IH HN').
    + symmetry. apply (sum_one _ _ k r); [exact HT| | |].
      * apply HI. unfold rget. cbn. rewrite Nat.eqb_refl. reflexivity.
      * unfold alook at 1. cbn. rewrite Nat.eqb_refl. cbn.
        rewrite (alook_none k act); [cbn; ring|]. destruct (rget k act) eqn:E; [|reflexivity].
        apply rget_In in E. contradiction.
      * intros t Ht. unfold alook at 1. cbn. destruct (Nat.eqb_spec k t); [congruence|]. reflexivity.
    + intros t Ht. apply HI. unfold rget in *. cbn. rewrite Ht. apply Bool.orb_true_r.
Qed.

Lemma sum_ext (f g : nat -> Q) ts : (forall t, In t ts -> f t == g t) -> Qsum (map f ts) == Qsum (map g ts).
Proof.
  induction ts as [|t ts IH]; intro H; [reflexivity|]. cbn [map]. rewrite !Qsum_cons.
  rewrite (H t) by (left; reflexivity). rewrite IH by (intros; apply H; right; assumption). reflexivity.
Qed.
Lemma sum_lin (f g h : nat -> Q) k ts : (forall t, In t ts -> h t == f t + k * g t) ->
  Qsum (map h ts) == Qsum (map f ts) + k * Qsum (map g ts).
Proof.
  induction ts as [|t ts IH]; intro H; [cbn; ring|]. cbn [map]. rewrite !Qsum_cons.
  rewrite (H t) by (left; reflexivity). rewrite IH by (intros; apply H; right; assumption). ring.
Qed.
Lemma sum_zero ts : Qsum (map (fun _ : nat => 0) ts) == 0.
Proof. induction ts as [|t ts IH]; [reflexivity|]. cbn [map]. rewrite Qsum_cons, IH. ring. Qed.

(** Each task's running account agrees with the ideal state [y]. *)
Definition accounts (b : iactor) (y : ideal) (ts : list nat) (base : Q) (g : nat -> gain) : Prop :=
  NoDup (map fst (i_act y)) /\ (forall t, has t y = true -> In t ts) /\
  (forall t, In t ts -> g_now (g t) = i_now b /\ g_rate (g t) = alook t (i_act y)) /\
  i_val y == base + Qsum (map (fun t => g_sum (g t)) ts).

Definition base_step (i : nat) (v : Q) (p : aop * aout) : Q :=
  match p with (AAssign j w, AOk) => if Nat.eqb i j then w else v | _ => v end.

Lemma ideal_list_slot t l : forall b b', ideal_deactivate_list b l t = (b', AOk) ->
  i_now b' = i_now b /\
  forall i y, nth_error (i_slots b) i = Some y ->
    nth_error (i_slots b') i = Some (if existsb (Nat.eqb i) l then without t y else y).
Proof.
  induction l as [|j l IH]; intros b b' H; cbn in H.
  - injection H as <-. split; [reflexivity|]. intros i y Hy. exact Hy.
  - destruct (nth_error (i_slots b) j) as [z|] eqn:Ez; [|discriminate].
    destruct (has t z) eqn:Hz; [|discriminate]. destruct (IH _ _ H) as [Hn Hs]. cbn [i_now i_slots] in *.
    split; [exact Hn|]. intros i y Hy. cbn [existsb].
    unfold at_slot in Hs. rewrite Ez in Hs.
    specialize (Hs i). rewrite upd_nth in Hs. destruct (Nat.eqb_spec i j) as [->|Hne].
    + rewrite Nat.eqb_refl, Ez in Hs. rewrite Hy in Ez. injection Ez as ->. specialize (Hs _ eq_refl).
      rewrite Hs. cbn. destruct (existsb (Nat.eqb j) l); [rewrite without_idem|]; reflexivity.
    + apply not_eq_sym in Hne. apply Nat.eqb_neq in Hne. rewrite Hne in Hs. cbn. apply Hs. exact Hy.
Qed.

Lemma accounts_deact b y ts base g t : accounts b y ts base g ->
  accounts b (without t y) ts base (fun u => if Nat.eqb u t then mkG (g_now (g u)) None (g_sum (g u)) else g u).
Proof.
  intros (HN & HI & HG & HV). split; [|split; [|split]].
  - cbn. apply (rdel_nodup t). exact HN.
  - intros u Hu. rewrite has_without in Hu. destruct (Nat.eqb t u); [discriminate|]. apply HI. exact Hu.
  - intros u Hu. destruct (HG u Hu) as [H1 H2]. cbn [without i_act]. fold (rdel t (i_act y)).
    rewrite alook_del, (Nat.eqb_sym t u). destruct (Nat.eqb u t); cbn; auto.
  - cbn [without i_val]. rewrite HV. apply Qplus_comp; [reflexivity|]. apply sum_ext.
    intros u _. destruct (Nat.eqb u t); reflexivity.
Qed.
Lemma accounts_ext b y ts base g g' : (forall t, g t = g' t) -> accounts b y ts base g -> accounts b y ts base g'.
Proof.
  intros E (HN & HI & HG & HV). split; [exact HN|]. split; [exact HI|]. split.
  - intros t Ht. rewrite <- E. apply HG. exact Ht.
  - rewrite HV. rewrite (sum_ext (fun t => g_sum (g t)) (fun t => g_sum (g' t)) ts); [reflexivity|].
    intros t _. rewrite E. reflexivity.
Qed.
Lemma accounts_now b b' y ts base g : i_now b' = i_now b -> accounts b y ts base g -> accounts b' y ts base g.
Proof. unfold accounts. intros ->. auto. Qed.

Lemma accounts_step i ts b o y base g :
  NoDup ts -> nth_error (i_slots b) i = Some y -> accounts b y ts base g -> incl (task_of o) ts ->
  loop_finished (o, snd (ideal_step b o)) ->
  let p := (o, snd (ideal_step b o)) in
  exists y', nth_error (i_slots (fst (ideal_step b o))) i = Some y' /\
             accounts (fst (ideal_step b o)) y' ts (base_step i base p) (fun t => gain_step i t (g t) p).
Proof.
  intros HT Hy HA HI HL p. unfold p in *. clear p.
  assert (Same : forall b' , i_now b' = i_now b -> nth_error (i_slots b') i = Some y ->
                 exists y', nth_error (i_slots b') i = Some y' /\ accounts b' y' ts base g).
  { intros b' En Es. exists y. split; [exact Es|]. eapply accounts_now; eassumption. }
  destruct o as [j t r|j t|l t|t|j|j v|t]; cbn [ideal_step base_step gain_step] in *.
  - destruct (nth_error (i_slots b) j) as [z|] eqn:Ez; [destruct r as [r|]|].
    2:{ cbn. apply Same; auto. }
    2:{ cbn. destruct r; apply Same; auto. }
    destruct (free_for t z) eqn:Ef; cbn [fst snd i_slots i_now].
    2:{ apply Same; auto. }
    unfold at_slot. rewrite Ez, upd_nth. rewrite (Nat.eqb_sym i j). destruct (Nat.eqb_spec j i) as [->|Hn].
    2:{ destruct (Same (mkIA (i_now b) (i_slots b)) eq_refl Hy) as (y' & E & H). cbn in E.
        exists y'. split; [exact E|]. exact H. }
    rewrite Ez. rewrite Hy in Ez. injection Ez as <-. eexists. split; [reflexivity|].
    assert (Eg : rget t (i_act y) = false).
    { unfold free_for in Ef. destruct (i_kind y); try (destruct (i_act y); [reflexivity|discriminate]).
      rewrite has_rget in Ef. destruct (rget t (i_act y)); [discriminate|reflexivity]. }
    destruct HA as (HN & HJ & HG & HV). split; [|split; [|split]]; cbn [i_act i_val i_now].
    + rewrite map_app. apply nodup_snoc; [exact HN|]. cbn. intro C. apply rget_In in C. congruence.
    + intros u Hu. rewrite has_rget in Hu. cbn [i_act] in Hu. rewrite rget_app in Hu.
      apply Bool.orb_true_iff in Hu. destruct Hu as [Hu|Hu]; [apply HJ; exact Hu|].
      cbn in Hu. rewrite Bool.orb_false_r in Hu. apply Nat.eqb_eq in Hu. subst u. apply HI. left. reflexivity.
    + intros u Hu. destruct (HG u Hu) as [H1 H2]. rewrite alook_snoc by exact Eg.
      cbn [andb]. rewrite (Nat.eqb_sym u t). destruct (Nat.eqb t u); cbn; auto.
    + rewrite HV. apply Qplus_comp; [reflexivity|]. apply sum_ext.
      intros u _. cbn [andb]. destruct (Nat.eqb u t); reflexivity.
  - cbn [ideal_deactivate_list]. destruct (nth_error (i_slots b) j) as [z|] eqn:Ez.
    2:{ cbn. apply Same; auto. }
    destruct (has t z) eqn:Hz; cbn [fst snd i_slots i_now].
    2:{ apply Same; auto. }
    unfold at_slot. rewrite Ez, upd_nth. rewrite (Nat.eqb_sym i j). destruct (Nat.eqb_spec j i) as [->|Hn].
    2:{ destruct (Same (mkIA (i_now b) (i_slots b)) eq_refl Hy) as (y' & E & H). cbn in E.
        exists y'. split; [exact E|]. exact H. }
    rewrite Ez. rewrite Hy in Ez. injection Ez as <-. eexists. split; [reflexivity|].
    cbn [andb]. eapply accounts_now; [reflexivity|]. apply accounts_deact. eapply accounts_now; [|exact HA]. reflexivity.
  - destruct (ideal_deactivate_list b l t) as [b' r] eqn:E. cbn [fst snd] in *. cbn in HL. subst r.
    destruct (ideal_list_slot t l b b' E) as [Hn Hs]. specialize (Hs i y Hy).
    rewrite Hs. eexists. split; [reflexivity|]. eapply accounts_now; [exact Hn|].
    destruct (existsb (Nat.eqb i) l); cbn [andb]; [|exact HA]. apply accounts_deact. exact HA.
  - cbn [fst snd i_slots]. rewrite nth_error_map, Hy. cbn. eexists. split; [reflexivity|].
    eapply accounts_now with (b := b); [reflexivity|]. apply accounts_deact. exact HA.
  - rewrite (surjective_pairing (match nth_error (i_slots b) j with _ => _ end)). cbn [fst snd].
    destruct (nth_error (i_slots b) j); cbn; apply Same; auto.
  - destruct (nth_error (i_slots b) j) as [z|] eqn:Ez; cbn [fst snd].
    2:{ apply Same; auto. }
    cbn [i_slots]. unfold at_slot. rewrite Ez, upd_nth. rewrite (Nat.eqb_sym i j).
    destruct (Nat.eqb_spec j i) as [->|Hn].
    2:{ destruct (Same (mkIA (i_now b) (i_slots b)) eq_refl Hy) as (y' & E & H). cbn in E.
        exists y'. split; [exact E|]. exact H. }
    rewrite Ez. rewrite Hy in Ez. injection Ez as <-. eexists. split; [reflexivity|].
    destruct HA as (HN & HJ & HG & HV). split; [exact HN|]. split; [exact HJ|]. cbn [i_act i_val i_now g_now g_rate g_sum].
    split; [exact HG|]. rewrite sum_zero. ring.
  - destruct (Qleb (i_now b) t); cbn [fst snd i_slots].
    2:{ apply Same; auto. }
    rewrite nth_error_map, Hy. cbn. eexists. split; [reflexivity|].
    destruct HA as (HN & HJ & HG & HV). split; [exact HN|]. split; [exact HJ|].
    cbn [grow i_act i_val i_now g_now g_rate g_sum]. split.
    + intros u Hu. split; [reflexivity|]. apply HG. exact Hu.
    + rewrite HV. rewrite (sum_rates ts HT (i_act y) HN HJ).
      rewrite <- Qplus_assoc. apply Qplus_comp; [reflexivity|]. symmetry. apply sum_lin.
      intros u Hu. destruct (HG u Hu) as [-> ->]. reflexivity.
Qed.

Lemma accounts_run i ts os : NoDup ts -> (forall o, In o os -> incl (task_of o) ts) -> forall b y base g,
  nth_error (i_slots b) i = Some y -> accounts b y ts base g ->
  Forall loop_finished (snd (ideal_run b os)) ->
  exists y', nth_error (i_slots (fst (ideal_run b os))) i = Some y' /\
    accounts (fst (ideal_run b os)) y' ts (fold_left (base_step i) (snd (ideal_run b os)) base)
             (fun t => fold_left (gain_step i t) (snd (ideal_run b os)) (g t)).
Proof.
  intros HT HI. induction os as [|o os IH]; intros b y base g Hy HA HL.
  - exists y. split; [exact Hy|exact HA].
  - rewrite irun_cons in *. cbn [fst snd fold_left] in *. inversion HL as [|? ? HL1 HL2]; subst.
    destruct (accounts_step i ts b o y base g HT Hy HA (HI o (or_introl eq_refl)) HL1) as (y1 & E1 & H1).
    apply (IH ltac:(intros; apply HI; right; assumption) _ _ _ _ E1 H1 HL2).
Qed.

Lemma same_ok r r' : same_out r r' -> (r = AOk <-> r' = AOk).
Proof. destruct r, r'; cbn; intro H; try discriminate; split; intro E; try discriminate; congruence. Qed.

Lemma same_trace_folds i t tr tr' : same_trace tr tr' -> forall g v,
  fold_left (gain_step i t) tr g = fold_left (gain_step i t) tr' g /\
  fold_left (base_step i) tr v = fold_left (base_step i) tr' v.
Proof.
  induction 1 as [|[o r] [o' r'] tr tr' [E H] _ IH]; intros g v; [split; reflexivity|].
  cbn in E. subst o'. cbn [fst snd] in H. cbn [fold_left].
  assert (G : gain_step i t g (o, r) = gain_step i t g (o, r')).
  { destruct o as [? ? [?|]| | | | | |]; destruct r, r'; cbn in H |- *; try discriminate; reflexivity. }
  assert (B : base_step i v (o, r) = base_step i v (o, r')).
  { destruct o; destruct r, r'; cbn in H |- *; try discriminate; reflexivity. }
  rewrite G, B. apply IH.
Qed.
Lemma same_trace_finished tr tr' : same_trace tr tr' -> Forall loop_finished tr -> Forall loop_finished tr'.
Proof.
  induction 1 as [|[o r] [o' r'] tr tr' [E H] _ IH]; intro HF; [constructor|].
  inversion HF as [|? ? H1 H2]; subst. constructor; [|auto]. cbn in E, H. subst o'.
  destruct o; cbn in *; auto. apply (same_ok _ _ H). exact H1.
Qed.

Lemma sum_of_contributions t0 l i k v0 os ts :
  nth_error l i = Some (k, v0) -> proper (ideal_init t0 l) os ->
  NoDup ts -> (forall o, In o os -> incl (task_of o) ts) ->
  Forall loop_finished (snd (arun (ainit t0 l) os)) ->
  reads (fst (arun (ainit t0 l) os)) i
    (last_assigned v0 i (snd (arun (ainit t0 l) os))
     + Qsum (map (fun t => contribution t0 i t (snd (arun (ainit t0 l) os))) ts)).
Proof.
  intros Hl HP HT HI HF. destruct (run_ok _ _ HP _ (init_rel t0 l)) as [HS HR].
  assert (Hy : nth_error (i_slots (ideal_init t0 l)) i = Some (mkI k v0 [])).
  { cbn. rewrite nth_error_map, Hl. reflexivity. }
  assert (HA : accounts (ideal_init t0 l) (mkI k v0 []) ts v0 (fun _ => mkG t0 None 0)).
  { split; [constructor|]. split; [discriminate|]. split; [intros; split; reflexivity|]. cbn [g_sum i_val].
    rewrite sum_zero. ring. }
  destruct (accounts_run i ts os HT HI _ _ _ _ Hy HA (same_trace_finished _ _ HS HF)) as (y' & E & HA').
  destruct (reads_ideal _ _ i y' HR E) as (w & Ew & Hw). exists w. split; [exact Ew|].
  rewrite Hw. destruct HA' as (_ & _ & _ & HV). rewrite HV.
  unfold last_assigned. fold (base_step i). rewrite (proj2 (same_trace_folds i 0 _ _ HS (mkG t0 None 0) v0)).
  rewrite (sum_ext (fun t => contribution t0 i t (snd (arun (ainit t0 l) os)))
             (fun t => g_sum (fold_left (gain_step i t) (snd (ideal_run (ideal_init t0 l) os)) (mkG t0 None 0))) ts).
  - reflexivity.
  - intros t _. unfold contribution. rewrite (proj1 (same_trace_folds i t _ _ HS (mkG t0 None 0) v0)). reflexivity.
Qed.

(** The growth between two readings with no interference. *)
Lemma growth t0 l os mid i v : proper (ideal_init t0 l) os ->
  proper (fst (ideal_run (ideal_init t0 l) os)) mid -> forallb (quiet i) mid = true ->
  reads (fst (arun (ainit t0 l) os)) i v ->
  let b := fst (ideal_run (ideal_init t0 l) os) in
  exists y, nth_error (i_slots b) i = Some y /\ i_val y == v /\
  reads (fst (arun (fst (arun (ainit t0 l) os)) mid)) i
        (v + (a_now (fst (arun (fst (arun (ainit t0 l) os)) mid)) - a_now (fst (arun (ainit t0 l) os)))
             * Qsum (map snd (i_act y))).
Proof.
  intros HP HM HQ Hr b. destruct (run_ok _ _ HP _ (init_rel t0 l)) as [_ HR]. fold b in HR, HM.
  destruct (run_ok _ _ HM _ HR) as [_ HR2].
  destruct (nth_error (i_slots b) i) as [y|] eqn:Ey.
  - pose proof (reads_ideal _ _ _ _ HR Ey) as Hr'. pose proof (reads_uniq _ _ _ _ Hr' Hr) as Ev.
    exists y. split; [reflexivity|]. split; [exact Ev|].
    destruct (quiet_slot i mid HQ b y Ey) as (y' & E & _ & _ & HV).
    destruct (reads_ideal _ _ i y' HR2 E) as (w & Ew & Hw). exists w. split; [exact Ew|].
    rewrite Hw, HV, Ev. destruct HR as (-> & _). destruct HR2 as (-> & _). reflexivity.
  - exfalso. destruct HR as (_ & HF & _). pose proof (F2_nth _ _ _ HF i) as Hi. rewrite Ey in Hi.
    destruct Hr as (w & Hw & _). cbn [astep] in Hw.
    destruct (nth_error (a_slots (fst (arun (ainit t0 l) os))) i); [contradiction|discriminate].
Qed.

(** ** Locks, in every state whatsoever *)
Definition lock_inv (a : actor) : Prop :=
  (forall t i, In (t, i) (a_by_task a) <-> holds a t i) /\
  (forall i x, nth_error (a_slots a) i = Some x -> v_kind x <> Shared -> (length (v_tasks x) <= 1)%nat) /\
  (forall i x, nth_error (a_slots a) i = Some x -> NoDup (v_tasks x)).

Lemma read_keeps now x : v_tasks (fst (read_slot now x)) = v_tasks x /\ v_kind (fst (read_slot now x)) = v_kind x.
Proof.
  destruct x as [[] w [d|] tk]; unfold read_slot, linear_active, shared_active; cbn [v_kind v_val v_data v_tasks];
    try (split; reflexivity).
  - destruct (d_rate d); [|split; reflexivity]. destruct (Qltb _ _); split; reflexivity.
  - destruct (d_task d); [destruct (d_rate d); [destruct (rget _ _)|]|]; split; reflexivity.
Qed.
Lemma shared_deact_keeps now x t :
  v_tasks (fst (shared_deactivate now x t)) = v_tasks x /\ v_kind (fst (shared_deactivate now x t)) = v_kind x.
Proof.
  unfold shared_deactivate. set (rates := match v_data x with Some _ => _ | None => _ end).
  destruct (rget t rates); [|split; reflexivity].
  unfold shared_active. cbn [v_data v_kind v_val v_tasks set_data d_task]. split; reflexivity.
Qed.

Lemma holds_upd a i x' x bt t j : nth_error (a_slots a) i = Some x ->
  (holds (mkA (a_now a) (upd i x' (a_slots a)) bt) t j <->
   if Nat.eqb i j then In t (v_tasks x') else holds a t j).
Proof.
  intro E. unfold holds. cbn [a_slots]. setoid_rewrite upd_nth. destruct (Nat.eqb_spec i j) as [<-|Hn].
  - rewrite E. split; [intros (z & Hz & H); congruence|]. intro H. exists x'. auto.
  - tauto.
Qed.

(** Changing a slot but neither its kind nor its holders. *)
Lemma lock_inv_touch a i x x' : nth_error (a_slots a) i = Some x ->
  v_tasks x' = v_tasks x -> v_kind x' = v_kind x -> lock_inv a -> lock_inv (set_slot a i x').
Proof.
  intros E Ht Hk (H1 & H2 & H3). split; [|split]; cbn [set_slot a_by_task a_slots].
  - intros t j. rewrite H1. unfold set_slot. rewrite (holds_upd a i x' x) by exact E.
    destruct (Nat.eqb_spec i j) as [<-|]; [|tauto]. unfold holds. rewrite E, Ht.
    split; [intros (z & Hz & H); congruence|]. intro H. exists x. auto.
  - intros j z. rewrite upd_nth. destruct (Nat.eqb_spec i j) as [<-|]; [|apply H2].
    rewrite E. intro Hz. injection Hz as <-. rewrite Ht, Hk. apply (H2 i). exact E.
  - intros j z. rewrite upd_nth. destruct (Nat.eqb_spec i j) as [<-|]; [|apply (H3 j)].
    rewrite E. intro Hz. injection Hz as <-. rewrite Ht. apply (H3 i). exact E.
Qed.

Lemma nrem_In u t l : In u (nrem t l) <-> In u l /\ u <> t.
Proof.
  unfold nrem. rewrite filter_In. destruct (Nat.eqb_spec u t); cbn; intuition congruence.
Qed.
Lemma filter_len {X} (f : X -> bool) l : (length (filter f l) <= length l)%nat.
Proof. induction l; cbn; [lia|]. destruct (f a); cbn; lia. Qed.

(** The shape of every activation and deactivation, as far as locks go. *)
Lemma activate_shape a i t r : 
  match nth_error (a_slots a) i with
  | Some x =>
      if match v_kind x with Shared => nmem t (v_tasks x) | _ => match v_tasks x with [] => false | _ => true end end
      then activate a i t r = (a, AErr ESim)
      else exists x' out, activate a i t r = (mkA (a_now a) (upd i x' (a_slots a)) (a_by_task a ++ [(t, i)]), out) /\
                      v_tasks x' = v_tasks x ++ [t] /\ v_kind x' = v_kind x
  | None => activate a i t r = (a, AErr ESim)
  end.
Proof.
  unfold activate. destruct (nth_error (a_slots a) i) as [x|] eqn:E; [|reflexivity].
  unfold lock. destruct (match v_kind x with Plain => _ | _ => _ end); [reflexivity|].
  set (x1 := mkSlot _ _ (Some _) _). destruct (read_keeps (a_now a) x1) as [Hr1 Hr2].
  destruct (read_slot (a_now a) x1) as [x2 res]. cbn [fst] in *. unfold set_slot. cbn [a_now a_slots a_by_task].
  rewrite upd_upd. eexists _, _. split; [reflexivity|]. split; [exact Hr1|exact Hr2].
Qed.
Lemma deactivate_shape a i t :
  match nth_error (a_slots a) i with
  | Some x =>
      if nmem t (v_tasks x)
      then exists x' out, deactivate a i t = (mkA (a_now a) (upd i x' (a_slots a)) (prem (t, i) (a_by_task a)), out) /\
                      v_tasks x' = nrem t (v_tasks x) /\ v_kind x' = v_kind x
      else deactivate a i t = (a, AErr (match v_kind x with Shared => EUpstage | _ => ESim end))
  | None => deactivate a i t = (a, AErr EKey)
  end.
Proof.
  unfold deactivate. destruct (nth_error (a_slots a) i) as [x|] eqn:E; [|reflexivity].
  destruct (nmem t (v_tasks x)); [|reflexivity]. unfold unlock.
  set (x1 := mkSlot _ _ _ _). destruct (read_keeps (a_now a) x1) as [Hr1 Hr2].
  destruct (read_slot (a_now a) x1) as [x2 [v|e]]; cbn [fst] in *; unfold set_slot; cbn [a_now a_slots a_by_task].
  2:{ rewrite upd_upd. eexists _, _. split; [reflexivity|]. split; assumption. }
  destruct (v_kind x) eqn:K.
  - rewrite upd_upd. eexists _, _. split; [reflexivity|]. split; assumption.
  - rewrite upd_upd. eexists _, _. split; [reflexivity|]. split; assumption.
  - destruct (shared_deact_keeps (a_now a) x2 t) as [Hs1 Hs2].
    destruct (shared_deactivate (a_now a) x2 t) as [x3 [[]|e]]; cbn [fst] in *; rewrite upd_upd;
      eexists _, _; (split; [reflexivity|]); cbn [v_tasks v_kind]; rewrite Hs1, Hs2; split; assumption.
Qed.

Lemma lock_inv_activate a i t r : lock_inv a -> lock_inv (fst (activate a i t r)).
Proof.
  intros HL. pose proof HL as (H1 & H2 & H3). pose proof (activate_shape a i t r) as S.
  destruct (nth_error (a_slots a) i) as [x|] eqn:E; [|rewrite S; exact HL].
  destruct (match v_kind x with Plain => _ | _ => _ end) eqn:EB; [rewrite S; exact HL|].
  destruct S as (x' & out & -> & Ht & Hk). cbn [fst].
  assert (Hni : ~ In t (v_tasks x)).
  { intro C. destruct (v_kind x).
    - destruct (v_tasks x); [contradiction|discriminate].
    - destruct (v_tasks x); [contradiction|discriminate].
    - apply nmem_In in C. congruence. }
  split; [|split]; cbn [a_by_task a_slots].
  - intros u j. rewrite in_app_iff, H1, (holds_upd a i x' x) by exact E.
    destruct (Nat.eqb_spec i j) as [<-|Hn].
    + rewrite Ht, in_app_iff. unfold holds. rewrite E. cbn. split.
      * intros [(z & Hz & H)|[C|[]]]; [injection Hz as <-; left; exact H|]. right. left. congruence.
      * intros [H|[C|[]]]; [left; exists x; auto|]. right. left. congruence.
    + cbn. split; [intros [H|[C|[]]]; [exact H|congruence]|tauto].
  - intros j z. rewrite upd_nth. destruct (Nat.eqb_spec i j) as [<-|]; [|apply H2].
    rewrite E. intro Hz. injection Hz as <-. rewrite Hk, Ht. intro Hs.
    destruct (v_kind x); [| |congruence]; (destruct (v_tasks x); [cbn; lia|discriminate]).
  - intros j z. rewrite upd_nth. destruct (Nat.eqb_spec i j) as [<-|]; [|apply (H3 j)].
    rewrite E. intro Hz. injection Hz as <-. rewrite Ht. apply nodup_snoc; [|exact Hni]. apply (H3 i). exact E.
Qed.
Lemma lock_inv_deactivate a i t : lock_inv a -> lock_inv (fst (deactivate a i t)).
Proof.
  intros HL. pose proof HL as (H1 & H2 & H3). pose proof (deactivate_shape a i t) as S.
  destruct (nth_error (a_slots a) i) as [x|] eqn:E; [|rewrite S; exact HL].
  destruct (nmem t (v_tasks x)) eqn:EB; [|rewrite S; exact HL].
  destruct S as (x' & out & -> & Ht & Hk). cbn [fst].
  split; [|split]; cbn [a_by_task a_slots].
  - intros u j. rewrite prem_In, H1, (holds_upd a i x' x) by exact E.
    destruct (Nat.eqb_spec i j) as [<-|Hn].
    + rewrite Ht, nrem_In. unfold holds. rewrite E. split.
      * intros [(z & Hz & H) C]. injection Hz as <-. split; [exact H|congruence].
      * intros [H C]. split; [exists x; auto|congruence].
    + split; [tauto|]. intro H. split; [exact H|congruence].
  - intros j z. rewrite upd_nth. destruct (Nat.eqb_spec i j) as [<-|]; [|apply H2].
    rewrite E. intro Hz. injection Hz as <-. rewrite Hk, Ht. intro Hs.
    specialize (H2 _ _ E Hs). unfold nrem. pose proof (filter_len (fun x0 => negb (Nat.eqb x0 t)) (v_tasks x)). lia.
  - intros j z. rewrite upd_nth. destruct (Nat.eqb_spec i j) as [<-|]; [|apply (H3 j)].
    rewrite E. intro Hz. injection Hz as <-. rewrite Ht. apply NoDup_filter. apply (H3 i). exact E.
Qed.
Lemma lock_inv_list l t : forall a, lock_inv a -> lock_inv (fst (deactivate_list a l t)).
Proof.
  induction l as [|i l IH]; intros a H; [exact H|]. cbn. pose proof (lock_inv_deactivate a i t H) as H'.
  destruct (deactivate a i t) as [a1 r]. cbn [fst] in *. destruct r; try exact H'. apply IH. exact H'.
Qed.
Lemma lock_inv_step a o : lock_inv a -> lock_inv (fst (astep a o)).
Proof.
  intro H. destruct o as [j t r|j t|l t|t|j|j v|t]; cbn [astep].
  - apply lock_inv_activate, H.
  - apply lock_inv_deactivate, H.
  - apply lock_inv_list, H.
  - apply lock_inv_list, H.
  - destruct (nth_error (a_slots a) j) as [x|] eqn:E; [|exact H].
    destruct (read_keeps (a_now a) x) as [Hr1 Hr2]. destruct (read_slot (a_now a) x) as [x1 r]. cbn [fst] in *.
    eapply lock_inv_touch; eassumption.
  - destruct (nth_error (a_slots a) j) as [x|] eqn:E; [|exact H]. cbn [fst].
    eapply lock_inv_touch; [exact E|reflexivity|reflexivity|exact H].
  - destruct (Qleb (a_now a) t); [|exact H]. exact H.
Qed.
Lemma lock_inv_run os : forall a, lock_inv a -> lock_inv (fst (arun a os)).
Proof.
  induction os as [|o os IH]; intros a H; [exact H|]. rewrite arun_cons. cbn [fst]. apply IH, lock_inv_step, H.
Qed.
Lemma lock_inv_init t0 l : lock_inv (ainit t0 l).
Proof.
  split; [|split]; cbn.
  - intros t i. split; [intros []|]. intros (x & E & H). cbn in E. rewrite nth_error_map in E.
    destruct (nth_error l i); [|discriminate]. injection E as <-. exact H.
  - intros i x. rewrite nth_error_map. destruct (nth_error l i); [|discriminate]. intro E. injection E as <-. cbn. lia.
  - intros i x. rewrite nth_error_map. destruct (nth_error l i); [|discriminate]. intro E. injection E as <-. constructor.
Qed.

Lemma one_holder a i t u : lock_inv a -> kind_of a i <> Some Shared -> holds a t i -> holds a u i -> t = u.
Proof.
  intros (_ & H2 & _) Hk (x & E & H) (x' & E' & H'). rewrite E in E'. injection E' as <-.
  unfold kind_of in Hk. rewrite E in Hk. specialize (H2 _ _ E ltac:(congruence)).
  destruct (v_tasks x) as [|a0 [|a1 tl]]; cbn in *; [contradiction| |lia].
  destruct H as [<-|[]], H' as [<-|[]]. reflexivity.
Qed.
Lemma held_refuses a i t u r : kind_of a i <> Some Shared -> holds a t i ->
  astep a (AActivate i u r) = (a, AErr ESim).
Proof.
  intros Hk (x & E & H). cbn. pose proof (activate_shape a i u r) as S. unfold kind_of in Hk. rewrite E in S, Hk.
  destruct (v_kind x); [| |congruence]; (destruct (v_tasks x); [contradiction|exact S]).
Qed.
Lemma shared_held_refuses a i t r : holds a t i -> astep a (AActivate i t r) = (a, AErr ESim).
Proof.
  intros (x & E & H). cbn. pose proof (activate_shape a i t r) as S. rewrite E in S.
  destruct (v_kind x).
  - destruct (v_tasks x); [contradiction|exact S].
  - destruct (v_tasks x); [contradiction|exact S].
  - apply nmem_In in H. rewrite H in S. exact S.
Qed.
Lemma not_holder_refused a i t : ~ holds a t i ->
  exists e, astep a (ADeactivate i t) = (a, AErr e).
Proof.
  intro Hn. cbn. pose proof (deactivate_shape a i t) as S. destruct (nth_error (a_slots a) i) as [x|] eqn:E.
  - destruct (nmem t (v_tasks x)) eqn:En; [|eexists; exact S]. exfalso. apply Hn. exists x. split; [exact E|].
    apply nmem_In. exact En.
  - eexists. exact S.
Qed.
Lemma deactivate_releases a i t : forall u j,
  holds (fst (astep a (ADeactivate i t))) u j <-> holds a u j /\ (u, j) <> (t, i).
Proof.
  intros u j. cbn [astep]. pose proof (deactivate_shape a i t) as S.
  assert (Same : ~ holds a t i -> (holds a u j <-> holds a u j /\ (u, j) <> (t, i))).
  { intro Hn. split; [|tauto]. intro H. split; [exact H|]. intro C. injection C as -> ->. contradiction. }
  destruct (nth_error (a_slots a) i) as [x|] eqn:E.
  - destruct (nmem t (v_tasks x)) eqn:En.
    + destruct S as (x' & out & -> & Ht & _). cbn [fst]. rewrite (holds_upd a i x' x) by exact E.
      destruct (Nat.eqb_spec i j) as [<-|Hn].
      * rewrite Ht, nrem_In. unfold holds. rewrite E. split.
        -- intros [H C]. split; [exists x; auto|congruence].
        -- intros [(z & Hz & H) C]. injection Hz as <-. split; [exact H|congruence].
      * split; [|tauto]. intro H. split; [exact H|congruence].
    + rewrite S. cbn [fst]. apply Same. intros (z & Hz & H). rewrite E in Hz. injection Hz as <-.
      apply nmem_In in H. congruence.
  - rewrite S. cbn [fst]. apply Same. intros (z & Hz & H). congruence.
Qed.
Lemma activate_acquires a i t r : snd (astep a (AActivate i t r)) = AOk -> forall u j,
  holds (fst (astep a (AActivate i t r))) u j <-> holds a u j \/ (u, j) = (t, i).
Proof.
  cbn [astep]. pose proof (activate_shape a i t r) as S. intro HO.
  destruct (nth_error (a_slots a) i) as [x|] eqn:E; [|rewrite S in HO; discriminate].
  destruct (match v_kind x with Plain => _ | _ => _ end); [rewrite S in HO; discriminate|].
  destruct S as (x' & out & -> & Ht & _). cbn [fst]. intros u j. rewrite (holds_upd a i x' x) by exact E.
  destruct (Nat.eqb_spec i j) as [<-|Hn].
  - rewrite Ht, in_app_iff. unfold holds. rewrite E. cbn. split.
    + intros [H|[<-|[]]]; [left; exists x; auto|right; reflexivity].
    + intros [(z & Hz & H)|C]; [injection Hz as <-; auto|]. injection C as ->. auto.
  - split; [auto|]. intros [H|C]; [exact H|congruence].
Qed.

(** ** deactivate_all_states, for activations that give a rate *)
Definition kinds_of (b : iactor) : list skind := map i_kind (i_slots b).

Lemma at_slot_kinds i f l : (forall y, i_kind (f y) = i_kind y) -> map i_kind (at_slot i f l) = map i_kind l.
Proof.
  intro H. unfold at_slot. destruct (nth_error l i) as [y|] eqn:E; [|reflexivity].
  rewrite map_upd, H. apply upd_same. rewrite nth_error_map, E. reflexivity.
Qed.
Lemma kinds_list l t : forall b, kinds_of (fst (ideal_deactivate_list b l t)) = kinds_of b.
Proof.
  induction l as [|i l IH]; intro b; [reflexivity|]. cbn. destruct (nth_error (i_slots b) i) as [y|]; [|reflexivity].
  destruct (has t y); [|reflexivity]. rewrite IH. unfold kinds_of. cbn [i_slots]. apply at_slot_kinds. reflexivity.
Qed.
Lemma kinds_step b o : kinds_of (fst (ideal_step b o)) = kinds_of b.
Proof.
  destruct o as [j t r|j t|l t|t|j|j v|t]; cbn [ideal_step].
  - destruct (nth_error (i_slots b) j) as [z|]; [destruct r|destruct r; reflexivity]; [|reflexivity].
    destruct (free_for t z); [|reflexivity]. apply at_slot_kinds. reflexivity.
  - apply kinds_list.
  - apply kinds_list.
  - unfold kinds_of. cbn. rewrite map_map. reflexivity.
  - destruct (nth_error (i_slots b) j); reflexivity.
  - destruct (nth_error (i_slots b) j); [|reflexivity]. apply at_slot_kinds. reflexivity.
  - destruct (Qleb _ _); [|reflexivity]. unfold kinds_of. cbn. rewrite map_map. reflexivity.
Qed.

(** Some ideal actor explains the state, even after assignments to active states. *)
Definition sound (kinds : list skind) (a : actor) : Prop := exists b, rel a b /\ kinds_of b = kinds.

Lemma sound_step kinds a o : sound kinds a -> well_used kinds o -> sound kinds (fst (astep a o)).
Proof.
  intros (b & HR & HK) HW.
  assert (Go : allowed b o -> sound kinds (fst (astep a o))).
  { intro HA. exists (fst (ideal_step b o)). split; [apply step_ok; assumption|]. rewrite kinds_step. exact HK. }
  destruct o as [j t r|j t|l t|t|j|j v|t]; try (apply Go; exact I).
  - apply Go. destruct HW as [H1 H2]. split; [exact H1|]. destruct (nth_error (i_slots b) j) as [y|] eqn:E; [|exact I].
    intro C. apply H2. rewrite <- HK. unfold kinds_of. rewrite nth_error_map, E. cbn. congruence.
  - clear Go. pose proof HR as (Hnow & HF & HB & HD). cbn [astep].
    pose proof (F2_nth _ _ _ HF j) as Hi.
    destruct (nth_error (a_slots a) j) as [x|] eqn:Ex, (nth_error (i_slots b) j) as [y|] eqn:Ey; try contradiction.
    2:{ exists b. auto. }
    cbn [fst].
    assert (E : exists w, slot_ok (i_now b) (mkSlot (v_kind x) v (v_data x) (v_tasks x)) (mkI (i_kind y) w (i_act y))).
    { destruct Hi as (Hk & Ht & Hn & HS). unfold slot_ok. cbn [v_kind v_tasks v_val v_data i_kind i_act i_val].
      destruct (i_kind y) eqn:Ky.
      - destruct (i_act y); [|contradiction]. exists v. repeat (split; [assumption|]). split; [apply HS|reflexivity].
      - destruct (i_act y) as [|[t r] [|]]; [| |contradiction].
        + exists v. repeat (split; [assumption|]). split; [apply HS|reflexivity].
        + destruct HS as (d & Hd & Hr & Hs & _). eexists. repeat (split; [assumption|]).
          exists d. repeat (split; [assumption|]). reflexivity.
      - destruct (i_act y) as [|p act].
        + exists v. repeat (split; [assumption|]). split; [apply HS|reflexivity].
        + destruct HS as (d & u & Hd & Htk & Hrs & Hl & Hu & _). eexists. repeat (split; [assumption|]).
          exists d, u. repeat (split; [assumption|]). reflexivity. }
    destruct E as (w & Hw).
    exists (mkIA (i_now b) (at_slot j (fun y => mkI (i_kind y) w (i_act y)) (i_slots b))). split.
    + unfold at_slot. rewrite Ey. split; [exact Hnow|]. cbn [set_slot a_slots i_slots i_now a_by_task].
      split; [apply upd_F2; assumption|]. split; [|exact HD].
      intros u k. rewrite HB, (owns_upd b u j _ y) by exact Ey.
      destruct (Nat.eqb_spec j k) as [<-|Hne]; [|tauto]. unfold owns, has. cbn [i_act]. split.
      * intros (z & Hz & H). rewrite Ey in Hz. injection Hz as <-. exact H.
      * intro H. exists y. auto.
    + rewrite <- HK. apply at_slot_kinds. reflexivity.
Qed.
Lemma sound_run kinds os : Forall (well_used kinds) os -> forall a, sound kinds a -> sound kinds (fst (arun a os)).
Proof.
  induction 1 as [|o os H _ IH]; intros a HS; [exact HS|]. rewrite arun_cons. cbn [fst].
  apply IH. apply sound_step; assumption.
Qed.
Lemma sound_init t0 l : sound (map fst l) (ainit t0 l).
Proof.
  exists (ideal_init t0 l). split; [apply init_rel|]. unfold kinds_of. cbn. rewrite map_map. reflexivity.
Qed.

Lemma deactivate_all_releases kinds a t : sound kinds a ->
  snd (astep a (ADeactivateAll t)) = AOk /\
  forall u j, holds (fst (astep a (ADeactivateAll t))) u j <-> holds a u j /\ u <> t.
Proof.
  intros (b & HR & _). destruct (step_ok a b (ADeactivateAll t) HR I) as [Ho HR'].
  cbn [ideal_step snd fst] in Ho, HR'. split.
  { apply (same_ok _ _ Ho). reflexivity. }
  intros u j. rewrite (holds_ideal _ _ u j HR'), (holds_ideal _ _ u j HR). unfold owns. cbn [i_slots].
  rewrite nth_error_map. destruct (nth_error (i_slots b) j) as [y|]; cbn.
  - split.
    + intros (z & Hz & H). injection Hz as <-. rewrite has_without in H. destruct (Nat.eqb_spec t u); [discriminate|].
      split; [exists y; auto|congruence].
    + intros [(z & Hz & H) Hn]. injection Hz as <-. eexists. split; [reflexivity|]. rewrite has_without.
      destruct (Nat.eqb_spec t u); [congruence|exact H].
  - split; [intros (z & Hz & _); discriminate|]. intros [(z & Hz & _) _]. discriminate.
Qed.
